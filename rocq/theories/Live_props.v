(** C130: workflows running at the same time on one AstroRun all come to their ends. *)
From Verif Require Import Base Types Config_model Config_spec Config_props Signals_model Signals_proof Stream_model Cond_model Plugins_model Exec_model Exec_spec Step_props Workflow_model Workflow_spec Workflow_props
  Runner_model Sched_model Remote_model Local_model Local_props Distant_model Worker_model System_model System_spec System_proof System_inst System_props Finish_spec Finish_proof Finish_step Finish_cycle Finish_props
  Workflow_proof Workflow_inv Worker_spec Worker_proof Worker_live Worker_props Chain_model Chain_spec Chain_proof Chain_props Pace_spec Pace_proof Pace_step Pace_chain Pace_props
  Fleet_model Fleet_spec Fleet_proof Fleet_iso Fleet_main Fleet_props Live_spec Live_proof.

(** Take any unending execution of a program that makes contexts, starts workflows, lets time pass and cancels jobs.  A run that nobody with the
    same job ids interferes with (Fleet_spec.v), that is not abandoned and whose commands do not print for ever has a result from some
    time on - whatever the other runs do: they may be abandoned, crash or print for ever. *)
Theorem C130_builtin : forall glob rhooks conf now stf act, fleet_execution (fun cx => builtin cx rhooks conf) glob stf act now -> (forall n, named (stf n)) ->
  forall k n0 cx wf s0, run_at (stf n0) k cx wf s0 -> runnable wf -> (forall n, alone (history act n) (stf n) k) -> (forall n op, act n = Some (FRunOp k op) -> orderly wf tame_local op) ->
  forall gh c code, keeps_steps c ->
  kept_going (fun cx => builtin cx rhooks conf) glob local_kind stf act (goes_on gh (plain_local c code)) k cx wf -> falls_silent local_kind stf act k cx wf ->
  exists r, comes_to stf k cx wf r.
Proof.
  intros glob rhooks conf now stf act Hx Hn k n0 cx wf s0 Hat (H1 & H2 & H3 & H4) Ha Ho gh c code Hc Hk Hs.
  assert (Hnd : NoDup (keys (wf_jobs wf))) by (destruct Hat as (r & ca & Hr & _ & <- & _); exact (Hn _ k r Hr)).
  eapply (live _ glob tame_local (fun cx => builtin_faithful cx rhooks conf) local_kind now stf act Hx Hn k n0 cx wf s0 Hat Ha Ho _ (work_bound 24 wf) 6); [| |exact Hk|exact Hs].
  - intros; eapply C125_builtin; eassumption.
  - intros; eapply C126_builtin_never_stuck; eassumption.
Qed.
Print Assumptions C130_builtin.
Theorem C130_distant : forall glob cl now stf act, fleet_execution (fun cx => distant cx cl) glob stf act now -> (forall n, named (stf n)) ->
  forall k n0 cx wf s0, run_at (stf n0) k cx wf s0 -> runnable wf -> (forall n, alone (history act n) (stf n) k) -> (forall n op, act n = Some (FRunOp k op) -> orderly wf tame_distant op) ->
  forall gh c clients pick rr, keeps_steps c -> client_start clients pick <> None ->
  kept_going (fun cx => distant cx cl) glob distant_kind stf act (goes_on gh (plain_distant c clients pick rr)) k cx wf -> falls_silent distant_kind stf act k cx wf ->
  exists r, comes_to stf k cx wf r.
Proof.
  intros glob cl now stf act Hx Hn k n0 cx wf s0 Hat (H1 & H2 & H3 & H4) Ha Ho gh c clients pick rr Hc Hp Hk Hs.
  assert (Hnd : NoDup (keys (wf_jobs wf))) by (destruct Hat as (r & ca & Hr & _ & <- & _); exact (Hn _ k r Hr)).
  eapply (live _ glob tame_distant (fun cx => distant_faithful cx cl) distant_kind now stf act Hx Hn k n0 cx wf s0 Hat Ha Ho _ (work_bound 24 wf) 7); [| |exact Hk|exact Hs].
  - intros; eapply C125_distant; eassumption.
  - intros; eapply C126_distant_never_stuck; eassumption.
Qed.
Print Assumptions C130_distant.
Theorem C130_chained : forall glob cl sv rhooks conf now stf act, fleet_execution (fun cx => chained cx cl sv rhooks conf) glob stf act now -> (forall n, named (stf n)) ->
  forall k n0 cx wf s0, run_at (stf n0) k cx wf s0 -> runnable wf -> (forall n, alone (history act n) (stf n) k) -> (forall n op, act n = Some (FRunOp k op) -> orderly wf tame_worker op) ->
  forall gh c clients pick code, keeps_steps c -> client_start clients pick <> None ->
  kept_going (fun cx => chained cx cl sv rhooks conf) glob chained_kind stf act (goes_on gh (plain_worker c clients pick code)) k cx wf -> falls_silent chained_kind stf act k cx wf ->
  exists r, comes_to stf k cx wf r.
Proof.
  intros glob cl sv rhooks conf now stf act Hx Hn k n0 cx wf s0 Hat (H1 & H2 & H3 & H4) Ha Ho gh c clients pick code Hc Hp Hk Hs.
  assert (Hnd : NoDup (keys (wf_jobs wf))) by (destruct Hat as (r & ca & Hr & _ & <- & _); exact (Hn _ k r Hr)).
  eapply (live _ glob tame_worker (fun cx => chained_faithful cx cl sv rhooks conf) chained_kind now stf act Hx Hn k n0 cx wf s0 Hat Ha Ho _ (work_bound 76 wf) 12); [| |exact Hk|exact Hs].
  - intros; eapply C125_chained; eassumption.
  - intros; eapply C126_chained_never_stuck; eassumption.
Qed.
Print Assumptions C130_chained.

Lemma all_runs {T iop iobs} (R : ectx -> rside T iop iobs) glob (tame : iop -> Prop) : (forall cx, faithful (R cx) cx) -> forall now stf act, fleet_execution R glob stf act now ->
  (forall n k r, nth_error (fl_runs (stf n)) k = Some r -> (forall key, ~ depends_trans (fr_wf r) key key) /\
     exists pd decode env id config uuid, (forall t w, decode t = inl w -> NoDup (keys (uw_jobs w))) /\ build pd decode env id config uuid = Ok (fr_wf r)) ->
  (forall n k k' r r', k <> k' -> nth_error (fl_runs (stf n)) k = Some r -> nth_error (fl_runs (stf n)) k' = Some r' -> wf_id (fr_wf r) <> wf_id (fr_wf r')) ->
  (forall n k op cx wf s, act n = Some (FRunOp k op) -> run_at (stf n) k cx wf s -> orderly wf tame op) ->
  (forall n, named (stf n)) /\ forall n k cx wf s, run_at (stf n) k cx wf s -> runnable wf /\ (forall n, alone (history act n) (stf n) k) /\ forall n op, act n = Some (FRunOp k op) -> orderly wf tame op.
Proof.
  intros F now stf act Hx Hb Hd Ho.
  assert (NA : forall n, named (stf n) /\ apart (stf n)) by (intros m; apply C128_built; [intros k0 r0 H0; destruct (Hb m k0 r0 H0) as [_ H]; exact H|exact (Hd m)]).
  split; [intros m; apply NA|]. intros n k cx wf s Hat. split; [|split].
  - destruct Hat as (r & ca & Hk & _ & <- & _). destruct (Hb n k r Hk) as [Hcy (pd & decode & env & id & config & uuid & HD & HB)].
    destruct (built_runs _ _ _ _ _ _ _ HD HB) as (Hnd & Hne & Hid & Hw & Hdp). split; [exact Hne|]. split; [|split; assumption].
    apply no_cycle_acyclic; [exact Hnd|exact Hdp|intros [key E]; exact (Hcy key E)].
  - intros m. apply apart_alone, NA.
  - intros m op Ha. assert (Q := proj2 Hx m). rewrite Ha in Q. destruct Q as [o E]. cbn [fstep] in E. destruct (nth_error (fl_runs (stf m)) k) as [r|] eqn:Ek; [|discriminate].
    destruct (nth_error (fl_ctx (stf m)) (fr_ctx r)) as [[cx' ca]|] eqn:Ec; [|discriminate].
    assert (Hat' : run_at (stf m) k cx' (fr_wf r) (settle (fl_now (stf m)) (fl_sm (stf m)) ca (fr_sys r))) by (exists r, ca; auto).
    destruct (same_run R glob F now stf act Hx (fun n => proj1 (NA n)) _ _ _ _ _ _ _ _ _ Hat Hat') as [<- <-]. eapply Ho; eassumption.
Qed.
(** All of them: when the workflows that are ever run come from the builder with different ids and have no cyclic dependencies, no run is
    abandoned and none prints for ever, every run that is started has a result from some time on. *)
Theorem C130_all_builtin : forall glob rhooks conf now stf act, fleet_execution (fun cx => builtin cx rhooks conf) glob stf act now ->
  (forall n k r, nth_error (fl_runs (stf n)) k = Some r -> (forall key, ~ depends_trans (fr_wf r) key key) /\
     exists pd decode env id config uuid, (forall t w, decode t = inl w -> NoDup (keys (uw_jobs w))) /\ build pd decode env id config uuid = Ok (fr_wf r)) ->
  (forall n k k' r r', k <> k' -> nth_error (fl_runs (stf n)) k = Some r -> nth_error (fl_runs (stf n)) k' = Some r' -> wf_id (fr_wf r) <> wf_id (fr_wf r')) ->
  (forall n k op cx wf s, act n = Some (FRunOp k op) -> run_at (stf n) k cx wf s -> orderly wf tame_local op) ->
  forall gh c code, keeps_steps c ->
  (forall k cx wf, kept_going (fun cx => builtin cx rhooks conf) glob local_kind stf act (goes_on gh (plain_local c code)) k cx wf /\ falls_silent local_kind stf act k cx wf) ->
  forall n k cx wf s, run_at (stf n) k cx wf s -> exists r, comes_to stf k cx wf r.
Proof.
  intros until act. intros Hx Hb Hd Ho. intros until code. intros Hc Hf n k cx wf s Hat.
  destruct (all_runs _ glob tame_local (fun cx => builtin_faithful cx rhooks conf) now stf act Hx Hb Hd Ho) as [Hn Hq]. destruct (Hq n k cx wf s Hat) as (Q1 & Q2 & Q3). destruct (Hf k cx wf) as [F1 F2].
  eapply C130_builtin; eassumption.
Qed.
Print Assumptions C130_all_builtin.
Theorem C130_all_distant : forall glob cl now stf act, fleet_execution (fun cx => distant cx cl) glob stf act now ->
  (forall n k r, nth_error (fl_runs (stf n)) k = Some r -> (forall key, ~ depends_trans (fr_wf r) key key) /\
     exists pd decode env id config uuid, (forall t w, decode t = inl w -> NoDup (keys (uw_jobs w))) /\ build pd decode env id config uuid = Ok (fr_wf r)) ->
  (forall n k k' r r', k <> k' -> nth_error (fl_runs (stf n)) k = Some r -> nth_error (fl_runs (stf n)) k' = Some r' -> wf_id (fr_wf r) <> wf_id (fr_wf r')) ->
  (forall n k op cx wf s, act n = Some (FRunOp k op) -> run_at (stf n) k cx wf s -> orderly wf tame_distant op) ->
  forall gh c clients pick rr, keeps_steps c -> client_start clients pick <> None ->
  (forall k cx wf, kept_going (fun cx => distant cx cl) glob distant_kind stf act (goes_on gh (plain_distant c clients pick rr)) k cx wf /\ falls_silent distant_kind stf act k cx wf) ->
  forall n k cx wf s, run_at (stf n) k cx wf s -> exists r, comes_to stf k cx wf r.
Proof.
  intros until act. intros Hx Hb Hd Ho. intros until rr. intros Hc Hp Hf n k cx wf s Hat.
  destruct (all_runs _ glob tame_distant (fun cx => distant_faithful cx cl) now stf act Hx Hb Hd Ho) as [Hn Hq]. destruct (Hq n k cx wf s Hat) as (Q1 & Q2 & Q3). destruct (Hf k cx wf) as [F1 F2].
  eapply C130_distant; eassumption.
Qed.
Print Assumptions C130_all_distant.
Theorem C130_all_chained : forall glob cl sv rhooks conf now stf act, fleet_execution (fun cx => chained cx cl sv rhooks conf) glob stf act now ->
  (forall n k r, nth_error (fl_runs (stf n)) k = Some r -> (forall key, ~ depends_trans (fr_wf r) key key) /\
     exists pd decode env id config uuid, (forall t w, decode t = inl w -> NoDup (keys (uw_jobs w))) /\ build pd decode env id config uuid = Ok (fr_wf r)) ->
  (forall n k k' r r', k <> k' -> nth_error (fl_runs (stf n)) k = Some r -> nth_error (fl_runs (stf n)) k' = Some r' -> wf_id (fr_wf r) <> wf_id (fr_wf r')) ->
  (forall n k op cx wf s, act n = Some (FRunOp k op) -> run_at (stf n) k cx wf s -> orderly wf tame_worker op) ->
  forall gh c clients pick code, keeps_steps c -> client_start clients pick <> None ->
  (forall k cx wf, kept_going (fun cx => chained cx cl sv rhooks conf) glob chained_kind stf act (goes_on gh (plain_worker c clients pick code)) k cx wf /\ falls_silent chained_kind stf act k cx wf) ->
  forall n k cx wf s, run_at (stf n) k cx wf s -> exists r, comes_to stf k cx wf r.
Proof.
  intros until act. intros Hx Hb Hd Ho. intros until code. intros Hc Hp Hf n k cx wf s Hat.
  destruct (all_runs _ glob tame_worker (fun cx => chained_faithful cx cl sv rhooks conf) now stf act Hx Hb Hd Ho) as [Hn Hq]. destruct (Hq n k cx wf s Hat) as (Q1 & Q2 & Q3). destruct (Hf k cx wf) as [F1 F2].
  eapply C130_chained; eassumption.
Qed.
Print Assumptions C130_all_chained.

(** Non-vacuity: workflows "v" and "w" side by side, one action of each in turn, to their ends; then nothing. *)
Definition both_ops : list (fop (iop := lop)) :=
  [FContext c26_cx; FStart 0 (one_wf "v"); FStart 0 (one_wf "w")] ++ flat_map (fun op => [FRunOp 0 op; FRunOp 1 op]) (one_ops 0).
Definition both_state (n : nat) : @fleet (option ltask) :=
  match fexec (fun cx => builtin cx (fun c => c) loc_conf) (fun _ => None) (finit 0%N) (firstn n both_ops) with Some (f, _) => f | None => finit 0%N end.
Lemma finite_fleet {T iop iobs} (R : ectx -> rside T iop iobs) glob now ops f o : fexec R glob (finit now) ops = Some (f, o) ->
  let st n := match fexec R glob (finit now) (firstn n ops) with Some (f, _) => f | None => finit now end in
  fleet_execution R glob st (nth_error ops) now /\ forall n, length ops <= n -> st n = f.
Proof.
  intros E st.
  assert (Ab : forall l s0 n, match nth_error l n, fexec R glob s0 l with
     | Some op, Some _ => exists s1 o1 s2 o2, fexec R glob s0 (firstn n l) = Some (s1, o1) /\ fstep R glob s1 op = Some (s2, o2) /\ exists o3, fexec R glob s0 (firstn (S n) l) = Some (s2, o3)
     | _, _ => True end).
  { induction l as [|op l IH]; intros s0 [|n]; cbn [nth_error]; try exact Logic.I.
    - cbn [fexec firstn]. destruct (fstep R glob s0 op) as [[s1 o1]|] eqn:E1; [|exact Logic.I]. destruct (fexec R glob s1 l) as [[]|]; [|exact Logic.I]. exists s0, [], s1, o1. cbn. eauto.
    - cbn [fexec firstn]. destruct (fstep R glob s0 op) as [[s1 o1]|] eqn:E1; [|destruct (nth_error l n); exact Logic.I].
      specialize (IH s1 n). destruct (nth_error l n); [|exact Logic.I]. destruct (fexec R glob s1 l) as [[]|]; [|exact Logic.I].
      destruct IH as (a & b & c & d & H1 & H2 & o3 & H3). exists a, (o1 ++ b), c, d. rewrite H1. split; [reflexivity|]. split; [exact H2|]. cbn [firstn] in H3. rewrite H3. eauto. }
  assert (Fin : forall n, length ops <= n -> st n = f) by (intros n Hn; unfold st; rewrite firstn_all2 by exact Hn; rewrite E; reflexivity).
  split; [|exact Fin]. split; [reflexivity|]. intros n. specialize (Ab ops (finit now) n). rewrite E in Ab. destruct (nth_error ops n) as [op|] eqn:En.
  - destruct Ab as (a & b & c & d & H1 & H2 & o3 & H3). exists d. unfold st. rewrite H1, H3. exact H2.
  - apply nth_error_None in En. rewrite !Fin by lia. reflexivity.
Qed.
Lemma over_idle {T iop iobs} (R : rside T iop iobs) glob cx wf ikind gh inner s : Pace_props.over s -> ~ can_move R glob cx wf ikind (goes_on gh inner) s.
Proof.
  intros Ho (look & op & s1 & o1 & s2 & o2 & Ha & X & _ & Y & _). apply Forall_app in Ha as [Ha Hb]. inv Hb. destruct look as [|op1 look]; cbn [sysexec] in X.
  - injection X as <- _. rewrite (over_stops R glob cx wf s gh inner op Ho) in Y by assumption. discriminate.
  - inv Ha. rewrite (over_stops R glob cx wf s gh inner op1 Ho) in X by assumption. discriminate.
Qed.
Definition both_len : nat := length both_ops.
Lemma both_wfs n : In (map (fun r => fr_wf r) (fl_runs (both_state n))) [[]; [one_wf "v"]; [one_wf "v"; one_wf "w"]].
Proof.
  destruct (Nat.lt_ge_cases n (S both_len)) as [H|H].
  - assert (A : Forall (fun n => In (map (fun r => fr_wf r) (fl_runs (both_state n))) [[]; [one_wf "v"]; [one_wf "v"; one_wf "w"]]) (seq 0 (S both_len))).
    { let t := eval vm_compute in (seq 0 (S both_len)) in replace (seq 0 (S both_len)) with t by (vm_compute; reflexivity).
      repeat (constructor; [vm_compute; auto|]). constructor. }
    rewrite Forall_forall in A. apply A, in_seq. lia.
  - unfold both_state. rewrite firstn_all2 by (unfold both_len in H; lia). vm_compute. auto.
Qed.
Lemma both_wf n k r : nth_error (fl_runs (both_state n)) k = Some r -> (k = 0 /\ fr_wf r = one_wf "v") \/ (k = 1 /\ fr_wf r = one_wf "w").
Proof.
  intros H. assert (B := both_wfs n). apply (map_nth_error (fun r => fr_wf r)) in H. destruct B as [B|[B|[B|[]]]]; rewrite <- B in H; destruct k as [|[|k]]; try discriminate H; try (injection H as <-; auto); destruct k; discriminate H.
Qed.
Example C130_nonvacuous : exists stf act, fleet_execution (fun cx => builtin cx (fun c => c) loc_conf) (fun _ => None) stf act 0%N /\ (forall n, named (stf n)) /\ (forall n, apart (stf n)) /\
  forall k id, (k, id) = (0, "v") \/ (k, id) = (1, "w") -> (exists s, run_at (stf 3) k c26_cx (one_wf id) s) /\ runnable (one_wf id) /\ (forall n op, act n = Some (FRunOp k op) -> orderly (one_wf id) tame_local op) /\
    (forall gh inner, kept_going (fun cx => builtin cx (fun c => c) loc_conf) (fun _ => None) local_kind stf act (goes_on gh inner) k c26_cx (one_wf id)) /\ falls_silent local_kind stf act k c26_cx (one_wf id).
Proof.
  eassert (X : fexec (fun cx => builtin cx (fun c => c) loc_conf) (fun _ => None) (finit 0%N) both_ops = Some (_, _)) by (vm_compute; reflexivity).
  destruct (finite_fleet _ _ _ _ _ _ X) as [Y Fin]. exists both_state, (nth_error both_ops). split; [exact Y|]. clear X Y Fin.
  split. { intros n k r H. destruct (both_wf n k r H) as [[_ ->]|[_ ->]]; apply one_named. }
  split. { intros n k k' r r' id Hne H H' J J'. destruct (both_wf _ _ _ H) as [[-> E]|[-> E]], (both_wf _ _ _ H') as [[-> E']|[-> E']]; try (destruct (Hne eq_refl); fail); rewrite E in J; rewrite E' in J'.
    all: destruct J as (a & j & [[= <- <-]|[]] & <-), J' as (b & j' & [[= <- <-]|[]] & C); discriminate C. }
  assert (Last : forall n, both_len <= n -> both_state n = both_state both_len) by (intros n Hn; unfold both_state; rewrite !firstn_all2 by (unfold both_len in *; lia); reflexivity).
  assert (L : both_len = 103) by (vm_compute; reflexivity).
  assert (At : forall id k, (k, id) = (0, "v") \/ (k, id) = (1, "w") -> forall n, n = 101 \/ n = 102 \/ n = 103 -> exists s, run_at (both_state n) k c26_cx (one_wf id) s /\ (101 + k < n -> Pace_props.over s)).
  { intros id k [[= -> ->]|[= -> ->]] n [->|[->| ->]].
    all: match goal with |- context [both_state ?n] => let f := eval vm_compute in (both_state n) in replace (both_state n) with f by (vm_compute; reflexivity) end.
    all: eexists; split; [do 2 eexists; split; [reflexivity|]; split; [reflexivity|]; split; reflexivity|].
    all: try (intros C; exfalso; lia). all: intros _; split; [eexists; reflexivity|repeat constructor; eexists; reflexivity]. }
  intros k id Hk. split; [|split; [|split; [|split]]].
  - destruct Hk as [[= -> ->]|[= -> ->]]; match goal with |- context [both_state ?n] => let f := eval vm_compute in (both_state n) in replace (both_state n) with f by (vm_compute; reflexivity) end.
    all: eexists; do 2 eexists; repeat (split; [reflexivity|]); reflexivity.
  - destruct (one_runs id) as (R1 & R2 & R3). split; [exact R1|]. split; [exact R2|]. split; [exact R3|]. apply one_owns.
  - intros n op H. apply nth_error_In in H. clear Hk. vm_compute in H. repeat (destruct H as [H|H]; [try discriminate H; injection H as _ <-; cbn; auto; try exact sys_hooks_keep; try exact Logic.I|]). destruct H.
  - intros gh inner n s Hat Hc. assert (k < 2) by (destruct Hk as [[= -> _]|[= -> _]]; lia). destruct (Nat.le_gt_cases n (101 + k)) as [Hn|Hn].
    + exists (101 + k), (YFlow WMain). split; [exact Hn|]. destruct (At id k Hk (101 + k)) as (s1 & A1 & _); [lia|]. destruct (At id k Hk (S (101 + k))) as (s2 & A2 & _); [lia|].
      exists s1, s2. split; [destruct Hk as [[= -> _]|[= -> _]]; vm_compute; reflexivity|]. split; [exact A1|]. split; [exact A2|]. reflexivity.
    + exfalso. assert (Q : exists m, 101 + k < m /\ (m = 101 \/ m = 102 \/ m = 103) /\ both_state n = both_state m).
      { destruct (Nat.lt_ge_cases n 103) as [Q|Q]; [exists n; repeat split; lia|]. exists 103. split; [lia|]. split; [lia|]. rewrite <- L. apply Last. lia. }
      destruct Q as (m & M1 & M2 & M3). rewrite M3 in Hat. destruct (At id k Hk m M2) as (s1 & A1 & A2). rewrite (run_at_unique _ _ _ _ _ _ Hat A1) in Hc. exact (over_idle _ _ _ _ _ _ _ _ (A2 M1) Hc).
  - exists both_len. intros m op Hm (s & s' & Ha & _). apply nth_error_None in Hm. congruence.
Qed.
