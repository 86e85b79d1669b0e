(** C125, C126: how much work there is in a run, and that a run that is not abandoned comes to its end. *)
From Verif Require Import Base Types Config_model Config_spec Config_props Signals_model Stream_model Cond_model Plugins_model Exec_model Exec_spec Step_props Workflow_model Workflow_spec Workflow_props
  Runner_model Sched_model Remote_model Local_model Local_props Distant_model Worker_model Worker_spec System_model System_spec System_proof System_inst System_props Finish_spec Finish_proof Finish_step Finish_cycle Finish_props
  Chain_model Chain_spec Chain_proof Chain_props Pace_spec Pace_proof Pace_step Pace_chain.

(** *** C125 *)
(** Whatever happens - any interleaving, any hooks, signals, timeouts, failures - the amount of work in a run is bounded by the shape of the
    workflow and the number of lines its commands print.  So the engine neither repeats itself nor busies itself for ever. *)
Theorem C125_builtin : forall glob cx rhooks conf wf sh0 ops s tr, NoDup (keys (wf_jobs wf)) ->
  sysrun (builtin cx rhooks conf) glob cx wf sh0 ops s tr ->
  moves (builtin cx rhooks conf) glob cx wf local_kind (start sh0) ops <= work_bound 24 wf + 6 * lines (builtin cx rhooks conf) glob cx wf local_kind (start sh0) ops.
Proof.
  intros glob cx rhooks conf wf sh0 ops s tr Hnd. apply (bounded _ _ _ _ _ lrx 6 24); [apply builtin_faithful|apply builtin_paced|cbn; lia|exact Hnd].
Qed.
Print Assumptions C125_builtin.
Theorem C125_distant : forall glob cx cl wf sh0 ops s tr, NoDup (keys (wf_jobs wf)) ->
  sysrun (distant cx cl) glob cx wf sh0 ops s tr ->
  moves (distant cx cl) glob cx wf distant_kind (start sh0) ops <= work_bound 24 wf + 7 * lines (distant cx cl) glob cx wf distant_kind (start sh0) ops.
Proof.
  intros glob cx cl wf sh0 ops s tr Hnd. apply (bounded _ _ _ _ _ drx 7 24); [apply distant_faithful|apply distant_paced|cbn; lia|exact Hnd].
Qed.
Print Assumptions C125_distant.
Theorem C125_chained : forall glob cx cl sv rhooks conf wf sh0 ops s tr, NoDup (keys (wf_jobs wf)) ->
  sysrun (chained cx cl sv rhooks conf) glob cx wf sh0 ops s tr ->
  moves (chained cx cl sv rhooks conf) glob cx wf chained_kind (start sh0) ops <= work_bound 76 wf + 12 * lines (chained cx cl sv rhooks conf) glob cx wf chained_kind (start sh0) ops.
Proof.
  intros glob cx cl sv rhooks conf wf sh0 ops s tr Hnd. apply (bounded _ _ _ _ _ krx 12 76); [apply chained_faithful|apply chained_paced|vm_compute; lia|exact Hnd].
Qed.
Print Assumptions C125_chained.

(** *** C126 *)
Lemma quiet_builtin gh c code (s : @system (option ltask)) op s' : goes_on gh (plain_local c code) op -> kind_of local_kind s op s' <> Printed.
Proof.
  destruct op as [[|g|i jo|i|e]|i o|k o]; cbn [goes_on kind_of]; try discriminate; try (intros []; fail).
  intros H. destruct (nth_error (sy_cur s) i); [|discriminate]. destruct (nth_error (ws_tasks (sy_w s')) i) as [t|]; [|discriminate]. destruct (nth_error (sy_cur s') i); [|discriminate].
  destruct (tk_phase t); try discriminate. destruct o as [[]|i0| | |]; cbn [plain_local local_kind engine_kind] in *; try discriminate; try (destruct H; fail); try (destruct (waits _); discriminate).
  destruct H as [->|[->|[->|[->| ->]]]]; discriminate.
Qed.
Lemma quiet_client c clients pick rr o p : plain_distant c clients pick rr o -> client_kind o p <> Printed.
Proof.
  destruct o as [[]|x|cs pk|i|]; cbn [plain_distant client_kind engine_kind]; intros H; try discriminate; try (destruct H; fail); try (destruct (waits _); discriminate).
  destruct H as [->|[->|[->| ->]]]; discriminate.
Qed.
Lemma quiet_distant gh c clients pick rr (s : @system (option dtask)) op s' : goes_on gh (plain_distant c clients pick rr) op -> kind_of distant_kind s op s' <> Printed.
Proof.
  destruct op as [[|g|i jo|i|e]|i o|k o]; cbn [goes_on kind_of]; try discriminate; try (intros []; fail).
  intros H. destruct (nth_error (sy_cur s) i); [|discriminate]. destruct (nth_error (ws_tasks (sy_w s')) i) as [t|]; [|discriminate]. destruct (nth_error (sy_cur s') i); [|discriminate].
  destruct (tk_phase t); try discriminate. eapply quiet_client, H.
Qed.
Lemma quiet_chained gh c clients pick code (s : @system kside) op s' : goes_on gh (plain_worker c clients pick code) op -> kind_of chained_kind s op s' <> Printed.
Proof.
  destruct op as [[|g|i jo|i|e]|i o|k o]; cbn [goes_on kind_of]; try discriminate; try (intros []; fail).
  intros H. destruct (nth_error (sy_cur s) i); [|discriminate]. destruct (nth_error (ws_tasks (sy_w s')) i) as [t|]; [|discriminate]. destruct (nth_error (sy_cur s') i); [|discriminate].
  destruct (tk_phase t); try discriminate. destruct o as [d| |x| | | |]; cbn [chained_kind]; try discriminate.
  - apply (quiet_client c clients pick RSucceeded). destruct d; cbn in *; tauto.
  - cbn in H. destruct H as [->|[->|[->|[->| ->]]]]; discriminate.
  - destruct (_ && _); discriminate.
Qed.

(** Never stuck.  Wherever the run is, either it has its result or it can go on by itself; and the way it goes on is work. *)
Theorem C126_builtin_never_stuck : forall glob cx rhooks conf wf sh0 ops s tr,
  NoDup (keys (wf_jobs wf)) -> wf_jobs wf <> [] -> acyclic wf -> distinct_ids wf -> (forall k j, In (k, j) (wf_jobs wf) -> owns_steps j) ->
  sysrun (builtin cx rhooks conf) glob cx wf sh0 ops s tr -> (forall op, In op ops -> orderly wf tame_local op) ->
  forall gh c code, keeps_steps c ->
  (exists r, ws_main (sy_w s) = WpDone r) \/ can_move (builtin cx rhooks conf) glob cx wf local_kind (goes_on gh (plain_local c code)) s.
Proof.
  intros glob cx rhooks conf wf sh0 ops s tr Hn Hne Ha Hd Ho Hr Hop gh c code Hc.
  eapply (never_stuck _ _ _ _ _ _ (orderly wf tame_local)); [|intros; eapply quiet_builtin; eassumption|exact Hr|exact Hop].
  intros; eapply C108_builtin; eassumption.
Qed.
Print Assumptions C126_builtin_never_stuck.
Theorem C126_distant_never_stuck : forall glob cx cl wf sh0 ops s tr,
  NoDup (keys (wf_jobs wf)) -> wf_jobs wf <> [] -> acyclic wf -> distinct_ids wf -> (forall k j, In (k, j) (wf_jobs wf) -> owns_steps j) ->
  sysrun (distant cx cl) glob cx wf sh0 ops s tr -> (forall op, In op ops -> orderly wf tame_distant op) ->
  forall gh c clients pick rr, keeps_steps c -> client_start clients pick <> None ->
  (exists r, ws_main (sy_w s) = WpDone r) \/ can_move (distant cx cl) glob cx wf distant_kind (goes_on gh (plain_distant c clients pick rr)) s.
Proof.
  intros glob cx cl wf sh0 ops s tr Hn Hne Ha Hd Ho Hr Hop gh c clients pick rr Hc Hp.
  eapply (never_stuck _ _ _ _ _ _ (orderly wf tame_distant)); [|intros; eapply quiet_distant; eassumption|exact Hr|exact Hop].
  intros; eapply C108_distant; eassumption.
Qed.
Print Assumptions C126_distant_never_stuck.
Theorem C126_chained_never_stuck : forall glob cx cl sv rhooks conf wf sh0 ops s tr,
  NoDup (keys (wf_jobs wf)) -> wf_jobs wf <> [] -> acyclic wf -> distinct_ids wf -> (forall k j, In (k, j) (wf_jobs wf) -> owns_steps j) ->
  sysrun (chained cx cl sv rhooks conf) glob cx wf sh0 ops s tr -> (forall op, In op ops -> orderly wf tame_worker op) ->
  forall gh c clients pick code, keeps_steps c -> client_start clients pick <> None ->
  (exists r, ws_main (sy_w s) = WpDone r) \/ can_move (chained cx cl sv rhooks conf) glob cx wf chained_kind (goes_on gh (plain_worker c clients pick code)) s.
Proof.
  intros glob cx cl sv rhooks conf wf sh0 ops s tr Hn Hne Ha Hd Ho Hr Hop gh c clients pick code Hc Hp.
  eapply (never_stuck _ _ _ _ _ _ (orderly wf tame_worker)); [|intros; eapply quiet_chained; eassumption|exact Hr|exact Hop].
  intros; eapply C115_completes; eassumption.
Qed.
Print Assumptions C126_chained_never_stuck.

(** Inevitable completion.  Take any unending execution - any schedule, signals and timeouts at any time, any failures, hooks that leave steps in
    their jobs, nobody else registering the run's jobs.  If the run is not abandoned (whenever some work could be done without anything from
    outside, some work, not necessarily that, is done eventually) and its commands do not print for ever, then the run has a result from some time on. *)
Theorem C126_builtin : forall glob cx rhooks conf wf sh0 st act,
  NoDup (keys (wf_jobs wf)) -> wf_jobs wf <> [] -> acyclic wf -> distinct_ids wf -> (forall k j, In (k, j) (wf_jobs wf) -> owns_steps j) ->
  execution (builtin cx rhooks conf) glob cx wf sh0 st act -> (forall n op, act n = Some op -> orderly wf tame_local op) ->
  forall gh c code, keeps_steps c ->
  not_abandoned (builtin cx rhooks conf) glob cx wf local_kind (goes_on gh (plain_local c code)) st act -> prints_finitely local_kind st act ->
  exists n r, forall m, n <= m -> ws_main (sy_w (st m)) = WpDone r.
Proof.
  intros glob cx rhooks conf wf sh0 st act Hn Hne Ha Hd Ho Hx Hop gh c code Hc Hf Hp.
  eapply (inevitable _ _ _ _ _ (goes_on gh (plain_local c code)) (orderly wf tame_local) (work_bound 24 wf) 6); try eassumption.
  - intros; eapply C125_builtin; eassumption.
  - intros; eapply C108_builtin; eassumption.
  - intros; eapply quiet_builtin; eassumption.
Qed.
Print Assumptions C126_builtin.
Theorem C126_distant : forall glob cx cl wf sh0 st act,
  NoDup (keys (wf_jobs wf)) -> wf_jobs wf <> [] -> acyclic wf -> distinct_ids wf -> (forall k j, In (k, j) (wf_jobs wf) -> owns_steps j) ->
  execution (distant cx cl) glob cx wf sh0 st act -> (forall n op, act n = Some op -> orderly wf tame_distant op) ->
  forall gh c clients pick rr, keeps_steps c -> client_start clients pick <> None ->
  not_abandoned (distant cx cl) glob cx wf distant_kind (goes_on gh (plain_distant c clients pick rr)) st act -> prints_finitely distant_kind st act ->
  exists n r, forall m, n <= m -> ws_main (sy_w (st m)) = WpDone r.
Proof.
  intros glob cx cl wf sh0 st act Hn Hne Ha Hd Ho Hx Hop gh c clients pick rr Hc Hk Hf Hp.
  eapply (inevitable _ _ _ _ _ (goes_on gh (plain_distant c clients pick rr)) (orderly wf tame_distant) (work_bound 24 wf) 7); try eassumption.
  - intros; eapply C125_distant; eassumption.
  - intros; eapply C108_distant; eassumption.
  - intros; eapply quiet_distant; eassumption.
Qed.
Print Assumptions C126_distant.
Theorem C126_chained : forall glob cx cl sv rhooks conf wf sh0 st act,
  NoDup (keys (wf_jobs wf)) -> wf_jobs wf <> [] -> acyclic wf -> distinct_ids wf -> (forall k j, In (k, j) (wf_jobs wf) -> owns_steps j) ->
  execution (chained cx cl sv rhooks conf) glob cx wf sh0 st act -> (forall n op, act n = Some op -> orderly wf tame_worker op) ->
  forall gh c clients pick code, keeps_steps c -> client_start clients pick <> None ->
  not_abandoned (chained cx cl sv rhooks conf) glob cx wf chained_kind (goes_on gh (plain_worker c clients pick code)) st act -> prints_finitely chained_kind st act ->
  exists n r, forall m, n <= m -> ws_main (sy_w (st m)) = WpDone r.
Proof.
  intros glob cx cl sv rhooks conf wf sh0 st act Hn Hne Ha Hd Ho Hx Hop gh c clients pick code Hc Hk Hf Hp.
  eapply (inevitable _ _ _ _ _ (goes_on gh (plain_worker c clients pick code)) (orderly wf tame_worker) (work_bound 76 wf) 12); try eassumption.
  - intros; eapply C125_chained; eassumption.
  - intros; eapply C115_completes; eassumption.
  - intros; eapply quiet_chained; eassumption.
Qed.
Print Assumptions C126_chained.

(** For what the builder returns only the absence of cyclic dependencies is left to ask for. *)
Theorem C126_built : forall pd decode env id config uuid wf, (forall t w, decode t = inl w -> NoDup (keys (uw_jobs w))) ->
  build pd decode env id config uuid = Ok wf -> (forall k, ~ depends_trans wf k k) ->
  forall glob cx cl sv rhooks conf srhooks sconf sh0 gh c clients pick code rr, keeps_steps c -> client_start clients pick <> None ->
  (forall st act, execution (builtin cx rhooks conf) glob cx wf sh0 st act -> (forall n op, act n = Some op -> orderly wf tame_local op) ->
   not_abandoned (builtin cx rhooks conf) glob cx wf local_kind (goes_on gh (plain_local c code)) st act -> prints_finitely local_kind st act ->
   exists n r, forall m, n <= m -> ws_main (sy_w (st m)) = WpDone r) /\
  (forall st act, execution (distant cx cl) glob cx wf sh0 st act -> (forall n op, act n = Some op -> orderly wf tame_distant op) ->
   not_abandoned (distant cx cl) glob cx wf distant_kind (goes_on gh (plain_distant c clients pick rr)) st act -> prints_finitely distant_kind st act ->
   exists n r, forall m, n <= m -> ws_main (sy_w (st m)) = WpDone r) /\
  (forall st act, execution (chained cx cl sv srhooks sconf) glob cx wf sh0 st act -> (forall n op, act n = Some op -> orderly wf tame_worker op) ->
   not_abandoned (chained cx cl sv srhooks sconf) glob cx wf chained_kind (goes_on gh (plain_worker c clients pick code)) st act -> prints_finitely chained_kind st act ->
   exists n r, forall m, n <= m -> ws_main (sy_w (st m)) = WpDone r).
Proof.
  intros pd decode env id config uuid wf HD HB Hc glob cx cl sv rhooks conf srhooks sconf sh0 gh c clients pick code rr Hk Hp. destruct (built_runs _ _ _ _ _ _ _ HD HB) as (Hnd & Hne & Hid & Ho & Hd).
  assert (Ha : acyclic wf) by (apply no_cycle_acyclic; [exact Hnd|exact Hd|intros [k E]; exact (Hc k E)]).
  split; [|split]; intros; [eapply C126_builtin|eapply C126_distant|eapply C126_chained]; eassumption.
Qed.
Print Assumptions C126_built.

(** *** Non-vacuity: the two-job workflow, run to its end, then nothing. *)
Section Ends.
Context {T iop iobs : Type}.
Variable R : rside T iop iobs.
Variable glob : glob_oracle.
Variable cx : ectx.
Variable wf : workflow.
Variable ikind : T -> iop -> step_phase -> T -> kind.
Definition over (s : @system T) : Prop := (exists r, ws_main (sy_w s) = WpDone r) /\ Forall (fun t => tk_sent t = true /\ exists r, tk_phase t = JpReturned r) (ws_tasks (sy_w s)).
Lemma over_stops s gh inner (op : sysop (iop := iop)) : over s -> goes_on gh inner op -> sysstep R glob cx wf s op = None.
Proof.
  intros [[r Hm] Ht] Hg. rewrite Forall_forall in Ht.
  destruct op as [[|g|i jo|i|e]|i o|k o]; try (destruct Hg; fail); cbn [sysstep].
  - cbn [is_step_op wstep]. unfold main_step. rewrite Hm. reflexivity.
  - cbn [is_step_op wstep]. rewrite Hm. reflexivity.
  - destruct (is_step_op (WTaskOp i jo)); [reflexivity|]. cbn [wstep]. destruct (nth_error (ws_tasks (sy_w s)) i) as [t|] eqn:E; [|reflexivity].
    destruct (Ht t (nth_error_In _ _ E)) as (_ & r' & P). rewrite P. destruct jo; reflexivity.
  - cbn [is_step_op wstep]. destruct (nth_error (ws_tasks (sy_w s)) i) as [t|] eqn:E; [|reflexivity].
    destruct (Ht t (nth_error_In _ _ E)) as (S' & r' & P). destruct t as [k0 j0 p0 b0]. cbn in P, S'. subst. reflexivity.
  - destruct (nth_error (ws_tasks (sy_w s)) i) as [t|] eqn:E; [|reflexivity]. destruct (Ht t (nth_error_In _ _ E)) as (_ & r' & P). rewrite P. destruct (nth_error (sy_cur s) i); reflexivity.
Qed.
Variable sh0 : shared.
Variable pre : list (sysop (iop := iop)).
Notation ops := (pre ++ [YFlow WMain]).
Definition upto_state (n : nat) : @system T := match sysexec R glob cx wf (start sh0) (firstn n ops) with Some (s, _) => s | None => start sh0 end.
Lemma finite_execution s o : sysexec R glob cx wf (start sh0) ops = Some (s, o) -> over s ->
  execution R glob cx wf sh0 upto_state (nth_error ops) /\ (forall gh inner, not_abandoned R glob cx wf ikind (goes_on gh inner) upto_state (nth_error ops)) /\
  prints_finitely ikind upto_state (nth_error ops).
Proof.
  intros E Ho.
  assert (Ab : forall l s0 n, match nth_error l n, sysexec R glob cx wf s0 l with
     | Some op, Some _ => exists s1 o1 s2 o2, sysexec R glob cx wf s0 (firstn n l) = Some (s1, o1) /\ sysstep R glob cx wf s1 op = Some (s2, o2) /\ exists o3, sysexec R glob cx wf s0 (firstn (S n) l) = Some (s2, o3)
     | _, _ => True end).
  { induction l as [|op l IH]; intros s0 [|n]; cbn [nth_error]; try exact Logic.I.
    - cbn [sysexec firstn]. destruct (sysstep R glob cx wf s0 op) as [[s1 o1]|] eqn:E1; [|exact Logic.I]. destruct (sysexec R glob cx wf s1 l) as [[]|]; [|exact Logic.I].
      exists s0, [], s1, o1. cbn. eauto.
    - cbn [sysexec firstn]. destruct (sysstep R glob cx wf s0 op) as [[s1 o1]|] eqn:E1; [|destruct (nth_error l n); exact Logic.I].
      specialize (IH s1 n). destruct (nth_error l n); [|exact Logic.I]. destruct (sysexec R glob cx wf s1 l) as [[]|]; [|exact Logic.I].
      destruct IH as (a & b & c & d & H1 & H2 & o3 & H3). exists a, (o1 ++ b), c, d. rewrite H1. split; [reflexivity|]. split; [exact H2|]. cbn [firstn] in H3. rewrite H3. eauto. }
  assert (Fin : forall n, length ops <= n -> upto_state n = s) by (intros n Hn; unfold upto_state; rewrite firstn_all2 by exact Hn; rewrite E; reflexivity).
  split; [split; [reflexivity|]|split].
  - intros n. specialize (Ab ops (start sh0) n). rewrite E in Ab. destruct (nth_error ops n) as [op|] eqn:En.
    + destruct Ab as (a & b & c & d & H1 & H2 & o3 & H3). exists d. unfold upto_state. rewrite H1, H3. exact H2.
    + apply nth_error_None in En. rewrite !Fin by lia. reflexivity.
  - intros gh inner n (look & op & s1 & o1 & s2 & o2 & Ha & X & Hk & Y & M). destruct (Nat.lt_ge_cases n (length ops)) as [Hl|Hl].
    + exists (length pre), (YFlow WMain). rewrite app_length in Hl. cbn [length] in Hl. split; [lia|]. split; [rewrite nth_error_app2, Nat.sub_diag by lia; reflexivity|reflexivity].
    + exfalso. rewrite (Fin n Hl) in X. apply Forall_app in Ha as [Ha Hb]. inv Hb. destruct look as [|op1 look]; cbn [sysexec] in X.
      * injection X as <- _. rewrite (over_stops s gh inner op Ho) in Y by assumption. discriminate.
      * inv Ha. rewrite (over_stops s gh inner op1 Ho) in X by assumption. discriminate.
  - exists (length ops). intros m op Hm Em. apply nth_error_None in Hm. congruence.
Qed.
End Ends.
Lemma sys_shape : NoDup (keys (wf_jobs sys_wf)) /\ wf_jobs sys_wf <> [] /\ acyclic sys_wf /\ distinct_ids sys_wf /\ (forall k j, In (k, j) (wf_jobs sys_wf) -> owns_steps j).
Proof.
  split; [repeat constructor; cbn; intuition discriminate|]. split; [discriminate|]. split; [exact sys_acyclic|].
  split; [intros k1 k2 j1 j2 [[= <- <-]|[[= <- <-]|[]]] [[= <- <-]|[[= <- <-]|[]]]; cbn; congruence|exact sys_owns].
Qed.
(** The whole runs of System_props.v and Chain_props.v: their work and the lines printed. *)
Example C125_nonvacuous :
  (exists s tr, sysrun (builtin c26_cx (fun c => c) loc_conf) (fun _ => None) c26_cx sys_wf sys_sh (sys_ops 0) s tr) /\
  moves (builtin c26_cx (fun c => c) loc_conf) (fun _ => None) c26_cx sys_wf local_kind (start sys_sh) (sys_ops 0) = 88 /\
  lines (builtin c26_cx (fun c => c) loc_conf) (fun _ => None) c26_cx sys_wf local_kind (start sys_sh) (sys_ops 0) = 2 /\
  moves ch (fun _ => None) c26_cx sys_wf chained_kind (start sys_sh) (ch_ops 0) = 110 /\ lines ch (fun _ => None) c26_cx sys_wf chained_kind (start sys_sh) (ch_ops 0) = 2.
Proof.
  split; [do 2 eexists; eapply (sysexec_run _ _ _ _ _ (sys_ops 0) [] _ [] _ _ (sysrun_init _ _ _ _ _)); vm_compute; reflexivity|].
  repeat split; vm_compute; reflexivity.
Qed.
Ltac orderly_ops := let H := fresh in intros n op H; apply nth_error_In in H; vm_compute in H; repeat (destruct H as [<-|H]; [cbn; auto; try exact sys_hooks_keep; try exact Logic.I|]); destruct H.
Ltac is_over := split; [eexists; reflexivity|repeat constructor; eexists; reflexivity].
Example C126_nonvacuous :
  (exists st act, execution (builtin c26_cx (fun c => c) loc_conf) (fun _ => None) c26_cx sys_wf sys_sh st act /\ (forall n op, act n = Some op -> orderly sys_wf tame_local op) /\
     (forall gh inner, not_abandoned (builtin c26_cx (fun c => c) loc_conf) (fun _ => None) c26_cx sys_wf local_kind (goes_on gh inner) st act) /\ prints_finitely local_kind st act) /\
  (exists st act, execution (distant c26_cx (fun t => t + 100)) (fun _ => None) c26_cx sys_wf sys_sh st act /\ (forall n op, act n = Some op -> orderly sys_wf tame_distant op) /\
     (forall gh inner, not_abandoned (distant c26_cx (fun t => t + 100)) (fun _ => None) c26_cx sys_wf distant_kind (goes_on gh inner) st act) /\ prints_finitely distant_kind st act) /\
  (exists st act, execution ch (fun _ => None) c26_cx sys_wf sys_sh st act /\ (forall n op, act n = Some op -> orderly sys_wf tame_worker op) /\
     (forall gh inner, not_abandoned ch (fun _ => None) c26_cx sys_wf chained_kind (goes_on gh inner) st act) /\ prints_finitely chained_kind st act).
Proof.
  split; [|split].
  - assert (E : sys_ops 0 = removelast (sys_ops 0) ++ [YFlow WMain]) by (vm_compute; reflexivity).
    eassert (X : sysexec (builtin c26_cx (fun c => c) loc_conf) (fun _ => None) c26_cx sys_wf (start sys_sh) (removelast (sys_ops 0) ++ [YFlow WMain]) = Some (_, _)) by (vm_compute; reflexivity).
    apply (finite_execution _ _ _ _ local_kind) in X as (X1 & X2 & X3); [|is_over]. do 2 eexists. split; [exact X1|]. rewrite <- E in *. split; [orderly_ops|]. split; assumption.
  - assert (E : rsys_ops RSucceeded = removelast (rsys_ops RSucceeded) ++ [YFlow WMain]) by (vm_compute; reflexivity).
    eassert (X : sysexec (distant c26_cx (fun t => t + 100)) (fun _ => None) c26_cx sys_wf (start sys_sh) (removelast (rsys_ops RSucceeded) ++ [YFlow WMain]) = Some (_, _)) by (vm_compute; reflexivity).
    apply (finite_execution _ _ _ _ distant_kind) in X as (X1 & X2 & X3); [|is_over]. do 2 eexists. split; [exact X1|]. rewrite <- E in *. split; [orderly_ops|]. split; assumption.
  - assert (E : ch_ops 0 = removelast (ch_ops 0) ++ [YFlow WMain]) by (vm_compute; reflexivity).
    eassert (X : sysexec ch (fun _ => None) c26_cx sys_wf (start sys_sh) (removelast (ch_ops 0) ++ [YFlow WMain]) = Some (_, _)) by (vm_compute; reflexivity).
    apply (finite_execution _ _ _ _ chained_kind) in X as (X1 & X2 & X3); [|is_over]. do 2 eexists. split; [exact X1|]. rewrite <- E in *. split; [orderly_ops|]. split; assumption.
Qed.
