(** Whose signals are raised elsewhere makes no difference to a run. *)
From Verif Require Import Base Types Signals_model Signals_proof Stream_model Cond_model Plugins_model Exec_model Exec_spec Step_proof Job_proof Reg_proof Exact_crash Workflow_model Workflow_spec Workflow_proof Workflow_inv Workflow_term
  Runner_model Remote_model Local_model Local_spec Distant_model Worker_model System_model System_spec System_proof System_flow System_inst Finish_spec Finish_proof Chain_model Fleet_model Fleet_spec Fleet_proof.

(** ** Two states of the shared part that differ in signals outside [D] and in pending calls only. *)
Record agree (D : nat -> Prop) (sh sh2 : shared) : Prop := Agree {
  ag_now : sh_now sh2 = sh_now sh; ag_cache : sh_cache sh2 = sh_cache sh; ag_reg : sm_reg (sh_sm sh2) = sm_reg (sh_sm sh);
  ag_len : length (sm_heap (sh_sm sh2)) = length (sm_heap (sh_sm sh));
  ag_cell : forall a, D a -> nth_error (sm_heap (sh_sm sh2)) a = nth_error (sm_heap (sh_sm sh)) a }.
Lemma agree_weaken (D D' : nat -> Prop) sh sh2 : (forall a, D' a -> D a) -> agree D sh sh2 -> agree D' sh sh2.
Proof. intros H [H1 H2 H3 H4 H5]. split; auto. Qed.
Lemma agree_set_cache D c sh sh2 : agree D sh sh2 -> agree D (set_cache c sh) (set_cache c sh2).
Proof. intros [H1 H2 H3 H4 H5]. split; auto. Qed.
Lemma nth_both {A} (l l2 : list A) a : length l2 = length l -> nth_error l a = None -> nth_error l2 a = None.
Proof. intros H E. apply nth_error_None in E. apply nth_error_None. lia. Qed.
Lemma agree_poll D sh sh2 a o : agree D sh sh2 -> agree D (set_sm (fst (sm_step (sh_sm sh) (MSignal a o))) sh) (set_sm (fst (sm_step (sh_sm sh2) (MSignal a o))) sh2).
Proof.
  intros [H1 H2 H3 H4 H5]. unfold set_sm, sm_step. destruct (nth_error (sm_heap (sh_sm sh)) a) as [c|] eqn:Ec.
  - destruct (nth_error (sm_heap (sh_sm sh2)) a) as [c2|] eqn:Ec2; [|apply nth_error_None in Ec2; assert (a < length (sm_heap (sh_sm sh))) by (apply nth_error_Some; congruence); lia].
    destruct (sig_step c o) as [c' r] eqn:E1, (sig_step c2 o) as [c2' r2] eqn:E2. split; cbn [fst sh_now sh_cache sh_sm sm_reg sm_heap]; try assumption; [rewrite !list_set_length; exact H4|].
    intros b Hb. destruct (Nat.eq_dec b a) as [->|Hne]; [|rewrite !list_set_ne by exact Hne; auto].
    rewrite (list_set_eq _ _ _ _ Ec), (list_set_eq _ _ _ _ Ec2). specialize (H5 a Hb). congruence.
  - rewrite (nth_both _ _ _ H4 Ec). destruct sh, sh2. split; assumption.
Qed.
Lemma agree_register D sh sh2 id : agree D sh sh2 -> agree D (set_sm (fst (sm_step (sh_sm sh) (MRegister id))) sh) (set_sm (fst (sm_step (sh_sm sh2) (MRegister id))) sh2).
Proof.
  intros [H1 H2 H3 H4 H5]. split; cbn; try assumption; [rewrite H3, H4; reflexivity|rewrite !app_length, H4; reflexivity|].
  intros b Hb. destruct (Nat.lt_ge_cases b (length (sm_heap (sh_sm sh)))) as [L|L]; [rewrite !nth_error_app1 by lia; auto|rewrite !nth_error_app2 by lia; rewrite H4; reflexivity].
Qed.
Lemma agree_unregister D sh sh2 id : agree D sh sh2 -> agree D (set_sm (fst (sm_step (sh_sm sh) (MUnregister id))) sh) (set_sm (fst (sm_step (sh_sm sh2) (MUnregister id))) sh2).
Proof. intros [H1 H2 H3 H4 H5]. split; cbn; try assumption. rewrite H3. reflexivity. Qed.

(** ** Steps *)
Lemma step_agree D cx me sh sh2 p op sh' p' o : agree D sh sh2 -> (forall a, sp_addr p = Some a -> D a) -> step_step cx me sh p op = Some (sh', p', o) ->
  exists sh2', step_step cx me sh2 p op = Some (sh2', p', o) /\ agree D sh' sh2'.
Proof.
  intros A Ha E. assert (A' := A). destruct A' as [H1 H2 H3 H4 H5]. unfold step_step in E |- *.
  destruct p; destruct op; try discriminate E; try (injection E as <- <- <-; rewrite ?H1; eexists; split; [reflexivity|exact A]);
    try (destruct (runner_step _ _ _); injection E as <- <- <-; eexists; split; [reflexivity|exact A]).
  - rewrite H3. destruct (lookup _ _); injection E as <- <- <-; eexists; (split; [reflexivity|exact A]).
  - destruct ok; injection E as <- <- <-; eexists; (split; [reflexivity|exact A]).
  - rewrite H1. destruct (_ <=? _)%N; [|discriminate]. injection E as <- <- <-. eexists; split; [reflexivity|exact A].
  - assert (P := agree_poll D sh sh2 a (OPoll me) A). unfold sm_step in E, P |- *. rewrite (H5 a (Ha a eq_refl)) in *. destruct (nth_error (sm_heap (sh_sm sh)) a) as [c|]; [|discriminate].
    destruct (sig_step c (OPoll me)) as [c' [| |[g|]]]; try discriminate; injection E as <- <- <-; eexists; (split; [reflexivity|exact P]).
  - destruct (stream_poll _ _) as [[str' [l| |]] w]; injection E as <- <- <-; eexists; (split; [reflexivity|exact A]).
  - destruct (ss_result str); injection E as <- <- <-; eexists; (split; [reflexivity|exact A]).
Qed.
Lemma runner_any cx me sh sh2 p o : match step_step cx me sh p (OpRunner o) with
  | Some (sh', p', out) => sh' = sh /\ step_step cx me sh2 p (OpRunner o) = Some (sh2, p', out) | None => step_step cx me sh2 p (OpRunner o) = None end.
Proof. destruct p; cbn; try reflexivity; destruct (runner_step o sg str); split; reflexivity. Qed.

(** Where a step gets its signal. *)
Lemma addr_step cx me sh p op sh' p' o a : step_step cx me sh p op = Some (sh', p', o) -> sp_addr p' = Some a ->
  sp_addr p = Some a \/ exists st t0, p = SpGetSignal st t0 /\ lookup (step_id_job_id (st_id st)) (sm_reg (sh_sm sh)) = Some a.
Proof.
  intros E Ea. unfold step_step in E.
  destruct p; destruct op; try discriminate E; try (injection E as <- <- <-; cbn in *; solve [auto|discriminate]);
    try (destruct (runner_step _ _ _); injection E as <- <- <-; cbn in *; solve [auto|discriminate]).
  - destruct (lookup _ _) as [b|] eqn:El; injection E as <- <- <-; cbn in *; [|discriminate]. injection Ea as ->. right. eauto.
  - destruct ok; injection E as <- <- <-; cbn in *; solve [auto|discriminate].
  - destruct (_ <=? _)%N; [|discriminate]. injection E as <- <- <-; cbn in *; auto.
  - destruct (sm_step _ _) as [sm' [| | |so|]] eqn:Es; try discriminate. destruct so as [| |[s|]]; try discriminate; injection E as <- <- <-; cbn in *; auto.
  - destruct (stream_poll _ _) as [[str' [l| |]] w]; injection E as <- <- <-; cbn in *; auto.
  - destruct (ss_result str) eqn:Er; injection E as <- <- <-; cbn in *; discriminate.
Qed.

Section O.
Context {T iop iobs : Type}.
Variable R : rside T iop iobs.
Definition oblivious : Prop := forall D me sh sh2 p x op sh' p' x' o, agree D sh sh2 -> (forall a, sp_addr p = Some a -> D a) -> rs_step R me sh p x op = Some (sh', p', x', o) ->
  exists sh2', rs_step R me sh2 p x op = Some (sh2', p', x', o) /\ agree D sh' sh2'.
End O.

Lemma builtin_oblivious cx rhooks conf : oblivious (builtin cx rhooks conf).
Proof.
  intros D me sh sh2 p x op sh' p' x' o A Ha E. unfold builtin in *. cbn [rs_step] in *.
  destruct op as [eo| |i| |e]; [| | | |discriminate E]; cbn [lstep lo_sh lo_step lo_task] in *.
  - assert (K : forall t, match step_step cx me sh p eo with Some (sh', p', obs) => Some (LState sh' p' (option_map (see_signal p') t), map LObs obs) | None => None end = Some (LState sh' p' x', o) ->
      exists sh2', match step_step cx me sh2 p eo with Some (sh', p', obs) => Some (LState sh' p' (option_map (see_signal p') t), map LObs obs) | None => None end = Some (LState sh2' p' x', o) /\ agree D sh' sh2').
    { intros t H. destruct (step_step cx me sh p eo) as [[[sh1 p1] o1]|] eqn:Es; [|discriminate]. injection H as <- <- <- <-.
      destruct (step_agree _ _ _ _ _ _ _ _ _ _ A Ha Es) as (sh2' & E2 & A2). rewrite E2. exists sh2'. split; [reflexivity|exact A2]. }
    assert (G : forall X Y : option (lstate * list lobs), (forall s', X = Some (s', o) -> s' = LState sh' p' x' -> exists sh2', Y = Some (LState sh2' p' x', o) /\ agree D sh' sh2') ->
      match X with Some (s', o) => Some (lo_sh s', lo_step s', lo_task s', o) | None => None end = Some (sh', p', x', o) ->
      exists sh2', match Y with Some (s', o) => Some (lo_sh s', lo_step s', lo_task s', o) | None => None end = Some (sh2', p', x', o) /\ agree D sh' sh2').
    { intros X Y H1 H2. destruct X as [[s' o']|]; [|discriminate]. injection H2 as <- <- <- <-. destruct s' as [a b c]. destruct (H1 _ eq_refl eq_refl) as (sh2' & -> & A2). exists sh2'. split; [reflexivity|exact A2]. }
    revert E. apply G. intros s' Hx ->.
    destruct eo as [|c|[]| | | |ro]; try discriminate Hx; try (apply K; exact Hx). destruct x as [t|]; [|discriminate Hx]. apply K. exact Hx.
  - destruct p; try discriminate E. destruct x; [discriminate|]. injection E as <- <- <- <-. eexists; split; [reflexivity|exact A].
  - destruct i; destruct x as [[c y [|q qs]]|]; try discriminate E; destruct (xstep c y _) as [[y' o']|] eqn:Ex; try discriminate E; injection E as <- <- <- <-; eexists; (split; [reflexivity|exact A]).
  - destruct x as [[c y [|q qs]]|]; try discriminate E. assert (Q := runner_any cx me sh sh2 p q). destruct (step_step cx me sh p (OpRunner q)) as [[[sh1 p1] o1]|].
    + destruct Q as [-> ->]. injection E as <- <- <- <-. eexists; split; [reflexivity|exact A].
    + rewrite Q. injection E as <- <- <- <-. eexists; split; [reflexivity|exact A].
Qed.
Lemma at_engine_any cx me sh sh2 p x o : at_engine cx me (DState sh p x) o = at_engine cx me (DState sh2 p x) o.
Proof. unfold at_engine. cbn [ds_sh ds_step]. assert (Q := runner_any cx me sh sh2 p o). destruct (step_step cx me sh p (OpRunner o)) as [[[sh1 p1] o1]|]; [destruct Q as [_ ->]|rewrite Q]; reflexivity. Qed.
Lemma dstep_agree D cx me cl sh sh2 p x op d' o : (forall e, op <> DWorld e) -> agree D sh sh2 -> (forall a, sp_addr p = Some a -> D a) -> dstep cx me cl (DState sh p x) op = Some (d', o) ->
  exists sh2', dstep cx me cl (DState sh2 p x) op = Some (DState sh2' (ds_step d') (ds_task d'), o) /\ agree D (ds_sh d') sh2'.
Proof.
  intros Nw A Ha E.
  assert (K : forall eo, dengine cx me (DState sh p x) eo = Some (d', o) -> exists sh2', dengine cx me (DState sh2 p x) eo = Some (DState sh2' (ds_step d') (ds_task d'), o) /\ agree D (ds_sh d') sh2').
  { intros eo H. unfold dengine in *. cbn [ds_sh ds_step ds_task] in *. destruct (step_step cx me sh p eo) as [[[sh1 p1] o1]|] eqn:Es; [|discriminate]. injection H as <- <-.
    destruct (step_agree _ _ _ _ _ _ _ _ _ _ A Ha Es) as (sh2' & E2 & A2). rewrite E2. exists sh2'. split; [reflexivity|exact A2]. }
  destruct op as [eo|clients pick|i| |e]; [| | | |destruct (Nw e eq_refl)]; cbn [dstep ds_sh ds_step ds_task] in *.
  - destruct eo as [|c|[]| | | |ro]; try discriminate E; try (apply K; exact E). destruct x as [[[r|] sg [|q qs]]|]; try discriminate E; apply K; exact E.
  - destruct p; try discriminate E. destruct x; [discriminate|]. destruct (client_start clients pick) as [[effs|m]|]; try discriminate E; injection E as <- <-; eexists; (split; [reflexivity|exact A]).
  - destruct x as [[[r|] sg pend]|]; try discriminate E. destruct (_ && _); [discriminate|]. destruct (remote_step r i) as [r'|]; [|discriminate].
    destruct i; try (injection E as <- <-; eexists; split; [reflexivity|exact A]). destruct (sig_poll cl sg) as [sg' [g'|]]; [|discriminate]. destruct (eqb _ _); [|discriminate].
    injection E as <- <-. rewrite (at_engine_any cx me sh sh2). eexists; split; [reflexivity|exact A].
  - destruct x as [[r sg [|q qs]]|]; try discriminate E. injection E as <- <-. rewrite (at_engine_any cx me sh sh2). eexists; split; [reflexivity|exact A].
Qed.
Lemma distant_oblivious cx cl : oblivious (distant cx cl).
Proof.
  intros D me sh sh2 p x op sh' p' x' o A Ha E. unfold distant in *. cbn [rs_step] in *.
  assert (E' : match dstep cx me (cl me) (DState sh p x) op with Some (s', o) => Some (ds_sh s', ds_step s', ds_task s', o) | None => None end = Some (sh', p', x', o)) by (destruct op; [exact E| | | |discriminate E]; exact E).
  assert (Nw : forall e, op <> DWorld e) by (intros e ->; discriminate E).
  destruct (dstep cx me (cl me) (DState sh p x) op) as [[d' o']|] eqn:Es; [|discriminate E']. injection E' as <- <- <- <-.
  destruct (dstep_agree D _ _ _ _ _ _ _ _ _ _ Nw A Ha Es) as (sh2' & E2 & A2). exists sh2'. split; [|exact A2]. destruct op; try (rewrite E2; reflexivity). destruct (Nw e eq_refl).
Qed.
Lemma chained_oblivious cx cl sv rhooks conf : oblivious (chained cx cl sv rhooks conf).
Proof.
  intros D me sh sh2 p x op sh' p' x' o A Ha E. unfold chained in *. cbn [rs_step] in *.
  assert (G : forall X Y : option (kstate * list kobs), (forall s', X = Some (s', o) -> exists sh2', Y = Some (KState (DState sh2' (ds_step (k_d s')) (ds_task (k_d s'))) (k_ctx s') (k_w s') (k_lost s'), o) /\ agree D (ds_sh (k_d s')) sh2') ->
      match X with Some (s', o) => Some (ds_sh (k_d s'), ds_step (k_d s'), kpart s', o) | None => None end = Some (sh', p', x', o) ->
      exists sh2', match Y with Some (s', o) => Some (ds_sh (k_d s'), ds_step (k_d s'), kpart s', o) | None => None end = Some (sh2', p', x', o) /\ agree D sh' sh2').
  { intros X Y H1 H2. destruct X as [[s' o']|]; [|discriminate]. injection H2 as <- <- <- <-. destruct (H1 _ eq_refl) as (sh2' & -> & A2). exists sh2'. split; [reflexivity|exact A2]. }
  assert (Fl : forall dop w lost s', (forall e, dop <> DWorld e) -> kflow cx me (cl me) (kwhole sh p x) dop w lost = Some (s', o) ->
     exists sh2', kflow cx me (cl me) (kwhole sh2 p x) dop w lost = Some (KState (DState sh2' (ds_step (k_d s')) (ds_task (k_d s'))) (k_ctx s') (k_w s') (k_lost s'), o) /\ agree D (ds_sh (k_d s')) sh2').
  { intros dop w lost s' Nw H. unfold kflow, kwhole in *. cbn [k_d k_ctx] in *. destruct (dstep cx me (cl me) (DState sh p (kd_task x)) dop) as [[d' o']|] eqn:Es; [|discriminate]. injection H as <- <-.
    destruct (dstep_agree D _ _ _ _ _ _ _ _ _ _ Nw A Ha Es) as (sh2' & -> & A2). exists sh2'. split; [reflexivity|exact A2]. }
  assert (Po : forall i w s', kpost cx me (cl me) (kwhole sh p x) i w = Some (s', o) ->
     exists sh2', kpost cx me (cl me) (kwhole sh2 p x) i w = Some (KState (DState sh2' (ds_step (k_d s')) (ds_task (k_d s'))) (k_ctx s') (k_w s') (k_lost s'), o) /\ agree D (ds_sh (k_d s')) sh2').
  { intros i w s' H. unfold kpost in *. change (posting (kwhole sh2 p x)) with (posting (kwhole sh p x)). destruct (posting (kwhole sh p x)); [|injection H as <- <-; eexists; split; [reflexivity|exact A]|discriminate].
    apply Fl; [discriminate|exact H]. }
  assert (E' : match kstep cx me (cl me) (sv me) rhooks conf (kwhole sh p x) op with Some (s', o) => Some (ds_sh (k_d s'), ds_step (k_d s'), kpart s', o) | None => None end = Some (sh', p', x', o) /\ forall e, op <> KFlow (DWorld e)).
  { destruct op as [[]| | | | | |]; try discriminate E; (split; [exact E|discriminate]). }
  clear E. destruct E' as [E Nw].
  enough (Q : exists sh2', match kstep cx me (cl me) (sv me) rhooks conf (kwhole sh2 p x) op with Some (s', o) => Some (ds_sh (k_d s'), ds_step (k_d s'), kpart s', o) | None => None end = Some (sh2', p', x', o) /\ agree D sh' sh2').
  { destruct Q as (sh2' & Q1 & Q2). exists sh2'. split; [|exact Q2]. destruct op as [[]| | | | | |]; try exact Q1. destruct (Nw e eq_refl). }
  revert E. apply G. intros s' E. destruct op as [op| |i| | | |]; cbn [kstep] in *.
  - destruct op as [eo|clients pick|i| |e]; [apply Fl; [discriminate|exact E]| | |apply Fl; [discriminate|exact E]|destruct (Nw e eq_refl)].
    + unfold kwhole in *. cbn [k_d ds_step] in *. destruct (dstep cx me (cl me) (DState sh p (kd_task x)) (DPick clients pick)) as [[d' o']|] eqn:Es; [|discriminate E].
      destruct p; try discriminate E. injection E as <- <-.
      assert (Nw' : forall e, DPick clients pick <> DWorld e) by discriminate. destruct (dstep_agree D _ _ _ _ _ _ _ _ _ _ Nw' A Ha Es) as (sh2' & -> & A2). exists sh2'. split; [reflexivity|exact A2].
    + destruct i as [[e|]|l|r| | | |e|g [e|]]; try discriminate E; try (apply Fl; [discriminate|exact E]). destruct (k_w (kwhole sh p x)) eqn:Ew; [|discriminate E].
      change (k_w (kwhole sh2 p x)) with (k_w (kwhole sh p x)). rewrite Ew. apply Fl; [discriminate|exact E].
  - unfold kwhole in *. cbn [k_d ds_task k_ctx k_w k_lost] in *. destruct (kd_task x) as [[[r|] sg pend]|]; try discriminate E. destruct (kd_ctx x) as [[? ?]|]; [|discriminate]. destruct (kd_w x); [discriminate|].
    injection E as <- <-. eexists; split; [reflexivity|exact A].
  - unfold kwhole in *. cbn [k_d ds_task k_ctx k_w k_lost] in *. destruct i; destruct (kd_w x) as [[c y [|q qs] str f b]|]; try discriminate E; destruct (xstep c y _) as [[y' o']|]; try discriminate E; injection E as <- <-; eexists; (split; [reflexivity|exact A]).
  - unfold kwhole in *. cbn [k_d ds_task k_ctx k_w k_lost] in *. destruct (kd_w x) as [[c y [|q qs] str f b]|]; try discriminate E. injection E as <- <-. eexists; split; [reflexivity|exact A].
  - change (k_w (kwhole sh2 p x)) with (k_w (kwhole sh p x)). destruct (k_w (kwhole sh p x)) as [w|]; [|discriminate]. destruct (wk_fwd w); try (apply Po; exact E); [|discriminate].
    destruct (stream_poll (sv me) (wk_str w)) as [[str' [l| |]] wk]; try (injection E as <- <-; eexists; split; [reflexivity|exact A]).
    destruct (ss_result (wk_str w)); [injection E as <- <-; eexists; split; [reflexivity|exact A]|]. apply Po. exact E.
  - unfold kwhole in *. cbn [k_d ds_task k_ctx k_w k_lost] in *. destruct (kd_lost x) as [|g rest]; [discriminate|]. destruct (kd_w x); [|discriminate]. injection E as <- <-. eexists; split; [reflexivity|exact A].
  - unfold kwhole in *. cbn [k_d ds_task k_ctx k_w k_lost] in *. destruct (kd_w x) as [[c y q str f b]|]; [|discriminate]. injection E as <- <-. eexists; split; [reflexivity|exact A].
Qed.

(** ** Jobs and the workflow *)
Definition job_addr (p : job_phase) : option nat := match p with JpStepRun _ _ _ sp _ => sp_addr sp | _ => None end.
Lemma job_agree D glob cx me j sh sh2 p op sh' p' o : agree D sh sh2 -> (forall a, job_addr p = Some a -> D a) -> job_step glob cx me j sh p op = Some (sh', p', o) ->
  exists sh2', job_step glob cx me j sh2 p op = Some (sh2', p', o) /\ agree D sh' sh2'.
Proof.
  intros A Ha E. assert (A' := A). destruct A' as [H1 H2 H3 H4 H5]. unfold job_step in E |- *.
  destruct p as [|c ev| | |t0|t0|t0|t0 js rs rest|t0 js rs st rest c ev|t0 js rs st rest|t0 js rs sp rest|r|r|r|r];
    destruct op as [|gh|sop]; try discriminate E; try (destruct rest; discriminate E); rewrite ?H1, ?H2 in *; try (injection E as <- <- <-; eexists; split; [reflexivity|exact A]).
  - destruct (jb_on j); [destruct (is_match_first _ _ _ _)|]; injection E as <- <- <-; eexists; (split; [reflexivity|exact A]).
  - destruct (is_match_second _ _ _ _) as [c' b]; injection E as <- <- <-; eexists; (split; [reflexivity|apply agree_set_cache, A]).
  - injection E as <- <- <-. eexists; split; [reflexivity|apply agree_register, A].
  - destruct rest as [|st rest]; [|destruct (forced_skip js st); [|destruct (st_on st); [destruct (is_match_first _ _ _ _)|]]]; injection E as <- <- <-; eexists; (split; [reflexivity|exact A]).
  - destruct (is_match_second _ _ _ _) as [c' b]; injection E as <- <- <-; eexists; (split; [reflexivity|apply agree_set_cache, A]).
  - destruct sp; try discriminate E; injection E as <- <- <-; eexists; (split; [reflexivity|exact A]).
  - destruct sp; discriminate E.
  - assert (E' : match step_step cx me sh sp sop with
             | Some (sh'0, sp', o) => Some (sh'0, JpStepRun t0 js rs sp' rest, o) | None => None end = Some (sh', p', o))
          by (destruct sp; exact E). clear E.
    destruct (step_step cx me sh sp sop) as [[[sh1 sp1] o1]|] eqn:Es; [|discriminate]. injection E' as <- <- <-.
    destruct (step_agree _ _ _ _ _ _ _ _ _ _ A Ha Es) as (sh2' & E2 & A2). exists sh2'. split; [|exact A2]. destruct sp; rewrite E2; reflexivity.
  - injection E as <- <- <-. eexists; split; [reflexivity|apply agree_unregister, A].
Qed.
Definition set_sh (sh : shared) (w : wstate) : wstate := WState sh (ws_main w) (ws_tasks w) (ws_chan w).
Lemma wstep_agree D glob cx wf w op w' o sh2 : agree D (ws_sh w) sh2 -> (forall i t a, nth_error (ws_tasks w) i = Some t -> job_addr (tk_phase t) = Some a -> D a) -> (forall e, op <> WEnv e) ->
  wstep glob cx wf w op = Some (w', o) -> exists sh2', wstep glob cx wf (set_sh sh2 w) op = Some (set_sh sh2' w', o) /\ agree D (ws_sh w') sh2'.
Proof.
  intros A Ha Ne E. assert (A' := A). destruct A' as [H1 H2 H3 H4 H5]. destruct w as [sh m ts ch]. unfold set_sh in *. cbn [ws_sh ws_main ws_tasks ws_chan] in *.
  destruct op as [|gh|i jo|i|e]; [| | | |destruct (Ne e eq_refl)]; cbn [wstep ws_sh ws_main ws_tasks ws_chan] in E |- *.
  - exists sh2. assert (S := main_sh glob cx wf _ _ _ E). cbn in S. split; [|rewrite S; exact A]. unfold main_step, spawn, set_main in *. cbn [ws_sh ws_main ws_tasks ws_chan] in *. rewrite H1, H2.
    destruct m as [|c ev| |t0|t0|t0|t0 s wa rest|t0 s wa rs|t0 s wa rs td|t0 s rs|r|r|r]; try discriminate E; try (injection E as <- <-; reflexivity).
    + destruct (wf_on wf); [destruct (is_match_first _ _ _ _)|]; injection E as <- <-; reflexivity.
    + destruct rest as [|[k j] rest]; [|destruct (has_deps j)]; injection E as <- <-; reflexivity.
    + destruct ch as [|[k r] ch]; [discriminate|]. injection E as <- <-. reflexivity.
    + destruct td as [|[k j] td]; [|destruct (ready rs j)]; injection E as <- <-; reflexivity.
  - destruct m; try discriminate E. rewrite H2. destruct (is_match_second _ _ _ _) as [c' b]. injection E as <- <-. eexists. split; [reflexivity|]. apply agree_set_cache, A.
  - destruct (nth_error ts i) as [t|] eqn:Et; [|discriminate]. destruct (job_step glob cx (S i) (tk_job t) sh (tk_phase t) jo) as [[[sh' p'] o']|] eqn:Ej; [|discriminate]. injection E as <- <-.
    destruct (job_agree D _ _ _ _ _ _ _ _ _ _ _ A (fun a => Ha i t a Et) Ej) as (sh2' & -> & A2). eexists. split; [reflexivity|exact A2].
  - destruct (nth_error ts i) as [[key j p b]|]; [|discriminate]. destruct p; try discriminate E. destruct b; [discriminate|].
    destruct m; try (injection E as <- <-; eexists; split; [reflexivity|exact A]); destruct (Nat.ltb _ _); try discriminate E; injection E as <- <-; eexists; (split; [reflexivity|exact A]).
Qed.

(** ** Whose signal is where: [own] lists, for each signal ever made, the job it was made for, or [None] if it was made before this run was started. *)
Section W.
Context {T iop iobs : Type}.
Variable R : rside T iop iobs.
Variable glob : glob_oracle.
Variable cx : ectx.
Variable wf : workflow.
Variable tame : iop -> Prop.
Hypothesis F : faithful R cx.
Hypothesis Tr : tracks R cx tame.
Hypothesis Ob : oblivious R.
Hypothesis Hnd : NoDup (keys (wf_jobs wf)).
Hypothesis Hown : forall k j, In (k, j) (wf_jobs wf) -> owns_steps j.

Notation away := (fun j => ~ job_of wf j).
Record ghost (own : list (option job_id)) (sm : sigman) : Prop := Ghost {
  gh_len : length own = length (sm_heap sm);
  gh_reg : forall j a, lookup j (sm_reg sm) = Some a -> nth_error own a = Some (Some j) \/ (nth_error own a = Some None /\ ~ In (Some j) own);
  gh_pend : forall c a, lookup c (sm_pending sm) = Some a -> exists x, nth_error own a = Some x /\ forall j, x = Some j -> away j }.
Definition owner (own : list (option job_id)) (e : env_op) : list (option job_id) := match e with ESig (MRegister id) => own ++ [Some id] | _ => own end.
Lemma ghost_env own sh e : (forall c j, e = ESig (MCancelGet c j) -> away j) -> ghost own (sh_sm sh) -> ghost (owner own e) (sh_sm (env_step sh e)).
Proof.
  intros Hc [G1 G2 G3]. destruct e as [d|[id|id|c id|c|a o]|c]; cbn [owner env_step set_sm set_cache sh_sm]; try (split; assumption).
  - cbn [sm_step fst]. split; cbn [sm_heap sm_reg sm_pending].
    + rewrite !app_length, G1. reflexivity.
    + intros j a. rewrite lookup_insert. destruct (eq_dec _ _) as [->|Hne]; intros H.
      * injection H as <-. left. rewrite nth_error_app2 by lia. rewrite G1, Nat.sub_diag. reflexivity.
      * apply G2 in H as [H|[H H']]; [left|right]; (rewrite nth_error_app1; [|apply nth_error_Some; congruence]); [exact H|]. split; [exact H|]. intros C. apply in_app_iff in C as [C|[C|[]]]; [exact (H' C)|congruence].
    + intros c a H. destruct (G3 c a H) as (j & E & N). exists j. split; [|exact N]. rewrite nth_error_app1; [exact E|apply nth_error_Some; congruence].
  - cbn [sm_step fst]. split; cbn [sm_heap sm_reg sm_pending]; try assumption. intros j a. rewrite lookup_remove. destruct (eq_dec _ _); [discriminate|apply G2].
  - cbn [sm_step]. destruct (lookup id (sm_reg (sh_sm sh))) as [a|] eqn:E; cbn [fst]; [|split; assumption]. split; cbn [sm_heap sm_reg sm_pending]; try assumption.
    intros c' a'. rewrite lookup_insert. destruct (eq_dec _ _) as [->|Hne]; intros H; [|apply (G3 c' a' H)]. injection H as <-.
    apply G2 in E as [E|[E _]]; eexists; (split; [exact E|]); intros j [= <-]. apply (Hc c id eq_refl).
  - cbn [sm_step]. destruct (lookup c (sm_pending (sh_sm sh))) as [a|]; [|split; assumption]. destruct (nth_error (sm_heap (sh_sm sh)) a) as [st|]; [|split; assumption].
    destruct (sig_cancel st) as [[st' r] w]. split; cbn [fst sm_heap sm_reg sm_pending]; [rewrite list_set_length; exact G1|exact G2|].
    intros c' a'. rewrite lookup_remove. destruct (eq_dec _ _); [discriminate|apply G3].
  - cbn [sm_step]. destruct (nth_error (sm_heap (sh_sm sh)) a) as [st|]; [|split; assumption]. destruct (sig_step st o) as [st' r]. split; cbn [fst sm_heap sm_reg sm_pending]; [rewrite list_set_length; exact G1|exact G2|exact G3].
Qed.
Lemma owner_keeps own e a j : nth_error own a = Some j -> nth_error (owner own e) a = Some j.
Proof. intros H. destruct e as [d|[id|id|c id|c|b o]|c]; cbn [owner]; try exact H. rewrite nth_error_app1; [exact H|apply nth_error_Some; congruence]. Qed.
Definition owners (own : list (option job_id)) (es : list env_op) : list (option job_id) := fold_left owner es own.
Lemma owners_in es : forall own id, In (ESig (MRegister id)) es -> In (Some id) (owners own es).
Proof.
  assert (K : forall es own x, In x own -> In x (owners own es)).
  { clear es. induction es as [|e es IH]; intros own x H; [exact H|]. apply IH. destruct e as [d|[i|i|c i|c|b o]|c]; cbn [owner]; try exact H. apply in_or_app; auto. }
  induction es as [|e es IH]; intros own id H; [destruct H|]. destruct H as [->|H]; [cbn [owners fold_left owner]; apply K; apply in_or_app; right; left; reflexivity|cbn [owners fold_left]; apply IH, H].
Qed.
Lemma owners_incl es : forall own x, In x own -> In x (owners own es).
Proof. induction es as [|e es IH]; intros own x H; [exact H|]. apply IH. destruct e as [d|[i|i|c i|c|b o]|c]; cbn [owner]; try exact H. apply in_or_app; auto. Qed.
Lemma ghost_envs es : forall own sh, (forall e c j, In e es -> e = ESig (MCancelGet c j) -> away j) -> ghost own (sh_sm sh) -> ghost (owners own es) (sh_sm (env_steps sh es)).
Proof.
  induction es as [|e es IH]; intros own sh H G; [exact G|]. apply IH; [intros e' c j Hin; apply H; right; exact Hin|]. apply ghost_env; [intros c j; apply H; left; reflexivity|exact G].
Qed.
Lemma owners_keep es : forall own a j, nth_error own a = Some j -> nth_error (owners own es) a = Some j.
Proof. induction es as [|e es IH]; intros own a j H; [exact H|]. apply IH, owner_keeps, H. Qed.
Lemma owners_len es : forall own, length own <= length (owners own es).
Proof. induction es as [|e es IH]; intros own; [apply le_n|]. eapply Nat.le_trans; [|apply IH]. destruct e as [d|[id|id|c id|c|b o]|c]; cbn [owner]; try apply le_n. rewrite app_length. lia. Qed.

(** The signals of this run, made or to be made. *)
Definition mine (own : list (option job_id)) (a : nat) : Prop := (exists id, nth_error own a = Some (Some id) /\ job_of wf id) \/ length own <= a.
Lemma mine_back own es a : mine (owners own es) a -> mine own a.
Proof.
  intros [(id & H & J)|H]; [|right; assert (L := owners_len es own); lia].
  destruct (nth_error own a) as [id'|] eqn:E; [|right; apply nth_error_None, E]. left. exists id. rewrite (owners_keep es _ _ _ E) in H. injection H as ->. split; [exact E|exact J].
Qed.

(** The same action without the calls of cancel_job. *)
Definition erase_env (e : env_op) : env_op := match e with ESig (MCancelGet _ _) | ESig (MCancelFire _) => ETick 0 | _ => e end.
Definition erase (op : sysop (iop := iop)) : sysop := match op with YFlow (WEnv e) => YFlow (WEnv (erase_env e)) | _ => op end.
Lemma env_agree own sh sh2 e : ghost own (sh_sm sh) -> agree (mine own) sh sh2 -> agree (mine own) (env_step sh e) (env_step sh2 (erase_env e)).
Proof.
  intros [G1 G2 G3] A. assert (A' := A). destruct A' as [H1 H2 H3 H4 H5].
  destruct e as [d|[id|id|c id|c|a o]|c]; cbn [erase_env env_step].
  - split; cbn; try assumption. rewrite H1. reflexivity.
  - apply agree_register, A.
  - apply agree_unregister, A.
  - cbn [sm_step]. split; destruct (lookup id (sm_reg (sh_sm sh))); cbn; try assumption; rewrite N.add_0_r; exact H1.
  - cbn [sm_step]. split; cbn [sh_now sh_cache sh_sm set_sm]; [rewrite N.add_0_r; exact H1|exact H2| | |];
      (destruct (lookup c (sm_pending (sh_sm sh))) as [a|] eqn:Ep; [|assumption]); (destruct (nth_error (sm_heap (sh_sm sh)) a) as [st|] eqn:En; [|assumption]);
      destruct (sig_cancel st) as [[st' r] w]; cbn [fst sm_reg sm_heap].
    + exact H3.
    + rewrite list_set_length. exact H4.
    + intros b Hb. destruct (G3 c a Ep) as (j & Ej & Nj). rewrite list_set_ne; [auto|]. intros ->. destruct Hb as [(id & E & J)|Hl]; [rewrite E in Ej; injection Ej as <-; exact (Nj id eq_refl J)|]. assert (a < length own) by (apply nth_error_Some; congruence). lia.
  - apply agree_poll, A.
  - apply agree_set_cache, A.
Qed.

Definition past_like (e e2 : nat * (shared * step_phase * T)) : Prop := exists i sh sh2 p x, e = (i, (sh, p, x)) /\ e2 = (i, (sh2, p, x)) /\ agree (fun _ => False) sh sh2.
Record alike (own : list (option job_id)) (s s2 : @system T) : Prop := Alike {
  al_sh : agree (mine own) (ws_sh (sy_w s)) (ws_sh (sy_w s2)); al_w : sy_w s2 = set_sh (ws_sh (sy_w s2)) (sy_w s);
  al_cur : sy_cur s2 = sy_cur s; al_past : Forall2 past_like (sy_past s) (sy_past s2) }.
(** No task of the run holds a signal of another, and its jobs have been entered by itself. *)
Definition holds (own : list (option job_id)) (s : @system T) : Prop :=
  (forall i t a, nth_error (ws_tasks (sy_w s)) i = Some t -> job_addr (tk_phase t) = Some a -> exists id, nth_error own a = Some (Some id) /\ job_of wf id) /\
  forall i t, nth_error (ws_tasks (sy_w s)) i = Some t -> entered (tk_phase t) = true -> In (Some (jb_id (tk_job t))) own.

Lemma tasks_own sh0 ops s tr i t : sysrun R glob cx wf sh0 ops s tr -> (forall op, In op ops -> orderly wf tame op) -> nth_error (ws_tasks (sy_w s)) i = Some t ->
  In (tk_key t, tk_job t) (wf_jobs wf) /\ own_inv (tk_job t) (tk_phase t).
Proof.
  intros Hr Ho Ht. destruct (flow_run2 R glob cx wf tame tame F Tr (fun _ h => h) _ _ _ _ Hr Ho) as (wls & W & Q & _).
  destruct (winv glob cx wf Hnd _ _ _ W) as [_ [_ T2 _ _]]. assert (Hj := T2 t (nth_error_In _ _ Ht)). split; [exact Hj|].
  destruct (tasks_run_inv glob cx wf _ _ _ W) as [TR _]. destruct (TR i t Ht) as (jls & J & L). eapply own_run; [eapply Hown, Hj|exact J|].
  intros l Hl. specialize (L l Hl). destruct l as [jo|e]; cbn in L |- *; [|exact Logic.I]. destruct jo as [|gh|[|c| | | | |]]; try exact Logic.I. exact (Q _ L).
Qed.

Lemma new_addr glob0 me j sh p op sh' p' o : job_step glob0 cx me j sh p op = Some (sh', p', o) -> (forall sop, op <> JStep sop) -> job_addr p' = None.
Proof.
  intros E Ns. unfold job_step in E.
  destruct p as [|c ev| | |t0|t0|t0|t0 js rs rest|t0 js rs st rest c ev|t0 js rs st rest|t0 js rs sp rest|r|r|r|r];
    destruct op as [|gh|sop]; try (destruct (Ns sop eq_refl)); try discriminate E; try (destruct rest; discriminate E); try (injection E as <- <- <-; reflexivity).
  - destruct (jb_on j); [destruct (is_match_first _ _ _ _) as [[]|]|]; injection E as <- <- <-; reflexivity.
  - destruct (is_match_second _ _ _ _) as [c' []]; injection E as <- <- <-; reflexivity.
  - destruct rest as [|st rest]; [|destruct (forced_skip js st); [|destruct (st_on st); [destruct (is_match_first _ _ _ _) as [[]|]|]]]; injection E as <- <- <-; reflexivity.
  - destruct (is_match_second _ _ _ _) as [c' []]; injection E as <- <- <-; reflexivity.
  - destruct sp; try discriminate E; injection E as <- <- <-; reflexivity.
  - destruct sp; discriminate E.
Qed.
(** Actions outside steps hand out no signals. *)
Lemma flow_addr w wo w' wtr i t a : wstep glob cx wf w wo = Some (w', wtr) -> is_step_op wo = false -> nth_error (ws_tasks w') i = Some t -> job_addr (tk_phase t) = Some a ->
  exists t0, nth_error (ws_tasks w) i = Some t0 /\ job_addr (tk_phase t0) = Some a.
Proof.
  intros E Hs Ht Ha. destruct wo as [|gh|k jo|k|e]; cbn [wstep] in E.
  - apply main_tasks in E as [[E _]|(kj & E & _)]; rewrite E in Ht; [eauto|]. destruct (Nat.lt_ge_cases i (length (ws_tasks w))) as [L|L]; [rewrite nth_error_app1 in Ht by exact L; eauto|].
    rewrite nth_error_app2 in Ht by exact L. apply nth_error_In in Ht as [<-|[]]. discriminate Ha.
  - destruct (ws_main w); try discriminate E. destruct (is_match_second _ _ _ _). injection E as <- _. eauto.
  - destruct (nth_error (ws_tasks w) k) as [t0|] eqn:Et; [|discriminate]. destruct (job_step _ _ _ _ _ _ _) as [[[sh' p'] jo']|] eqn:Ej; [|discriminate]. injection E as <- _. cbn [ws_tasks] in Ht.
    destruct (Nat.eq_dec i k) as [->|Hne]; [|rewrite list_set_ne in Ht by exact Hne; eauto]. rewrite (list_set_eq _ _ _ _ Et) in Ht. injection Ht as <-. cbn [tk_phase] in Ha.
    rewrite (new_addr _ _ _ _ _ _ _ _ _ Ej) in Ha; [discriminate|]. intros sop ->. discriminate Hs.
  - destruct (nth_error (ws_tasks w) k) as [[key j p b]|] eqn:Et; [|discriminate]. destruct p; try discriminate E. destruct b; [discriminate|].
    assert (K : ws_tasks w' = list_set k (WTask key j (JpReturned r) true) (ws_tasks w)) by (destruct (ws_main w); try (destruct (Nat.ltb _ _); [|discriminate E]); injection E as <- _; reflexivity).
    rewrite K in Ht. destruct (Nat.eq_dec i k) as [->|Hne]; [|rewrite list_set_ne in Ht by exact Hne; eauto]. rewrite (list_set_eq _ _ _ _ Et) in Ht. injection Ht as <-. discriminate Ha.
  - injection E as <- _. eauto.
Qed.
Lemma Forall2_set {A} (P : A -> A -> Prop) k x x2 : forall l l2, Forall2 P l l2 -> P x x2 -> Forall2 P (list_set k x l) (list_set k x2 l2).
Proof. induction k as [|k IH]; intros l l2 H Hx; destruct H; cbn; constructor; auto. Qed.
Lemma Forall2_nth {A} (P : A -> A -> Prop) k x : forall l l2, Forall2 P l l2 -> nth_error l k = Some x -> exists x2, nth_error l2 k = Some x2 /\ P x x2.
Proof. induction k as [|k IH]; intros l l2 H E; destruct H; cbn in *; try discriminate E; [injection E as ->; eauto|eauto]. Qed.

Definition blank (sh : shared) : shared := Shared (sh_now sh) (SigMan (sm_reg (sh_sm sh)) (repeat sig_init (length (sm_heap (sh_sm sh)))) []) (sh_cache sh).
Lemma blank_unraised sh : unraised (blank sh).
Proof. intros a c H. cbn in H. apply nth_error_In, repeat_spec in H. subst c. reflexivity. Qed.
Lemma not_env wo : is_env (iop := iop) (YFlow wo) = false -> forall e, wo <> WEnv e.
Proof. intros H e ->. discriminate H. Qed.

Lemma isolated sh0 ops s tr : sysrun R glob cx wf sh0 ops s tr -> (forall op, In op ops -> orderly wf tame op) ->
  (forall c j, In (YFlow (WEnv (ESig (MCancelGet c j)))) ops -> ~ job_of wf j) ->
  (forall j a, lookup j (sm_reg (sh_sm sh0)) = Some a -> a < length (sm_heap (sh_sm sh0))) -> (forall c a, lookup c (sm_pending (sh_sm sh0)) = Some a -> a < length (sm_heap (sh_sm sh0))) ->
  exists own s2, sysrun R glob cx wf (blank sh0) (map erase ops) s2 tr /\ ghost own (sh_sm (ws_sh (sy_w s))) /\ alike own s s2 /\ holds own s.
Proof.
  intros Hr Ho Hc B1 B2. set (own0 := repeat (@None job_id) (length (sm_heap (sh_sm sh0)))).
  assert (N0 : forall a, a < length (sm_heap (sh_sm sh0)) -> nth_error own0 a = Some None).
  { intros a Ha. destruct (nth_error own0 a) eqn:En; [f_equal; apply (repeat_spec _ _ _ (nth_error_In _ _ En))|]. apply nth_error_None in En. unfold own0 in En. rewrite repeat_length in En. lia. }
  assert (N1 : forall id, ~ In (Some id) own0) by (intros id H; apply repeat_spec in H; discriminate H).
  assert (G0 : ghost own0 (sh_sm sh0)).
  { split; [apply repeat_length| |]; intros j a H; [right|exists None]; (split; [apply N0; eauto|]); [apply N1|discriminate]. }
  revert Ho Hc. induction Hr as [|ops s tr op s' o Hr IH E]; intros Ho Hc.
  - exists own0, (System (winit (blank sh0)) [] []). split; [constructor|]. split; [exact G0|]. split; [|split; intros [|i]; discriminate].
    split; cbn [sy_w ws_sh sy_cur sy_past winit]; [|reflexivity|reflexivity|constructor].
    split; cbn; try reflexivity; [apply repeat_length|]. intros a [(id & H & J)|H]; [destruct (N1 id (nth_error_In _ _ H))|].
    destruct G0 as [G1 _ _]. rewrite (proj2 (nth_error_None (repeat _ _) _)) by (rewrite repeat_length; lia). symmetry. apply nth_error_None. lia.
  - destruct IH as (own & s2 & Hr2 & G & [A Ew Ec Ap] & Hh & Hi); [intros x Hx; apply Ho, in_or_app; auto|intros c j Hx; apply (Hc c j), in_or_app; auto|].
    assert (Hm : forall i t a, nth_error (ws_tasks (sy_w s)) i = Some t -> job_addr (tk_phase t) = Some a -> mine own a) by (intros i t a H1 H2; left; exact (Hh i t a H1 H2)).
    assert (Ho0 : forall op, In op ops -> orderly wf tame op) by (intros x Hx; apply Ho, in_or_app; auto).
    destruct (is_env op) eqn:Hie.
    + destruct op as [wo|i io|k io]; try discriminate Hie. destruct wo as [|gh|i jo|i|e]; try discriminate Hie. cbn [sysstep is_step_op wstep step_over] in E. injection E as <- <-.
      exists (owner own e). eexists. split; [|split; [|split]].
      * rewrite map_app. cbn [map erase]. eapply sysrun_step; [exact Hr2|]. cbn [sysstep is_step_op wstep step_over]. reflexivity.
      * cbn [sy_w ws_sh]. apply ghost_env; [|exact G]. intros c j ->. apply (Hc c j), in_or_app. right; left; reflexivity.
      * split; cbn [sy_w ws_sh sy_cur sy_past].
        -- apply (agree_weaken (mine own)); [intros a Ha; exact (mine_back own [e] a Ha)|]. apply env_agree; assumption.
        -- rewrite Ew. reflexivity.
        -- rewrite Ew, Ec. reflexivity.
        -- rewrite !app_nil_r. exact Ap.
      * split; [intros i t a H1 H2; destruct (Hh i t a H1 H2) as (id & H3 & H4); exists id; split; [apply owner_keeps, H3|exact H4]|].
        intros i t H1 H2. apply (owners_incl [e]). exact (Hi i t H1 H2).
    + destruct (sys_effect R glob cx wf F Hnd _ _ _ _ _ _ _ Hr E Hie) as (es & Ee & He & Hent). rewrite Forall_forall in He.
      assert (Hi' : forall i t, nth_error (ws_tasks (sy_w s')) i = Some t -> entered (tk_phase t) = true -> In (Some (jb_id (tk_job t))) (owners own es)).
      { intros i t H1 H2. destruct (Hent i t H1 H2) as [(t0 & H3 & H4 & H5)|H3]; [|apply owners_in, H3]. rewrite <- H4. apply owners_incl. exact (Hi i t0 H3 H5). }
      assert (G' : ghost (owners own es) (sh_sm (ws_sh (sy_w s')))).
      { rewrite Ee. apply ghost_envs; [|exact G]. intros e c j Hin ->. destruct (He _ Hin). }
      assert (Er : erase op = op) by (destruct op as [[]| |]; try reflexivity; discriminate Hie).
      rewrite map_app. cbn [map]. rewrite Er. exists (owners own es).
      destruct op as [wo|i io|k io]; cbn [sysstep] in E.
      * destruct (is_step_op wo) eqn:Hs; [discriminate|]. destruct (wstep glob cx wf (sy_w s) wo) as [[w' wtr]|] eqn:Ews; [|discriminate].
        destruct (wstep_agree (mine own) glob cx wf (sy_w s) wo w' wtr (ws_sh (sy_w s2)) A Hm (not_env _ Hie) Ews) as (sh2' & E2 & A2). rewrite <- Ew in E2.
        assert (So : step_over (sy_w s2) wo = step_over (sy_w s) wo) by (rewrite Ew; reflexivity).
        assert (Hd : forall c p, (forall i t, nth_error (ws_tasks w') i = Some t -> entered (tk_phase t) = true -> In (Some (jb_id (tk_job t))) (owners own es)) -> holds (owners own es) (System w' c p)).
        { intros c p Hx. split; [|exact Hx]. intros i t a H1 H2. destruct (flow_addr _ _ _ _ _ _ _ Ews Hs H1 H2) as (t0 & H3 & H4). destruct (Hh i t0 a H3 H4) as (id & H5 & H6). exists id. split; [apply owners_keep, H5|exact H6]. }
        assert (Aw : agree (mine (owners own es)) (ws_sh w') sh2') by (apply (agree_weaken (mine own)); [intros a Ha; exact (mine_back own es a Ha)|exact A2]).
        destruct (step_over (sy_w s) wo) as [[i p]|] eqn:Eo; injection E as <- <-.
        -- eexists. split; [eapply sysrun_step; [exact Hr2|]; cbn [sysstep]; rewrite Hs, E2, So, Ec; reflexivity|]. split; [exact G'|]. split; [|apply Hd; exact Hi'].
           split; cbn [sy_w ws_sh sy_cur sy_past set_sh ws_tasks]; [exact Aw|reflexivity|reflexivity|].
           apply Forall2_app; [exact Ap|]. destruct (nth_error (sy_cur s) i) as [x|]; constructor; [|constructor]. exists i, (ws_sh (sy_w s)), (ws_sh (sy_w s2)), p, x. split; [reflexivity|]. split; [reflexivity|].
           apply (agree_weaken (mine own)); [intros a []|exact A].
        -- eexists. split; [eapply sysrun_step; [exact Hr2|]; cbn [sysstep]; rewrite Hs, E2, So, Ec; reflexivity|]. split; [exact G'|]. split; [|apply Hd; exact Hi'].
           split; cbn [sy_w ws_sh sy_cur sy_past set_sh ws_tasks]; [exact Aw|reflexivity|reflexivity|]. rewrite !app_nil_r. exact Ap.
      * destruct (nth_error (ws_tasks (sy_w s)) i) as [t|] eqn:Et; [|discriminate]. destruct (nth_error (sy_cur s) i) as [x|] eqn:Ex; [|discriminate].
        destruct (tk_phase t) as [| | | | | | | | | |t0 js rs sp rest| | | |] eqn:Ep; try discriminate E.
        destruct (rs_step R (S i) (ws_sh (sy_w s)) sp x io) as [[[[sh' sp'] x'] out]|] eqn:Es; [|discriminate E]. injection E as <- <-.
        assert (Hsp : forall a, sp_addr sp = Some a -> mine own a) by (intros a Ha; apply (Hm i t a Et); rewrite Ep; exact Ha).
        destruct (Ob (mine own) _ _ _ _ _ _ _ _ _ _ A Hsp Es) as (sh2' & E2 & A2).
        eexists. split; [|split; [exact G'|split]].
        -- eapply sysrun_step; [exact Hr2|]. cbn [sysstep]. rewrite Ec, Ew. cbn [set_sh ws_tasks]. rewrite Et, Ex, Ep. cbn [set_sh ws_sh]. rewrite E2. reflexivity.
        -- split; cbn [sy_w ws_sh sy_cur sy_past set_sh ws_tasks ws_main ws_chan]; try reflexivity; [|exact Ap]. apply (agree_weaken (mine own)); [intros a Ha; exact (mine_back own es a Ha)|exact A2].
        -- split; [|exact Hi']. intros k t' a H1 H2. cbn [sy_w ws_tasks] in H1. destruct (Nat.eq_dec k i) as [->|Hne].
           ++ rewrite (list_set_eq _ _ _ _ Et) in H1. injection H1 as <-. cbn [set_phase tk_phase job_addr] in H2.
              enough (Q : exists id, nth_error own a = Some (Some id) /\ job_of wf id) by (destruct Q as (id & Q1 & Q2); exists id; split; [apply owners_keep, Q1|exact Q2]).
              destruct (tasks_own _ _ _ _ _ _ Hr Ho0 Et) as [Hj Ow]. rewrite Ep in Ow.
              apply Tr in Es as [(_ & -> & _)|(sop & Es & _)]; [apply (Hh i t a Et); rewrite Ep; exact H2|].
              destruct (addr_step _ _ _ _ _ _ _ _ _ Es H2) as [H3|(st & u0 & -> & H3)]; [apply (Hh i t a Et); rewrite Ep; exact H3|].
              destruct Ow as [_ Ow]. exists (jb_id (tk_job t)). rewrite (Ow st eq_refl) in H3. split; [|exists (tk_key t), (tk_job t); auto].
              apply (gh_reg _ _ G) in H3 as [H3|[_ H3]]; [exact H3|]. destruct H3. apply (Hi i t Et). rewrite Ep. reflexivity.
           ++ rewrite list_set_ne in H1 by exact Hne. destruct (Hh k t' a H1 H2) as (id & H3 & H4). exists id. split; [apply owners_keep, H3|exact H4].
      * destruct (nth_error (sy_past s) k) as [[i [[sh p] x]]|] eqn:Ek; [|discriminate].
        destruct (rs_step R (S i) sh p x io) as [[[[sh' p'] x'] out]|] eqn:Es; [|discriminate E]. injection E as <- <-.
        assert (I := sys_inv R glob cx wf F _ _ _ _ Hr). destruct (si_past R cx _ _ _ I _ (nth_error_In _ _ Ek)) as (st & r & iops & os & Hp & _). cbn [fst snd] in Hp. subst p.
        destruct (Forall2_nth _ _ _ _ _ Ap Ek) as (e2 & Ek2 & (i0 & shx & sh2 & p0 & x0 & [= <- <- <- <-] & -> & Ax)).
        assert (Nd : forall a, sp_addr (SpDone r) = Some a -> False) by discriminate.
        destruct (Ob (fun _ => False) _ _ _ _ _ _ _ _ _ _ Ax Nd Es) as (sh2' & E2 & A2).
        eexists. split; [|split; [exact G'|split]].
        -- eapply sysrun_step; [exact Hr2|]. cbn [sysstep]. rewrite Ek2, E2. reflexivity.
        -- split; cbn [sy_w ws_sh sy_cur sy_past set_sh]; [|exact Ew|exact Ec|].
           ++ apply (agree_weaken (mine own)); [intros a Ha; exact (mine_back own es a Ha)|exact A].
           ++ apply Forall2_set; [exact Ap|]. exists i, sh', sh2', p', x'. auto.
        -- split; [|exact Hi']. intros k' t' a H1 H2. destruct (Hh k' t' a H1 H2) as (id & H3 & H4). exists id. split; [apply owners_keep, H3|exact H4].
Qed.

(** What is left after erasing. *)
Lemma erase_step i o ops : In (YStep i o) (map erase ops) <-> In (YStep i o) ops.
Proof.
  rewrite in_map_iff. split.
  - intros (x & E & H). destruct x as [[]| |]; try discriminate E. cbn in E. injection E as -> ->. exact H.
  - intros H. exists (YStep i o). auto.
Qed.
Lemma erase_filter ops : filter (fun op => negb (is_env op)) (map erase ops) = filter (fun op => negb (is_env op)) ops.
Proof. induction ops as [|op ops IH]; [reflexivity|]. destruct op as [[]| |]; cbn [map erase filter is_env negb]; rewrite IH; reflexivity. Qed.
Lemma erase_quiet ops : (forall e, In (YFlow (WEnv e)) ops -> raises e -> exists c, e = ESig (MCancelFire c)) -> forall e, In (YFlow (WEnv e)) (map erase ops) -> ~ raises e.
Proof.
  intros H e He Hr. apply in_map_iff in He as (x & E & Hx). destruct x as [[| | | |e0]| |]; try discriminate E. cbn in E. injection E as <-.
  destruct e0 as [d|[j|j|c j|c|a o]|c]; cbn in Hr; try contradiction. destruct (H _ Hx) as [c C]; [exact Hr|discriminate C].
Qed.
End W.
