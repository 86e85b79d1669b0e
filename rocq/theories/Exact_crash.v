(** A job task crashes only after another task of the same job has taken its signal away. *)
From Verif Require Import Base Types Signals_model Signals_proof Stream_model Stream_spec Stream_proof Cond_model
  Plugins_model Plugins_spec Plugins_proof Exec_model Exec_spec Step_proof Timing_proof Job_proof Reg_proof
  Workflow_model Workflow_spec Workflow_proof Workflow_inv.

(** The job has unregistered its signal (and is about to report, or has reported, its result). *)
Definition signed_off (p : job_phase) : Prop := exists r, p = JpCompleted r \/ p = JpReturned r.

Section P.
Variable glob : glob_oracle.
Variable cx : ectx.

Definition own_inv (j : job) (p : job_phase) : Prop :=
  match p with
  | JpSteps _ _ _ rest => rest_ok j rest
  | JpStepFetch _ _ _ st rest _ _ | JpStepSkip _ _ _ st rest => rest_ok j (st :: rest)
  | JpStepRun _ _ _ sp rest => rest_ok j rest /\ (forall st, sp_step sp = Some st -> step_id_job_id (st_id st) = jb_id j)
  | JpEndState r | JpUnregister r => jr_id r = jb_id j
  | _ => True
  end.

Lemma sp_own j me sh p op sh' p' o : keeps_job (JOwn (JStep op)) -> (forall st, sp_step p = Some st -> step_id_job_id (st_id st) = jb_id j) ->
  step_step cx me sh p op = Some (sh', p', o) -> forall st, sp_step p' = Some st -> step_id_job_id (st_id st) = jb_id j.
Proof.
  intros K H2 E. unfold step_step in E.
  destruct p; destruct op; try discriminate E; try (injection E as <- <- <-; cbn in *; solve [auto|discriminate]);
    try (destruct (runner_step _ _ _); injection E as <- <- <-; cbn in *; solve [auto|discriminate]).
  - injection E as <- <- <-. cbn in *. intros st' [= <-]. rewrite K. auto.
  - destruct (lookup _ _) as [b|] eqn:El; injection E as <- <- <-; cbn in *; solve [auto|discriminate].
  - destruct ok; injection E as <- <- <-; cbn in *; solve [auto|discriminate].
  - destruct (_ <=? _)%N; [|discriminate]. injection E as <- <- <-; cbn in *; solve [auto|discriminate].
  - destruct (sm_step _ _) as [sm' [| | |so|]] eqn:Es; try discriminate.
    destruct so as [| |[s|]]; try discriminate; injection E as <- <- <-; cbn in *; solve [auto|discriminate].
  - destruct (stream_poll _ _) as [[str' [l| |]] w]; injection E as <- <- <-; cbn in *; solve [auto|discriminate].
  - destruct (ss_result str) eqn:Er; injection E as <- <- <-; cbn in *; solve [auto|discriminate].
Qed.

Lemma own_step j me sh p op sh' p' o : owns_steps j -> keeps_job (JOwn op) -> own_inv j p -> job_step glob cx me j sh p op = Some (sh', p', o) -> own_inv j p'.
Proof.
  intros OS Q1 IH2 E. unfold job_step in E.
  destruct p as [|c ev| | |t0|t0|t0|t0 js rs rest|t0 js rs st rest c ev|t0 js rs st rest|t0 js rs sp rest|r|r|r|r].
  - destruct op; try discriminate. destruct (jb_on j) as [c|].
    + destruct (is_match_first _ _ _ _) as [[]|]; injection E as <- <- <-; exact I.
    + injection E as <- <- <-; exact I.
  - destruct op; try discriminate. destruct (is_match_second _ _ _ _) as [cache' []]; injection E as <- <- <-; exact I.
  - destruct op; try discriminate. injection E as <- <- <-; exact I.
  - destruct op; try discriminate. injection E as <- <- <-; exact I.
  - destruct op; try discriminate. injection E as <- <- <-; exact I.
  - destruct op; try discriminate. injection E as <- <- <-; exact I.
  - destruct op; try discriminate. injection E as <- <- <-; exact OS.
  - destruct op; try (destruct rest; discriminate). destruct rest as [|st rest].
    + injection E as <- <- <-. reflexivity.
    + assert (HB : forall st', sp_step (SpBefore st) = Some st' -> step_id_job_id (st_id st') = jb_id j) by (intros x [= <-]; apply IH2; left; reflexivity).
      assert (HR : rest_ok j rest) by (intros x Hx; apply IH2; right; exact Hx).
      destruct (forced_skip js st); [injection E as <- <- <-; exact IH2|].
      destruct (st_on st) as [c|].
      * destruct (is_match_first _ _ _ _) as [[]|]; injection E as <- <- <-; try exact IH2. split; assumption.
      * injection E as <- <- <-. split; assumption.
  - destruct op; try discriminate.
    assert (HB : forall st', sp_step (SpBefore st) = Some st' -> step_id_job_id (st_id st') = jb_id j) by (intros x [= <-]; apply IH2; left; reflexivity).
    assert (HR : rest_ok j rest) by (intros x Hx; apply IH2; right; exact Hx).
    destruct (is_match_second _ _ _ _) as [cache' []]; injection E as <- <- <-; [|exact IH2]. split; assumption.
  - destruct op; try discriminate. injection E as <- <- <-. intros x Hx. apply IH2; right; exact Hx.
  - destruct IH2 as [HR HS]. destruct op as [|gh|sop].
    + destruct sp; try discriminate. injection E as <- <- <-. exact HR.
    + destruct sp; discriminate.
    + assert (E' : match step_step cx me sh sp sop with
             | Some (sh'0, sp', o) => Some (sh'0, JpStepRun t0 js rs sp' rest, o) | None => None end = Some (sh', p', o))
          by (destruct sp; exact E). clear E.
      destruct (step_step cx me sh sp sop) as [[[sh1 sp1] o1]|] eqn:Es; [|discriminate]. injection E' as <- <- <-.
      split; [exact HR|]. eapply sp_own; eauto.
  - destruct op; try discriminate. injection E as <- <- <-. exact IH2.
  - destruct op; try discriminate. injection E as <- <- <-. exact I.
  - destruct op; try discriminate. injection E as <- <- <-. exact I.
  - destruct op; discriminate.
Qed.

Lemma own_run j me ls sh p tr : owns_steps j -> jrun glob cx me j ls sh p tr -> (forall l, In l ls -> keeps_job l) -> own_inv j p.
Proof.
  intros OS R. induction R as [sh|ls sh p tr op sh' p' o R IH E|ls sh p tr e R IH]; intros Q.
  - exact I.
  - eapply own_step; [exact OS| |apply IH|exact E]; [apply Q, in_or_app; right; left; reflexivity|intros l Hl; apply Q, in_or_app; auto].
  - apply IH. intros l Hl; apply Q, in_or_app; auto.
Qed.

(** What one step of a job does to the registry. *)
Lemma job_step_reg j me sh p op sh' p' o : job_step glob cx me j sh p op = Some (sh', p', o) ->
  sm_reg (sh_sm sh') = sm_reg (sh_sm sh) \/
  (exists a, sm_reg (sh_sm sh') = insert (jb_id j) a (sm_reg (sh_sm sh))) \/
  (exists r, p = JpUnregister r /\ p' = JpCompleted r /\ sm_reg (sh_sm sh') = remove (jr_id r) (sm_reg (sh_sm sh))).
Proof.
  intros E. unfold job_step in E.
  destruct p as [|c ev| | |t0|t0|t0|t0 js rs rest|t0 js rs st rest c ev|t0 js rs st rest|t0 js rs sp rest|r|r|r|r].
  - destruct op; try discriminate. left. destruct (jb_on j) as [c|].
    + destruct (is_match_first _ _ _ _) as [[]|]; injection E as <- <- <-; reflexivity.
    + injection E as <- <- <-; reflexivity.
  - destruct op; try discriminate. left. destruct (is_match_second _ _ _ _) as [cache' []]; injection E as <- <- <-; reflexivity.
  - destruct op; try discriminate. left. injection E as <- <- <-; reflexivity.
  - destruct op; try discriminate. left. injection E as <- <- <-; reflexivity.
  - destruct op; try discriminate. right. left. injection E as <- <- <-. eexists. reflexivity.
  - destruct op; try discriminate. left. injection E as <- <- <-; reflexivity.
  - destruct op; try discriminate. left. injection E as <- <- <-; reflexivity.
  - left. destruct op; try (destruct rest; discriminate). destruct rest as [|st rest].
    + injection E as <- <- <-. reflexivity.
    + destruct (forced_skip js st); [injection E as <- <- <-; reflexivity|].
      destruct (st_on st) as [c|].
      * destruct (is_match_first _ _ _ _) as [[]|]; injection E as <- <- <-; reflexivity.
      * injection E as <- <- <-. reflexivity.
  - destruct op; try discriminate. left. destruct (is_match_second _ _ _ _) as [cache' []]; injection E as <- <- <-; reflexivity.
  - destruct op; try discriminate. left. injection E as <- <- <-; reflexivity.
  - left. destruct op as [|gh|sop].
    + destruct sp; try discriminate. injection E as <- <- <-. reflexivity.
    + destruct sp; discriminate.
    + assert (E' : match step_step cx me sh sp sop with
             | Some (sh'0, sp', o) => Some (sh'0, JpStepRun t0 js rs sp' rest, o) | None => None end = Some (sh', p', o))
          by (destruct sp; exact E). clear E.
      destruct (step_step cx me sh sp sop) as [[[sh1 sp1] o1]|] eqn:Es; [|discriminate]. injection E' as <- <- <-. apply (step_reg _ _ _ _ _ _ _ _ Es).
  - destruct op; try discriminate. left. injection E as <- <- <-; reflexivity.
  - destruct op; try discriminate. right. right. injection E as <- <- <-. exists r. repeat split.
  - destruct op; try discriminate. left. injection E as <- <- <-; reflexivity.
  - destruct op; discriminate.
Qed.

Lemma signed_off_step j me sh p op sh' p' o : signed_off p -> job_step glob cx me j sh p op = Some (sh', p', o) -> signed_off p'.
Proof. intros (r & [-> | ->]) E; destruct op; try discriminate E. cbn in E. injection E as <- <- <-. exists r. auto. Qed.

(** Registered afterwards when it starts running. *)
Lemma begins_registered j me sh p op sh' p' o : job_step glob cx me j sh p op = Some (sh', p', o) -> running p' = true -> running p = false -> job_signal j sh' <> None.
Proof.
  intros E H' H. destruct (running_back glob cx me _ _ _ _ _ _ _ E H') as [C|(t0 & ->)]; [congruence|].
  destruct op; try discriminate E. cbn in E. injection E as <- <- <-. unfold job_signal. cbn. rewrite lookup_insert_eq. discriminate.
Qed.

(** A crash is a look for a signal that is not registered. *)
Definition is_crash (p : job_phase) : Prop := exists t0 js rs why rest, p = JpStepRun t0 js rs (SpPanic why) rest.
Lemma crash_step j me ls sh p tr op sh' p' o : jrun glob cx me j ls sh p tr -> own_inv j p -> job_step glob cx me j sh p op = Some (sh', p', o) -> is_crash p' ->
  running p = true /\ job_signal j sh = None.
Proof.
  intros R Ow E (t0 & js & rs & why & rest & ->). unfold job_step in E.
  destruct p as [|c ev| | |t1|t1|t1|t1 js1 rs1 rest1|t1 js1 rs1 st rest1 c ev|t1 js1 rs1 st rest1|t1 js1 rs1 sp rest1|r|r|r|r]; destruct op as [|gh|sop]; try discriminate E; try (destruct rest1; discriminate E).
  - destruct (jb_on j) as [c|]; [destruct (is_match_first _ _ _ _) as [[]|]|]; discriminate E.
  - destruct (is_match_second _ _ _ _) as [cache' []]; discriminate E.
  - destruct rest1 as [|st rest1]; [discriminate E|]. destruct (forced_skip js1 st); [discriminate|]. destruct (st_on st); [destruct (is_match_first _ _ _ _) as [[]|]|]; discriminate E.
  - destruct (is_match_second _ _ _ _) as [cache' []]; discriminate E.
  - destruct sp; discriminate E.
  - destruct sp; discriminate E.
  - split; [reflexivity|].
    assert (E' : match step_step cx me sh sp sop with
             | Some (sh'0, sp', o) => Some (sh'0, JpStepRun t1 js1 rs1 sp' rest1, o) | None => None end = Some (sh', JpStepRun t0 js rs (SpPanic why) rest, o))
          by (destruct sp; exact E). clear E.
    destruct (step_step cx me sh sp sop) as [[[sh1 sp1] o1]|] eqn:Es; [|discriminate]. assert (sp1 = SpPanic why) by congruence. subst sp1. clear E'.
    destruct Ow as [_ Ow]. unfold step_step in Es.
    destruct sp; destruct sop; try discriminate Es; try (destruct (runner_step _ _ _); discriminate Es).
    + destruct (lookup _ _) as [b|] eqn:El; [discriminate Es|]. unfold job_signal. rewrite <- (Ow st eq_refl). exact El.
    + destruct ok; discriminate Es.
    + destruct (_ <=? _)%N; discriminate.
    + destruct (sm_step _ _) as [sm' [| | |so|]]; try discriminate. destruct so as [| |[s|]]; discriminate.
    + destruct (stream_poll _ _) as [[str' [l| |]] w]; discriminate.
    + destruct (ss_result str) eqn:Er; [discriminate|]. exfalso. apply jrun_inv in R. cbn in R. destruct R as (st1 & tr' & chk & trs & ls' & _ & _ & _ & _ & R). eapply broken_has_result; [exact R|reflexivity|exact Er].
Qed.

Section W.
Variable wf : workflow.
Hypothesis Hnd : NoDup (keys (wf_jobs wf)).
Hypothesis Hid : distinct_ids wf.
Hypothesis Hown : forall k j, In (k, j) (wf_jobs wf) -> owns_steps j.

Definition replaced (s : wstate) (i : nat) (t : wtask) : Prop :=
  exists i' t', i' <> i /\ nth_error (ws_tasks s) i' = Some t' /\ tk_key t' = tk_key t /\ signed_off (tk_phase t').
Definition cinv (s : wstate) : Prop := forall i t, nth_error (ws_tasks s) i = Some t ->
  (running (tk_phase t) = true -> job_signal (tk_job t) (ws_sh s) <> None \/ replaced s i t) /\
  (is_crash (tk_phase t) -> replaced s i t).

Lemma replaced_mono s s' i t t' : tk_key t' = tk_key t ->
  (forall k x, nth_error (ws_tasks s) k = Some x -> exists x', nth_error (ws_tasks s') k = Some x' /\ tk_key x' = tk_key x /\ (signed_off (tk_phase x) -> signed_off (tk_phase x'))) ->
  replaced s i t -> replaced s' i t'.
Proof.
  intros Ek H (k & x & Hk & Hx & Ex & Hs). destruct (H k x Hx) as (x' & Hx' & Ex' & Hs'). exists k, x'. repeat split; auto. congruence.
Qed.

Lemma cinv_run ls s tr : wrun glob cx wf ls s tr -> (forall op, In op ls -> well_behaved wf op) -> cinv s.
Proof.
  induction 1 as [sh|ls s tr op s' o R IH E]; intros Q; [intros [|i] t C; discriminate C|].
  assert (Qop : well_behaved wf op) by (apply Q, in_or_app; right; left; reflexivity).
  assert (Q0 : forall op, In op ls -> well_behaved wf op) by (intros x Hx; apply Q, in_or_app; auto).
  specialize (IH Q0). clear Q.
  destruct (winv glob cx wf Hnd _ _ _ R) as [_ [_ T2 _ _]].
  (* a step that changes neither the phases nor the registry's jobs of this workflow *)
  assert (Easy : (forall k x', nth_error (ws_tasks s') k = Some x' -> (exists x, nth_error (ws_tasks s) k = Some x /\ tk_key x' = tk_key x /\ tk_job x' = tk_job x /\ tk_phase x' = tk_phase x) \/ tk_phase x' = JpCheck) ->
    (forall k x, nth_error (ws_tasks s) k = Some x -> exists x', nth_error (ws_tasks s') k = Some x' /\ tk_key x' = tk_key x /\ tk_phase x' = tk_phase x) ->
    (forall j k, In (k, j) (wf_jobs wf) -> job_signal j (ws_sh s') = job_signal j (ws_sh s)) -> cinv s').
  { intros H1 H2 H3 i t Ht. destruct (H1 i t Ht) as [(x & Hx & Ek & Ej & Ep)|Ep].
    - destruct (IH i x Hx) as [I1 I2]. assert (Hj := T2 x (nth_error_In _ _ Hx)).
      assert (M : replaced s i x -> replaced s' i t).
      { apply replaced_mono; [exact Ek|]. intros k y Hy. destruct (H2 k y Hy) as (y' & Hy' & Ey & Py). exists y'. repeat split; auto. rewrite Py. auto. }
      rewrite Ep, Ej. split; [|auto]. intros Hr. rewrite (H3 _ _ Hj). destruct (I1 Hr); auto.
    - rewrite Ep. split; [discriminate|]. intros (? & ? & ? & ? & ? & C). discriminate C. }
  destruct op as [|gh|i op|i|e]; cbn [Workflow_model.wstep] in E.
  - assert (Hsh := main_sh glob cx wf _ _ _ E). apply main_tasks in E. destruct E as [[Et _]|(kj & Et & _)]; apply Easy.
    + intros k x' Hx. rewrite Et in Hx. left. eauto.
    + intros k x Hx. rewrite Et. eauto.
    + intros j k _. rewrite Hsh. reflexivity.
    + intros k x' Hx. rewrite Et in Hx. destruct (Nat.lt_ge_cases k (length (ws_tasks s))) as [Hlt|Hge].
      * rewrite nth_error_app1 in Hx by exact Hlt. left. eauto.
      * rewrite nth_error_app2 in Hx by exact Hge. destruct (k - length (ws_tasks s)) as [|m]; [|destruct m; discriminate Hx]. cbn in Hx. injection Hx as <-. right. reflexivity.
    + intros k x Hx. rewrite Et. exists x. rewrite nth_error_app1; [auto|]. apply nth_error_Some. congruence.
    + intros j k _. rewrite Hsh. reflexivity.
  - destruct (ws_main s); try discriminate. destruct (is_match_second _ _ _ _) as [cache' b]. injection E as <- <-. apply Easy; cbn [ws_tasks ws_sh]; [intros k x Hx; left; eauto|eauto|reflexivity].
  - destruct (nth_error (ws_tasks s) i) as [t|] eqn:Et; [|discriminate].
    destruct (job_step glob cx (S i) (tk_job t) (ws_sh s) (tk_phase t) op) as [[[sh' p'] ob]|] eqn:Ej; [|discriminate]. injection E as <- <-.
    assert (Hj := T2 t (nth_error_In _ _ Et)).
    assert (Ow : own_inv (tk_job t) (tk_phase t)).
    { destruct (tasks_run_inv glob cx wf _ _ _ R) as [TR _]. destruct (TR i t Et) as (jls & J & L). eapply own_run; [eapply Hown, Hj|exact J|].
      intros l Hl. specialize (L l Hl). destruct l as [op'|e]; cbn in L; [|exact I]. specialize (Q0 _ L). exact Q0. }
    set (s' := WState sh' (ws_main s) (list_set i (WTask (tk_key t) (tk_job t) p' (tk_sent t)) (ws_tasks s)) (ws_chan s)) in *. clear Easy.
    assert (Mono : forall k y, nth_error (ws_tasks s) k = Some y -> exists y', nth_error (ws_tasks s') k = Some y' /\ tk_key y' = tk_key y /\ (signed_off (tk_phase y) -> signed_off (tk_phase y'))).
    { intros k y Hy. destruct (Nat.eq_dec k i) as [->|Hne].
      - assert (y = t) by congruence. subst y. eexists. split; [apply (list_set_eq i _ _ _ Et)|]. split; [reflexivity|]. intros Hs. eapply signed_off_step; [exact Hs|exact Ej].
      - exists y. cbn [s' ws_tasks]. rewrite list_set_ne by exact Hne. auto. }
    intros k x Hx. destruct (Nat.eq_dec k i) as [->|Hne].
    + unfold s' in Hx; cbn [ws_tasks] in Hx. rewrite (list_set_eq i _ _ _ Et) in Hx. injection Hx as <-. cbn [tk_phase tk_job ws_sh s'].
      destruct (IH i t Et) as [I1 I2].
      assert (M : replaced s i t -> replaced s' i (WTask (tk_key t) (tk_job t) p' (tk_sent t))) by (apply replaced_mono; [reflexivity|exact Mono]).
      split.
      * intros Hr. destruct (running (tk_phase t)) eqn:Hr0.
        -- destruct (I1 eq_refl) as [Hs|Hs]; [|auto]. left. unfold job_signal. change (sh_sm (ws_sh s')) with (sh_sm sh'). rewrite (job_step_signal glob cx (S i) _ _ _ _ _ _ _ Hr0 Hr Ej). exact Hs.
        -- left. eapply begins_registered; eassumption.
      * intros C. destruct (tasks_run_inv glob cx wf _ _ _ R) as [TR _]. destruct (TR i t Et) as (jls & J & _).
        destruct (crash_step _ _ _ _ _ _ _ _ _ _ J Ow Ej C) as [Hr Hn]. destruct (I1 Hr) as [Hs|Hs]; [contradiction|auto].
    + unfold s' in Hx; cbn [ws_tasks] in Hx. rewrite list_set_ne in Hx by exact Hne. destruct (IH k x Hx) as [I1 I2].
      assert (M : replaced s k x -> replaced s' k x) by (apply replaced_mono; [reflexivity|exact Mono]).
      split; [|auto]. intros Hr. destruct (I1 Hr) as [Hs|Hs]; [|auto]. unfold job_signal in *. change (sh_sm (ws_sh s')) with (sh_sm sh').
      destruct (job_step_reg _ _ _ _ _ _ _ _ Ej) as [Er|[(a & Er)|(r & Ep & Ep' & Er)]]; rewrite Er.
      * auto.
      * left. rewrite lookup_insert. destruct (eq_dec _ _); [discriminate|exact Hs].
      * rewrite lookup_remove. destruct (eq_dec (jb_id (tk_job x)) (jr_id r)) as [Eq|Nq]; [|auto]. right.
        rewrite Ep in Ow. cbn in Ow. exists i. eexists. split; [auto|]. split; [apply (list_set_eq i _ _ _ Et)|]. split.
        -- cbn. eapply Hid; [exact Hj|apply (T2 x (nth_error_In _ _ Hx))|congruence].
        -- cbn. rewrite Ep'. exists r. auto.
  - destruct (nth_error (ws_tasks s) i) as [[key j p sent]|] eqn:Et; [|discriminate]. destruct p; try discriminate. destruct sent; [discriminate|].
    assert (X : exists m ch, s' = WState (ws_sh s) m (list_set i (WTask key j (JpReturned r) true) (ws_tasks s)) ch).
    { destruct (ws_main s); try (destruct (Nat.ltb _ _); [|discriminate E]); injection E as <- <-; eexists; eexists; reflexivity. }
    destruct X as (m & ch & ->). clear E. apply Easy; cbn [ws_tasks ws_sh].
    + intros k x Hx. left. destruct (Nat.eq_dec k i) as [->|Hne].
      * rewrite (list_set_eq i _ _ _ Et) in Hx. injection Hx as <-. eexists. split; [exact Et|]. repeat split.
      * rewrite list_set_ne in Hx by exact Hne. eauto.
    + intros k x Hx. destruct (Nat.eq_dec k i) as [->|Hne].
      * eexists. split; [apply (list_set_eq i _ _ _ Et)|]. rewrite Et in Hx. injection Hx as <-. split; reflexivity.
      * exists x. rewrite list_set_ne by exact Hne. auto.
    + reflexivity.
  - injection E as <- <-. apply Easy; cbn [ws_tasks ws_sh]; [intros k x Hx; left; eauto|eauto|].
    intros j k Hj. unfold job_signal. destruct e as [d|so|c]; try reflexivity. unfold env_step, set_sm; cbn [sh_sm].
    destruct so as [x|x|b x|b|b so]; try (rewrite sm_reg_other; [reflexivity|discriminate|discriminate]); cbn in Qop |- *.
    + rewrite lookup_insert_ne; [reflexivity|]. intros C. eapply Qop; eauto.
    + rewrite lookup_remove_ne; [reflexivity|]. intros C. eapply Qop; eauto.
Qed.
End W.
End P.
