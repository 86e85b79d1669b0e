(** Proofs about the registration of a job's signal (C31) and cancellation of a job (C27). *)
From Verif Require Import Base Types Signals_model Signals_proof Stream_model Stream_spec Stream_proof Cond_model
  Plugins_model Plugins_spec Plugins_proof Exec_model Exec_spec Step_proof Timing_proof Job_proof.

Section P.
Variable glob : glob_oracle.
Variable cx : ectx.
Variable me : task.

Fixpoint jexec (j : job) (sh : shared) (p : job_phase) (ls : list jlabel) : option (shared * job_phase * list obs) :=
  match ls with
  | [] => Some (sh, p, [])
  | JEnv e :: ls' => jexec j (env_step sh e) p ls'
  | JOwn op :: ls' =>
      match job_step glob cx me j sh p op with
      | None => None
      | Some (sh', p', o) => match jexec j sh' p' ls' with
                             | None => None
                             | Some (sh2, p2, o2) => Some (sh2, p2, o ++ o2)
                             end
      end
  end.
Lemma jexec_run j ls : forall ls0 sh p tr sh' p' o, jrun glob cx me j ls0 sh p tr -> jexec j sh p ls = Some (sh', p', o) ->
  jrun glob cx me j (ls0 ++ ls) sh' p' (tr ++ o).
Proof.
  induction ls as [|[op|e] ls IH]; cbn; intros ls0 sh p tr sh' p' o R E.
  - injection E as <- <- <-. rewrite !app_nil_r. exact R.
  - destruct (job_step glob cx me j sh p op) as [[[sh1 p1] o1]|] eqn:E1; [|discriminate].
    destruct (jexec j sh1 p1 ls) as [[[sh2 p2] o2]|] eqn:E2; [|discriminate]. injection E as <- <- <-.
    rewrite app_cons_assoc, app_assoc. eapply IH; eauto. eapply jrun_own; eauto.
  - rewrite app_cons_assoc. eapply IH; eauto. apply jrun_env, R.
Qed.
Lemma jexec_init j ls sh sh' p' o : jexec j sh JpCheck ls = Some (sh', p', o) -> jrun glob cx me j ls sh' p' o.
Proof. intros E. apply (jexec_run j ls [] sh JpCheck [] sh' p' o); [constructor|exact E]. Qed.

(** the address a step uses *)
Definition sp_addr (p : step_phase) : option nat :=
  match p with
  | SpCall _ _ a | SpCalling _ _ a _ _ | SpInProgress _ _ a _ _ | SpEnter _ _ a _ _ | SpLoop _ _ a _ _ _
  | SpGotLog _ _ a _ _ _ | SpDeliver _ _ a _ _ _ | SpBroken _ _ a _ _ => Some a
  | _ => None
  end.
Definition sp_step (p : step_phase) : option step :=
  match p with
  | SpBefore st | SpStarted st | SpRunEvent st _ | SpQueue st _ | SpGetSignal st _
  | SpCall st _ _ | SpCalling st _ _ _ _ | SpInProgress st _ _ _ _ | SpEnter st _ _ _ _ | SpLoop st _ _ _ _ _
  | SpGotLog st _ _ _ _ _ | SpDeliver st _ _ _ _ _ | SpBroken st _ _ _ _ => Some st
  | _ => None
  end.
Definition sp_ok (j : job) (sh : shared) (p : step_phase) : Prop :=
  (forall a, sp_addr p = Some a -> job_signal j sh = Some a) /\
  (forall st, sp_step p = Some st -> step_id_job_id (st_id st) = jb_id j) /\
  (forall w, p <> SpPanic w).

Definition rest_ok (j : job) (l : list step) : Prop := forall st, In st l -> step_id_job_id (st_id st) = jb_id j.

Definition rinv (j : job) (sh : shared) (p : job_phase) : Prop :=
  (running p = true -> job_signal j sh <> None) /\
  match p with
  | JpSteps _ _ _ rest => rest_ok j rest
  | JpStepFetch _ _ _ st rest _ _ | JpStepSkip _ _ _ st rest => rest_ok j (st :: rest)
  | JpStepRun _ _ _ sp rest => rest_ok j rest /\ sp_ok j sh sp
  | JpEndState r | JpUnregister r => jr_id r = jb_id j
  | JpCompleted r => job_signal j sh = None
  | _ => True
  end.

Lemma sm_reg_other sm o : (forall x, o <> MRegister x) -> (forall x, o <> MUnregister x) -> sm_reg (fst (sm_step sm o)) = sm_reg sm.
Proof.
  intros H1 H2. destruct o as [x|x|k x|k|b so]; [destruct (H1 x eq_refl)|destruct (H2 x eq_refl)|..]; cbn.
  - destruct (lookup x (sm_reg sm)); reflexivity.
  - destruct (lookup k (sm_pending sm)); [|reflexivity]. destruct (nth_error _ _) as [st|]; [|reflexivity].
    destruct (sig_cancel st) as [[? ?] ?]. reflexivity.
  - destruct (nth_error _ _) as [st|]; [|reflexivity]. destruct (sig_step st so). reflexivity.
Qed.

Lemma env_signal j sh e : quiet j (JEnv e) -> job_signal j (env_step sh e) = job_signal j sh.
Proof.
  intros Q. unfold job_signal. destruct e as [d|o|c]; cbn; try reflexivity.
  destruct o as [x|x|k x|k|b so]; try (rewrite sm_reg_other; [reflexivity|discriminate|discriminate]).
  - cbn in *. rewrite lookup_insert_ne; congruence.
  - cbn in *. rewrite lookup_remove_ne; congruence.
Qed.

Lemma step_reg sh p op sh' p' o : step_step cx me sh p op = Some (sh', p', o) -> sm_reg (sh_sm sh') = sm_reg (sh_sm sh).
Proof.
  intros E. unfold step_step in E.
  destruct p; destruct op; try discriminate E; try (injection E as <- <- <-; reflexivity);
    try (destruct (runner_step _ _ _); injection E as <- <- <-; reflexivity).
  - destruct (lookup _ _); injection E as <- <- <-; reflexivity.
  - destruct ok; injection E as <- <- <-; reflexivity.
  - destruct (_ <=? _)%N; [|discriminate]. injection E as <- <- <-; reflexivity.
  - destruct (sm_step (sh_sm sh) (MSignal a (OPoll me))) as [sm' out] eqn:Es.
    assert (H : sm_reg sm' = sm_reg (sh_sm sh)).
    { replace sm' with (fst (sm_step (sh_sm sh) (MSignal a (OPoll me)))) by (rewrite Es; reflexivity). apply sm_reg_other; discriminate. }
    destruct out as [| | |so|]; try discriminate.
    destruct so as [| |[s|]]; try discriminate; injection E as <- <- <-; exact H.
  - destruct (stream_poll _ _) as [[str' [l| |]] w]; injection E as <- <- <-; reflexivity.
  - destruct (ss_result str); injection E as <- <- <-; reflexivity.
Qed.

Lemma sp_ok_env j sh e p : quiet j (JEnv e) -> sp_ok j sh p -> sp_ok j (env_step sh e) p.
Proof. intros Q (H1 & H2 & H3). unfold sp_ok. rewrite env_signal by exact Q. auto. Qed.

Lemma sp_ok_step j sh p op sh' p' o : keeps_job (JOwn (JStep op)) -> job_signal j sh <> None ->
  (forall st t0 a sg str, p = SpBroken st t0 a sg str -> ss_result str <> None) ->
  sp_ok j sh p -> step_step cx me sh p op = Some (sh', p', o) -> sp_ok j sh' p'.
Proof.
  intros K Hreg NP (H1 & H2 & H3) E.
  assert (R : job_signal j sh' = job_signal j sh) by (unfold job_signal; rewrite (step_reg _ _ _ _ _ _ E); reflexivity).
  unfold sp_ok. rewrite R. clear R. unfold step_step in E.
  destruct p; destruct op; try discriminate E; try (injection E as <- <- <-; cbn in *; repeat split; solve [auto|discriminate]);
    try (destruct (runner_step _ _ _); injection E as <- <- <-; cbn in *; repeat split; solve [auto|discriminate]).
  - injection E as <- <- <-. cbn in *. repeat split; try discriminate. intros st' [= <-]. rewrite K. auto.
  - destruct (lookup _ _) as [b|] eqn:El; injection E as <- <- <-; cbn in *.
    + repeat split; auto; try discriminate. intros x [= <-]. unfold job_signal. rewrite <- (H2 st eq_refl). exact El.
    + exfalso. apply Hreg. unfold job_signal. rewrite <- (H2 st eq_refl). exact El.
  - destruct ok; injection E as <- <- <-; cbn in *; repeat split; solve [auto|discriminate].
  - destruct (_ <=? _)%N; [|discriminate]. injection E as <- <- <-; cbn in *; repeat split; solve [auto|discriminate].
  - destruct (sm_step _ _) as [sm' [| | |so|]] eqn:Es; try discriminate.
    destruct so as [| |[s|]]; try discriminate; injection E as <- <- <-; cbn in *; repeat split; solve [auto|discriminate].
  - destruct (stream_poll _ _) as [[str' [l| |]] w]; injection E as <- <- <-; cbn in *; repeat split; solve [auto|discriminate].
  - destruct (ss_result str) eqn:Er; injection E as <- <- <-; cbn in *; repeat split; try solve [auto|discriminate].
    intros w. exfalso. eapply NP; eauto.
Qed.

Lemma broken_has_result st0 ls sh p tr : srun cx me st0 ls sh p tr ->
  forall st t0 a sg str, p = SpBroken st t0 a sg str -> ss_result str <> None.
Proof.
  intros R st t0 a sg str ->. apply srun_inv in R. cbn in R. destruct R as (_ & _ & -> & D & _).
  apply drained_ended in D. apply ended_iff in D. exact D.
Qed.

Lemma rinv_run j ls sh p tr : owns_steps j -> jrun glob cx me j ls sh p tr ->
  (forall l, In l ls -> quiet j l /\ keeps_job l) -> rinv j sh p.
Proof.
  intros OS R. induction R as [sh|ls sh p tr op sh' p' o R IH E|ls sh p tr e R IH]; intros Q.
  - split; [discriminate|exact I].
  - assert (Q0 : forall l, In l ls -> quiet j l /\ keeps_job l) by (intros l Hl; apply Q, in_or_app; auto).
    assert (Q1 : keeps_job (JOwn op)) by (apply Q, in_or_app; right; left; reflexivity).
    destruct (IH Q0) as [IR IH2]. clear IH Q Q0.
    unfold job_step in E.
    destruct p as [|c ev| | |t0|t0|t0|t0 js rs rest|t0 js rs st rest c ev|t0 js rs st rest|t0 js rs sp rest|r|r|r|r].
    + destruct op; try discriminate. destruct (jb_on j) as [c|].
      * destruct (is_match_first _ _ _ _) as [[]|]; injection E as <- <- <-; split; try discriminate; exact I.
      * injection E as <- <- <-; split; try discriminate; exact I.
    + destruct op; try discriminate. destruct (is_match_second _ _ _ _) as [cache' []]; injection E as <- <- <-; split; try discriminate; exact I.
    + destruct op; try discriminate. injection E as <- <- <-; split; try discriminate; exact I.
    + destruct op; try discriminate. injection E as <- <- <-; split; try discriminate; exact I.
    + destruct op; try discriminate. injection E as <- <- <-. split; [|exact I]. intros _. unfold job_signal. cbn.
      rewrite lookup_insert_eq. discriminate.
    + destruct op; try discriminate. injection E as <- <- <-. split; [exact IR|exact I].
    + destruct op; try discriminate. injection E as <- <- <-. split; [exact IR|]. exact OS.
    + destruct op; try (destruct rest; discriminate). destruct rest as [|st rest].
      * injection E as <- <- <-. split; [exact IR|reflexivity].
      * assert (HB : sp_ok j sh (SpBefore st)).
        { repeat split; try discriminate. intros x [= <-]. apply IH2; left; reflexivity. }
        assert (HR : rest_ok j rest) by (intros x Hx; apply IH2; right; exact Hx).
        destruct (forced_skip js st); [injection E as <- <- <-; split; [exact IR|exact IH2]|].
        destruct (st_on st) as [c|].
        -- destruct (is_match_first _ _ _ _) as [[]|]; injection E as <- <- <-; (split; [exact IR|]); try exact IH2. split; assumption.
        -- injection E as <- <- <-. split; [exact IR|]. split; assumption.
    + destruct op; try discriminate.
      assert (HB : sp_ok j sh (SpBefore st)).
      { repeat split; try discriminate. intros x [= <-]. apply IH2; left; reflexivity. }
      assert (HR : rest_ok j rest) by (intros x Hx; apply IH2; right; exact Hx).
      destruct (is_match_second _ _ _ _) as [cache' []]; injection E as <- <- <-; (split; [exact IR|]); [|exact IH2]. split; assumption.
    + destruct op; try discriminate. injection E as <- <- <-. split; [exact IR|]. intros x Hx. apply IH2; right; exact Hx.
    + destruct IH2 as [HR HS]. destruct op as [|gh|sop].
      * destruct sp; try discriminate. injection E as <- <- <-. split; [exact IR|exact HR].
      * destruct sp; discriminate.
      * assert (E' : match step_step cx me sh sp sop with
             | Some (sh'0, sp', o) => Some (sh'0, JpStepRun t0 js rs sp' rest, o) | None => None end = Some (sh', p', o))
          by (destruct sp; exact E). clear E.
        destruct (step_step cx me sh sp sop) as [[[sh1 sp1] o1]|] eqn:Es; [|discriminate]. injection E' as <- <- <-.
        split.
        -- intros _. unfold job_signal. rewrite (step_reg _ _ _ _ _ _ Es). apply IR; reflexivity.
        -- split; [exact HR|]. eapply sp_ok_step; [exact Q1|apply IR; reflexivity| |exact HS|exact Es].
           apply jrun_inv in R. cbn in R. destruct R as (st & tr' & chk & trs & ls' & _ & _ & _ & _ & R). eapply broken_has_result, R.
    + destruct op; try discriminate. injection E as <- <- <-. split; [exact IR|exact IH2].
    + destruct op; try discriminate. injection E as <- <- <-. split; [discriminate|]. unfold job_signal. cbn.
      rewrite IH2. apply lookup_remove_eq.
    + destruct op; try discriminate. injection E as <- <- <-. split; [discriminate|exact I].
    + destruct op; discriminate.
  - assert (Q0 : forall l, In l ls -> quiet j l /\ keeps_job l) by (intros l Hl; apply Q, in_or_app; auto).
    assert (Q1 : quiet j (JEnv e)) by (apply Q, in_or_app; right; left; reflexivity).
    destruct (IH Q0) as [IR IH2]. split; [rewrite env_signal by exact Q1; exact IR|].
    destruct p; auto.
    + destruct IH2; split; [auto|]. apply sp_ok_env; auto.
    + rewrite env_signal by exact Q1; exact IH2.
Qed.

(** The registered signal stays the same one while the job runs. *)
Lemma job_step_signal j sh p op sh' p' o : running p = true -> running p' = true ->
  job_step glob cx me j sh p op = Some (sh', p', o) -> sm_reg (sh_sm sh') = sm_reg (sh_sm sh).
Proof.
  intros H H' E. unfold job_step in E. destruct p as [|c ev| | |t0|t0|t0|t0 js rs rest|t0 js rs st rest c ev|t0 js rs st rest|t0 js rs sp rest|r|r|r|r];
    try discriminate H; destruct op as [|gh|sop]; try discriminate E; try (destruct rest; discriminate E);
    try (injection E as <- <- <-; reflexivity).
  - destruct rest as [|st rest]; [injection E as <- <- <-; reflexivity|].
    destruct (forced_skip js st); [injection E as <- <- <-; reflexivity|].
    destruct (st_on st); [destruct (is_match_first _ _ _ _)|]; injection E as <- <- <-; reflexivity.
  - destruct (is_match_second _ _ _ _); injection E as <- <- <-; reflexivity.
  - destruct sp; try discriminate E; injection E as <- <- <-; reflexivity.
  - destruct sp; discriminate E.
  - assert (E' : match step_step cx me sh sp sop with
             | Some (sh'0, sp', o) => Some (sh'0, JpStepRun t0 js rs sp' rest, o) | None => None end = Some (sh', p', o))
          by (destruct sp; exact E). clear E.
    destruct (step_step cx me sh sp sop) as [[[sh1 sp1] o1]|] eqn:Es; [|discriminate]. injection E' as <- <- <-. apply (step_reg _ _ _ _ _ _ Es).
  - injection E as <- <- <-. discriminate H'.
Qed.

Lemma running_back j sh p op sh' p' o : job_step glob cx me j sh p op = Some (sh', p', o) -> running p' = true ->
  running p = true \/ exists t0, p = JpRegister t0.
Proof.
  intros E H. unfold job_step in E. destruct p as [|c ev| | |t0|t0|t0|t0 js rs rest|t0 js rs st rest c ev|t0 js rs st rest|t0 js rs sp rest|r|r|r|r]; auto;
    destruct op; try discriminate E.
  - destruct (jb_on j) as [c|]; [destruct (is_match_first _ _ _ _) as [[]|]|]; injection E as <- <- <-; discriminate H.
  - destruct (is_match_second _ _ _ _) as [cache' []]; injection E as <- <- <-; discriminate H.
  - injection E as <- <- <-; discriminate H.
  - injection E as <- <- <-; discriminate H.
  - eauto.
  - injection E as <- <- <-; discriminate H.
Qed.

(** no way back: once past the end, a job never gets back to a running phase *)
Definition over (p : job_phase) : bool := match p with JpCompleted _ | JpReturned _ | JpSkip => true | _ => false end.
Lemma jexec_signal j ls : forall sh p sh' p' o, (forall l, In l ls -> quiet j l) ->
  running p = true -> running p' = true -> jexec j sh p ls = Some (sh', p', o) -> job_signal j sh' = job_signal j sh.
Proof.
  assert (OV : forall sh p op sh' p' o, over p = true -> job_step glob cx me j sh p op = Some (sh', p', o) -> over p' = true).
  { intros sh p op sh' p' o H E. destruct p; try discriminate H; destruct op; try discriminate E; cbn in E; injection E as <- <- <-; reflexivity. }
  assert (OX : forall ls sh p sh' p' o, over p = true -> jexec j sh p ls = Some (sh', p', o) -> over p' = true).
  { induction ls0 as [|[op|e] ls0 IH]; cbn; intros sh p sh' p' o H E.
    - injection E as <- <- <-. exact H.
    - destruct (job_step glob cx me j sh p op) as [[[sh1 p1] o1]|] eqn:E1; [|discriminate].
      destruct (jexec j sh1 p1 ls0) as [[[sh2 p2] o2]|] eqn:E2; [|discriminate]. injection E as <- <- <-. eauto.
    - eauto. }
  assert (RO : forall sh p op sh' p' o, running p = true -> job_step glob cx me j sh p op = Some (sh', p', o) -> running p' = true \/ over p' = true).
  { intros sh p op sh' p' o H E. unfold job_step in E.
    destruct p as [|c ev| | |t0|t0|t0|t0 js rs rest|t0 js rs st rest c ev|t0 js rs st rest|t0 js rs sp rest|r|r|r|r];
    try discriminate H; destruct op as [|gh|sop]; try discriminate E; try (destruct rest; discriminate E);
    try (injection E as <- <- <-; cbn; auto).
    - destruct rest as [|st rest]; [injection E as <- <- <-; cbn; auto|].
      destruct (forced_skip js st); [injection E as <- <- <-; cbn; auto|].
      destruct (st_on st); [destruct (is_match_first _ _ _ _) as [[]|]|]; injection E as <- <- <-; cbn; auto.
    - destruct (is_match_second _ _ _ _) as [? []]; injection E as <- <- <-; cbn; auto.
    - destruct sp; try discriminate E; injection E as <- <- <-; cbn; auto.
    - destruct sp; discriminate E.
    - assert (E' : match step_step cx me sh sp sop with
             | Some (sh'0, sp', o) => Some (sh'0, JpStepRun t0 js rs sp' rest, o) | None => None end = Some (sh', p', o))
          by (destruct sp; exact E). clear E.
      destruct (step_step cx me sh sp sop) as [[[sh1 sp1] o1]|] eqn:Es; [|discriminate]. injection E' as <- <- <-. auto. }
  induction ls as [|[op|e] ls IH]; cbn; intros sh p sh' p' o Q H H' E.
  - injection E as <- <- <-. reflexivity.
  - destruct (job_step glob cx me j sh p op) as [[[sh1 p1] o1]|] eqn:E1; [|discriminate].
    destruct (jexec j sh1 p1 ls) as [[[sh2 p2] o2]|] eqn:E2; [|discriminate]. injection E as <- <- <-.
    destruct (RO _ _ _ _ _ _ H E1) as [H1|H1].
    + rewrite (IH _ _ _ _ _ (fun l Hl => Q l (or_intror Hl)) H1 H' E2). unfold job_signal. rewrite (job_step_signal _ _ _ _ _ _ _ H H1 E1). reflexivity.
    + exfalso. assert (over p2 = true) by eauto. destruct p2; cbn in *; congruence.
  - rewrite (IH _ _ _ _ _ (fun l Hl => Q l (or_intror Hl)) H H' E). apply env_signal. apply Q; left; reflexivity.
Qed.

(** ** A raised, undelivered signal stays so until it is polled. *)
Lemma undelivered_sm sm o a c s : nth_error (sm_heap sm) a = Some c -> sg_signal c = Some s -> sg_notified c = false -> ~ polls_cell a o ->
  exists c', nth_error (sm_heap (fst (sm_step sm o))) a = Some c' /\ sg_signal c' = Some s /\ sg_notified c' = false.
Proof.
  intros H S N NP. destruct o as [j|j|k j|k|b so]; cbn; eauto.
  - exists c. split; [|auto]. rewrite nth_error_app1; [exact H|]. apply nth_error_Some. congruence.
  - destruct (lookup j (sm_reg sm)); cbn; eauto.
  - destruct (lookup k (sm_pending sm)) as [b|]; cbn; eauto.
    destruct (nth_error (sm_heap sm) b) as [st|] eqn:Eb; cbn; eauto.
    destruct (sig_cancel st) as [[st' r] w] eqn:Es. cbn. rewrite nth_error_list_set.
    destruct (Nat.eq_dec a b) as [->|]; [|eauto].
    rewrite H. assert (st = c) as -> by congruence. exists st'. split; [reflexivity|].
    unfold sig_cancel in Es. rewrite S in Es. injection Es as <- _ _. auto.
  - destruct (nth_error (sm_heap sm) b) as [st|] eqn:Eb; cbn; eauto.
    destruct (sig_step st so) as [st' r] eqn:Es. cbn. rewrite nth_error_list_set.
    destruct (Nat.eq_dec a b) as [->|]; [|eauto].
    rewrite H. assert (st = c) as -> by congruence. exists st'. split; [reflexivity|].
    destruct so; cbn in Es.
    + unfold sig_cancel in Es. rewrite S in Es. injection Es as <- _. auto.
    + unfold sig_timeout in Es. rewrite S in Es. injection Es as <- _. auto.
    + injection Es as <- _; auto.
    + injection Es as <- _; auto.
    + exfalso. apply NP. eexists; reflexivity.
Qed.

Lemma undelivered_step sh p op sh' p' o a s : undelivered_cell sh a s -> op <> OpJobSignal ->
  step_step cx me sh p op = Some (sh', p', o) -> undelivered_cell sh' a s.
Proof.
  intros (c & Hc & Hs & Hn) NO E. exists c. split; [|auto].
  assert (D : sh_sm sh' = sh_sm sh).
  { unfold step_step in E.
    destruct p; destruct op; try discriminate E; try congruence; try (injection E as <- <- <-; reflexivity);
    try (destruct (runner_step _ _ _); injection E as <- <- <-; reflexivity).
    - destruct (lookup _ _); injection E as <- <- <-; reflexivity.
    - destruct ok; injection E as <- <- <-; reflexivity.
    - destruct (_ <=? _)%N; [|discriminate]. injection E as <- <- <-; reflexivity.
    - destruct (stream_poll _ _) as [[str' [l| |]] w]; injection E as <- <- <-; reflexivity.
    - destruct (ss_result str); injection E as <- <- <-; reflexivity. }
  unfold cell. rewrite D. exact Hc.
Qed.

Lemma undelivered_exec j a s ls : forall sh p sh' p' o, (forall l, In l ls -> ~ looks a l) -> undelivered_cell sh a s ->
  jexec j sh p ls = Some (sh', p', o) -> undelivered_cell sh' a s.
Proof.
  assert (JS : forall sh p op sh' p' o, ~ looks a (JOwn op) -> undelivered_cell sh a s ->
    job_step glob cx me j sh p op = Some (sh', p', o) -> undelivered_cell sh' a s).
  { intros sh p op sh' p' o NL U E. unfold job_step in E.
    destruct p as [|c ev| | |t0|t0|t0|t0 js rs rest|t0 js rs st rest c ev|t0 js rs st rest|t0 js rs sp rest|r|r|r|r];
    destruct op as [|gh|sop]; try discriminate E; try (destruct rest; discriminate E);
    try (injection E as <- <- <-; exact U).
    - destruct (jb_on j) as [c|]; [destruct (is_match_first _ _ _ _) as [[]|]|]; injection E as <- <- <-; exact U.
    - destruct (is_match_second _ _ _ _) as [? []]; injection E as <- <- <-; exact U.
    - injection E as <- <- <-. destruct U as (c & Hc & Hs & Hn). unfold undelivered_cell, cell.
      apply (undelivered_sm (sh_sm sh) (MRegister (jb_id j)) a c s Hc Hs Hn). intros [t C]; discriminate.
    - destruct rest as [|st rest]; [injection E as <- <- <-; exact U|].
      destruct (forced_skip js st); [injection E as <- <- <-; exact U|].
      destruct (st_on st); [destruct (is_match_first _ _ _ _) as [[]|]|]; injection E as <- <- <-; exact U.
    - destruct (is_match_second _ _ _ _) as [? []]; injection E as <- <- <-; exact U.
    - destruct sp; try discriminate E; injection E as <- <- <-; exact U.
    - destruct sp; discriminate E.
    - assert (E' : match step_step cx me sh sp sop with
             | Some (sh'0, sp', o) => Some (sh'0, JpStepRun t0 js rs sp' rest, o) | None => None end = Some (sh', p', o))
          by (destruct sp; exact E). clear E.
      destruct (step_step cx me sh sp sop) as [[[sh1 sp1] o1]|] eqn:Es; [|discriminate]. injection E' as <- <- <-.
      eapply undelivered_step; [exact U| |exact Es]. intros ->. apply NL. left; reflexivity. }
  induction ls as [|[op|e] ls IH]; cbn; intros sh p sh' p' o NL U E.
  - injection E as <- <- <-. exact U.
  - destruct (job_step glob cx me j sh p op) as [[[sh1 p1] o1]|] eqn:E1; [|discriminate].
    destruct (jexec j sh1 p1 ls) as [[[sh2 p2] o2]|] eqn:E2; [|discriminate]. injection E as <- <- <-.
    eapply IH; [|eapply JS; [|exact U|exact E1]|exact E2]; [intros l Hl; apply NL; auto|apply NL; auto].
  - eapply IH; [intros l Hl; apply NL; auto| |exact E]. destruct e as [d|so|c]; try exact U.
    destruct U as (c & Hc & Hs & Hn). unfold undelivered_cell, cell. cbn.
    apply (undelivered_sm (sh_sm sh) so a c s Hc Hs Hn). intros P. apply (NL (JEnv (ESig so))); [left; reflexivity|]. right. eauto.
Qed.
End P.
