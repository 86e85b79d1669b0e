(** C28-C31 and C27 at the level of jobs. Executions [jrun glob cx me j ls sh p tr] range over every behaviour of hooks,
    runner, GitHub, clock, other jobs and cancel callers, and scheduler; [JpReturned r] means that the job returned [r]. *)
From Verif Require Import Base Types Signals_model Signals_spec Signals_proof Stream_model Stream_spec Stream_proof Cond_model Cond_spec Cond_proof
  Plugins_model Plugins_spec Plugins_proof Exec_model Exec_spec Step_proof Timing_proof Job_proof Reg_proof Step_props.

(** C31: when the job has returned, its events and its result are exactly a job story (see Exec_spec). *)
Theorem C31_job_life_cycle : forall glob cx me j ls sh r tr,
  jrun glob cx me j ls sh (JpReturned r) tr -> job_story cx j tr r.
Proof. exact job_done_story. Qed.
Print Assumptions C31_job_life_cycle.

Theorem C31_nothing_follows : forall glob cx me j sh r op, job_step glob cx me j sh (JpReturned r) op = None.
Proof. intros glob cx me j sh r op; destruct op; reflexivity. Qed.
Print Assumptions C31_nothing_follows.

(** At every moment the events so far are the beginning of a job story. *)
Theorem C31_job_life_cycle_prefix : forall glob cx me j ls sh p tr,
  jrun glob cx me j ls sh p tr -> exists tail r, job_story cx j (tr ++ tail) r.
Proof. exact job_prefix_story. Qed.
Print Assumptions C31_job_life_cycle_prefix.

(** C28: one entry per step, in order. *)
Theorem C28_results : forall glob cx me j ls sh r tr, jrun glob cx me j ls sh (JpReturned r) tr -> jr_state r <> Skipped ->
  Forall2 (fun st e => skipped_entry st e \/
             exists st', hooked st st' /\ sr_id e = st_id st' /\ (sr_state e = Succeeded \/ sr_state e = Failed \/ sr_state e = Cancelled))
          (jb_steps j) (jr_steps r).
Proof.
  intros glob cx me j ls sh r tr R NS. apply job_done_story in R. inversion R as [c Ho E1 E2|chk evs rs s t0 t1 H1 H2 H3 H4 r0 E1 E2]; subst.
  - cbn in NS. congruence.
  - cbn. clear - H2. induction H2 as [e|e st rest r evs rs H1 H2 Ha IH|e st rest c r evs rs H1 H2 H3 Ha IH|e st rest chk sevs r evs rs H1 H2 H3 Ha IH];
      constructor; auto.
    right. destruct H3 as (st' & t0 & t1 & Hh & Hid & _ & _ & _ & [(Hs & _)|(rr & logs & Hm & _)]); exists st'; repeat split; auto.
    destruct rr; destruct Hm as [Hm _]; auto.
Qed.
Print Assumptions C28_results.

(** C29: the events of the steps are one segment per step; a step is skipped if the earlier results demand it, else
    if it has a condition and that, when asked in this run, did not match; else it runs. *)
Theorem C29_which_steps_are_skipped : forall glob cx me j ls sh r tr, jrun glob cx me j ls sh (JpReturned r) tr -> jr_state r <> Skipped ->
  exists opening segments closing, tr = opening ++ concat segments ++ closing /\ length segments = length (jb_steps j) /\
  forall i st e seg, nth_error (jb_steps j) i = Some st -> nth_error (jr_steps r) i = Some e -> nth_error segments i = Some seg ->
  let earlier := firstn i (jr_steps r) in
  (must_skip earlier st -> sr_state e = Skipped /\ seg = [step_state_event (st_id st) Skipped]) /\
  (~ must_skip earlier st ->
     match st_on st with
     | None => sr_state e <> Skipped /\ step_story cx st seg e
     | Some c => (sr_state e = Skipped /\ seg = [OMatch c false; step_state_event (st_id st) Skipped]) \/
                 (sr_state e <> Skipped /\ exists evs, seg = OMatch c true :: evs /\ step_story cx st evs e)
     end).
Proof.
  intros glob cx me j ls sh r tr R NS. apply job_done_story in R. inversion R as [c Ho E1 E2|chk evs rs s t0 t1 H1 H2 H3 H4 r0 E1 E2]; subst.
  - cbn in NS. congruence.
  - subst r0. cbn [jr_steps].
    assert (RS : forall st evs r, step_story cx st evs r -> sr_state r <> Skipped).
    { intros st ev r (s' & x0 & x1 & _ & _ & _ & _ & _ & [(Hs & _)|(rr & logs & Hm & _)]); [congruence|]. destruct rr; destruct Hm; congruence. }
    assert (G : forall earlier, steps_story (step_story cx) earlier (jb_steps j) evs rs ->
      exists segs, evs = concat segs /\ length segs = length (jb_steps j) /\
      forall i st e seg, nth_error (jb_steps j) i = Some st -> nth_error rs i = Some e -> nth_error segs i = Some seg ->
      (must_skip (earlier ++ firstn i rs) st -> sr_state e = Skipped /\ seg = [step_state_event (st_id st) Skipped]) /\
      (~ must_skip (earlier ++ firstn i rs) st ->
       match st_on st with
       | None => sr_state e <> Skipped /\ step_story cx st seg e
       | Some c => (sr_state e = Skipped /\ seg = [OMatch c false; step_state_event (st_id st) Skipped]) \/
                   (sr_state e <> Skipped /\ exists evs, seg = OMatch c true :: evs /\ step_story cx st evs e)
       end)).
    { generalize (jb_steps j). clear - RS. intros steps earlier H.
      induction H as [e|e st rest r evs rs H1 H2 Ha IH|e st rest c r evs rs H1 H2 H3 Ha IH|e st rest chk sevs r evs rs H1 H2 H3 Ha IH].
      - exists []. split; [reflexivity|]. split; [reflexivity|]. intros [|i] ? ? ? C; discriminate C.
      - destruct IH as (segs & -> & Hl & IH). exists ([step_state_event (st_id st) Skipped] :: segs). split; [reflexivity|]. split; [cbn; congruence|].
        intros [|i] st' e' seg Hst He Hseg; cbn in Hst, He, Hseg.
        + injection Hst as <-. injection He as <-. injection Hseg as <-. cbn [firstn]. rewrite app_nil_r. destruct H2 as (_ & H2 & _).
          split; [auto|contradiction].
        + cbn [firstn]. rewrite app_cons_assoc. apply IH; auto.
      - destruct IH as (segs & -> & Hl & IH). exists ([OMatch c false; step_state_event (st_id st) Skipped] :: segs). split; [reflexivity|]. split; [cbn; congruence|].
        intros [|i] st' e' seg Hst He Hseg; cbn in Hst, He, Hseg.
        + injection Hst as <-. injection He as <-. injection Hseg as <-. cbn [firstn]. rewrite app_nil_r. destruct H3 as (_ & H3 & _).
          split; [contradiction|]. rewrite H2. auto.
        + cbn [firstn]. rewrite app_cons_assoc. apply IH; auto.
      - destruct IH as (segs & -> & Hl & IH). exists ((chk ++ sevs) :: segs). split; [cbn; rewrite app_assoc; reflexivity|]. split; [cbn; congruence|].
        intros [|i] st' e' seg Hst He Hseg; cbn in Hst, He, Hseg.
        + injection Hst as <-. injection He as <-. injection Hseg as <-. cbn [firstn]. rewrite app_nil_r.
          split; [contradiction|]. intros _. destruct (st_on st) as [c|]; cbn in H2; subst chk; cbn; eauto 6.
        + cbn [firstn]. rewrite app_cons_assoc. apply IH; auto. }
    destruct (G [] H2) as (segs & -> & Hl & HS). do 2 eexists. eexists.
    split; [rewrite app_assoc; reflexivity|]. split; [exact Hl|exact HS].
Qed.
Print Assumptions C29_which_steps_are_skipped.

(** Skipped steps never reach the runner: the calls of the runner are those of the entries that are not Skipped,
    in order. *)
Definition run_ids (tr : list obs) : list step_id :=
  flat_map (fun o => match o with ORun c => [rx_id c] | _ => [] end) tr.
Definition not_skipped_ids (rs : list step_run_result) : list step_id :=
  flat_map (fun e => if eqb (sr_state e) Skipped then [] else [sr_id e]) rs.
Theorem C29_only_unskipped_steps_reach_the_runner : forall glob cx me j ls sh r tr, jrun glob cx me j ls sh (JpReturned r) tr ->
  run_ids tr = not_skipped_ids (jr_steps r).
Proof.
  intros glob cx me j ls sh r tr R. apply job_done_story in R. inversion R as [c Ho E1 E2|chk evs rs s t0 t1 H1 H2 H3 H4 r0 E1 E2]; subst; [reflexivity|].
  assert (CH : forall on c, lets_run on c -> run_ids c = []) by (intros [c|] l E; cbn in E; subst; reflexivity).
  unfold run_ids in *. rewrite !flat_map_app. cbn. rewrite app_nil_r, (CH _ _ H1). cbn. clear - H2 CH.
  induction H2 as [e|e st rest r evs rs H1 H2 Ha IH|e st rest c r evs rs H1 H2 H3 Ha IH|e st rest chk sevs r evs rs H1 H2 H3 Ha IH]; cbn.
  - reflexivity.
  - destruct H2 as (_ & -> & _). rewrite eqb_refl. exact IH.
  - destruct H3 as (_ & -> & _). rewrite eqb_refl. exact IH.
  - rewrite !flat_map_app, (CH _ _ H2), IH. cbn. f_equal.
    destruct H3 as (s' & t0 & t1 & _ & Hid & _ & _ & _ & [(Hs & _ & ->)|(rr & logs & Hm & _ & ->)]).
    + rewrite Hs, Hid. reflexivity.
    + assert (eqb (sr_state r) Skipped = false) as -> by (apply eqb_false; destruct rr; destruct Hm; congruence).
      assert (L : flat_map (fun o => match o with ORun c => [rx_id c] | _ => [] end) (map (fun l => OHook (HLog l)) logs) = []).
      { clear. induction logs; cbn; auto. }
      rewrite !flat_map_app, L. cbn. rewrite Hid. reflexivity.
Qed.
Print Assumptions C29_only_unskipped_steps_reach_the_runner.

(** The answers of conditions in a job are those of C13/C14: "no match" only with authorization and a trigger event
    and if the condition fails on the cached or just fetched payload. *)
Theorem C29_condition_answers : forall glob cx me j sh p op sh' p' o c b,
  job_step glob cx me j sh p op = Some (sh', p', o) -> In (OMatch c b) o ->
  (b = false ->
     (cm_auth (cx_matcher cx) = true /\ cm_event (cx_matcher cx) <> None /\ exists pl, sh_cache sh = Some pl /\ ~ condition_holds glob c pl) \/
     (exists gh ev files, op = JGithub gh /\ files_fetched gh ev files /\ ~ condition_holds glob c (ConditionPayload (te_event ev) (te_branch ev) files))).
Proof.
  intros glob cx me j sh p op sh' p' o c b E Hin.
  assert (F : forall c' b', is_match_first glob (cx_matcher cx) (sh_cache sh) c' = Decided b' -> b' = false ->
    cm_auth (cx_matcher cx) = true /\ cm_event (cx_matcher cx) <> None /\ exists pl, sh_cache sh = Some pl /\ ~ condition_holds glob c' pl).
  { intros c' b' D ->. unfold is_match_first in D. destruct (cm_auth _); [|discriminate]. cbn in D.
    destruct (cm_event _); [|discriminate]. destruct (sh_cache sh) as [pl|]; [|discriminate]. injection D as D.
    split; [reflexivity|]. split; [discriminate|]. exists pl. split; [reflexivity|]. intros C. apply cond_is_match_spec in C. congruence. }
  assert (G : forall gh ev c' cache' b', is_match_second glob (fetch_payload gh ev) (sh_cache sh) c' = (cache', b') -> b' = false ->
    exists files, files_fetched gh ev files /\ ~ condition_holds glob c' (ConditionPayload (te_event ev) (te_branch ev) files)).
  { intros gh ev c' cache' b' D ->. unfold is_match_second in D. destruct (fetch_payload gh ev) as [pl|e] eqn:Ef; [|discriminate].
    injection D as _ D. apply fetch_payload_spec in Ef as (files & Ef & ->). exists files. split; [exact Ef|]. intros C. apply cond_is_match_spec in C. congruence. }
  assert (ST : forall sp sop, match step_step cx me sh sp sop with Some (_, _, o) => ~ In (OMatch c b) o | None => True end).
  { intros sp sop. destruct (step_step cx me sh sp sop) as [[[s1 p1] o1]|] eqn:Es; [|exact I]. unfold step_step in Es.
    destruct sp; destruct sop; try discriminate Es;
    repeat match type of Es with context [match ?x with _ => _ end] => destruct x; try discriminate Es end;
    injection Es as <- <- <-; cbn; try tauto; intros H; repeat (destruct H as [H|H]; [discriminate H|]); exact H. }
  unfold job_step in E.
  destruct p as [|c0 ev| | |t0|t0|t0|t0 js rs rest|t0 js rs st rest c0 ev|t0 js rs st rest|t0 js rs sp rest|r|r|r|r]; destruct op as [|gh|sop]; try discriminate E;
    try (destruct rest; discriminate E); try (injection E as <- <- <-; cbn in Hin; (destruct Hin as [Hin|[]]; discriminate Hin)); try (injection E as <- <- <-; destruct Hin).
  - destruct (jb_on j) as [c1|] eqn:Eo; [|injection E as <- <- <-; destruct Hin].
    destruct (is_match_first _ _ _ _) as [b1|] eqn:Ef; injection E as <- <- <-; [|destruct Hin].
    destruct Hin as [[= -> ->]|[]]. intros Hb. left. eapply F; eauto.
  - destruct (is_match_second _ _ _ _) as [cache' b1] eqn:Ef. injection E as <- <- <-.
    destruct Hin as [[= -> ->]|[]]. intros Hb. right. destruct (G _ _ _ _ _ Ef Hb) as (files & A & B). eauto 7.
  - destruct rest as [|st rest]; [injection E as <- <- <-; destruct Hin|].
    destruct (forced_skip js st); [injection E as <- <- <-; destruct Hin|].
    destruct (st_on st) as [c1|] eqn:Eo; [|injection E as <- <- <-; destruct Hin].
    destruct (is_match_first _ _ _ _) as [b1|] eqn:Ef; injection E as <- <- <-; [|destruct Hin].
    destruct Hin as [[= -> ->]|[]]. intros Hb. left. eapply F; eauto.
  - destruct (is_match_second _ _ _ _) as [cache' b1] eqn:Ef. injection E as <- <- <-.
    destruct Hin as [[= -> ->]|[]]. intros Hb. right. destruct (G _ _ _ _ _ Ef Hb) as (files & A & B). eauto 7.
  - destruct sp; try discriminate E; injection E as <- <- <-; destruct Hin.
  - destruct sp; discriminate E.
  - assert (E' : match step_step cx me sh sp sop with
             | Some (sh'0, sp', o) => Some (sh'0, JpStepRun t0 js rs sp' rest, o) | None => None end = Some (sh', p', o))
          by (destruct sp; exact E). clear E. specialize (ST sp sop).
    destruct (step_step cx me sh sp sop) as [[[sh1 sp1] o1]|] eqn:Es; [|discriminate]. injection E' as <- <- <-. contradiction.
Qed.
Print Assumptions C29_condition_answers.

(** C30 *)
Theorem C30_final_state : forall glob cx me j ls sh r tr, jrun glob cx me j ls sh (JpReturned r) tr ->
  (In (OHook (HRunJob (RunEvent j (cm_event (cx_matcher cx)) (cx_payload cx)))) tr -> final_state (jr_steps r) (jr_state r)) /\
  (~ In (OHook (HRunJob (RunEvent j (cm_event (cx_matcher cx)) (cx_payload cx)))) tr ->
     jr_state r = Skipped /\ jr_steps r = [] /\ exists c, jb_on j = Some c /\ In (OMatch c false) tr).
Proof.
  intros glob cx me j ls sh r tr R. apply job_done_story in R. inversion R as [c Ho E1 E2|chk evs rs s t0 t1 H1 H2 H3 H4 r0 E1 E2]; subst.
  - split; [intros [C|[C|[]]]; discriminate C|]. intros _. split; [reflexivity|]. split; [reflexivity|]. exists c. split; [exact Ho|left; reflexivity].
  - split; [intros _; exact H3|]. intros C. exfalso. apply C. rewrite !in_app_iff. cbn. auto.
Qed.
Print Assumptions C30_final_state.

(** C31, registration: if nobody else uses the job's registry entry, the job is registered for cancellation when
    on_run_job is emitted and whenever a step is given to the runner, and not any more when on_job_completed is; no step
    finds the entry missing (which would crash the job). *)
Theorem C31_registration : forall glob cx me j ls sh p tr, owns_steps j -> jrun glob cx me j ls sh p tr ->
  (forall l, In l ls -> quiet j l /\ keeps_job l) ->
  (forall op sh' p' o, job_step glob cx me j sh p op = Some (sh', p', o) ->
     (forall e, In (OHook (HRunJob e)) o -> job_signal j sh <> None) /\
     (forall c, In (ORun c) o -> job_signal j sh <> None) /\
     (forall r, In (OHook (HJobCompleted r)) o -> job_signal j sh = None)) /\
  (forall t0 js rs w rest, p <> JpStepRun t0 js rs (SpPanic w) rest).
Proof.
  intros glob cx me j ls sh p tr OS R Q. assert (I := rinv_run glob cx me j ls sh p tr OS R Q). destruct I as [I1 I2]. split.
  - intros op sh' p' o E. unfold job_step in E.
    destruct p as [|c0 ev| | |t0|t0|t0|t0 js rs rest|t0 js rs st rest c0 ev|t0 js rs st rest|t0 js rs sp rest|r|r|r|r];
      try (assert (RR : job_signal j sh <> None) by (apply I1; reflexivity));
      destruct op as [|gh|sop]; try discriminate E; try (destruct rest; discriminate E);
      try (injection E as <- <- <-; split; [intros e [C|[]]; discriminate C|split; [intros c [C|[]]; discriminate C|intros r' [C|[]]; discriminate C]]);
      try solve [injection E as <- <- <-; split; [intros e []|split; [intros c []|intros r' []]]].
    + destruct (jb_on j) as [c1|]; [destruct (is_match_first _ _ _ _) as [b1|]|]; injection E as <- <- <-; cbn; intuition discriminate.
    + destruct (is_match_second _ _ _ _) as [cache' b1]. injection E as <- <- <-; cbn; intuition discriminate.
    + injection E as <- <- <-. split; [auto|]. split; [auto|]. intros r' [C|[]]; discriminate C.
    + destruct rest as [|st rest]; [|destruct (forced_skip js st); [|destruct (st_on st) as [c1|]; [destruct (is_match_first _ _ _ _) as [b1|]|]]];
        injection E as <- <- <-; cbn; intuition discriminate.
    + destruct (is_match_second _ _ _ _) as [cache' b1]. injection E as <- <- <-; cbn; intuition discriminate.
    + destruct sp; try discriminate E; injection E as <- <- <-; cbn; intuition discriminate.
    + destruct sp; discriminate E.
    + split; [auto|]. split; [auto|].
      assert (E' : match step_step cx me sh sp sop with
             | Some (sh'0, sp', o) => Some (sh'0, JpStepRun t0 js rs sp' rest, o) | None => None end = Some (sh', p', o))
          by (destruct sp; exact E). clear E.
      destruct (step_step cx me sh sp sop) as [[[sh1 sp1] o1]|] eqn:Es; [|discriminate]. injection E' as <- <- <-.
      intros r H. exfalso. unfold step_step in Es.
      destruct sp; destruct sop; try discriminate Es;
      repeat match type of Es with context [match ?x with _ => _ end] => destruct x; try discriminate Es end;
      injection Es as <- <- <-; cbn in H; try tauto; repeat (destruct H as [H|H]; [discriminate H|]); exact H.
    + injection E as <- <- <-. split; [intros e [C|[]]; discriminate C|]. split; [intros c [C|[]]; discriminate C|]. intros _ _. exact I2.
  - intros t0 js rs w rest ->. destruct I2 as [_ (_ & _ & C)]. apply (C w). reflexivity.
Qed.
Print Assumptions C31_registration.

(** C27 for a job: while it runs it keeps one and the same signal, and every step of it listens to that signal. *)
Theorem C27_steps_listen_to_the_jobs_signal : forall glob cx me j ls sh t0 js rs st t1 a sg str ti rest tr,
  owns_steps j -> jrun glob cx me j ls sh (JpStepRun t0 js rs (SpLoop st t1 a sg str ti) rest) tr ->
  (forall l, In l ls -> quiet j l /\ keeps_job l) -> job_signal j sh = Some a.
Proof.
  intros glob cx me j ls sh t0 js rs st t1 a sg str ti rest tr OS R Q.
  destruct (rinv_run glob cx me j ls sh _ tr OS R Q) as [_ [_ (H & _)]]. apply H. reflexivity.
Qed.
Print Assumptions C27_steps_listen_to_the_jobs_signal.

(** A cancellation made while the job runs waits for the step that looks next, be it the one running or a later one,
    and raises its signal as Cancel unless that was raised before. *)
Theorem C27_cancelled_job_cancels_the_next_listening_step :
  forall glob cx me j ls1 sh1 p1 tr1 a ls2 sh t0 js rs st t1 a' sg str ti rest o,
  owns_steps j -> jrun glob cx me j ls1 sh1 p1 tr1 ->
  (forall l, In l (ls1 ++ ls2) -> quiet j l /\ keeps_job l) ->
  (* the job is running and its signal is raised as Cancel and not delivered yet *)
  running p1 = true -> job_signal j sh1 = Some a -> undelivered_cell sh1 a SigCancel ->
  (* nobody looks at it until some step of the job waits *)
  (forall l, In l ls2 -> ~ looks a l) ->
  jexec glob cx me j sh1 p1 ls2 = Some (sh, JpStepRun t0 js rs (SpLoop st t1 a' sg str ti) rest, o) ->
  exists sh' sg', step_step cx me sh (SpLoop st t1 a' sg str ti) OpJobSignal = Some (sh', SpEnter st t1 a' sg' str, []) /\
    sg_signal sg' = match sg_signal sg with None => Some SigCancel | Some s => Some s end /\
    exists c', nth_error (sm_heap (sh_sm sh')) a = Some c' /\ sg_notified c' = true.
Proof.
  intros glob cx me j ls1 sh1 p1 tr1 a ls2 sh t0 js rs st t1 a' sg str ti rest o OS R Q Hr Ha U NL E.
  assert (R2 := jexec_run glob cx me j ls2 _ _ _ _ _ _ _ R E).
  assert (H1 := C27_steps_listen_to_the_jobs_signal _ _ _ _ _ _ _ _ _ _ _ _ _ _ _ _ _ OS R2 Q).
  assert (Q2 : forall l, In l ls2 -> quiet j l) by (intros l Hl; apply Q, in_or_app; auto).
  assert (H2 : job_signal j sh = job_signal j sh1) by (eapply jexec_signal; [exact Q2|exact Hr| |exact E]; reflexivity).
  assert (a' = a) as -> by congruence.
  destruct (undelivered_exec glob cx me j a SigCancel ls2 _ _ _ _ _ NL U E) as (c & Hc & Hs & Hn).
  destruct (C27_forwarding cx me sh st t1 a sg str ti c Hc) as (sh' & p' & E2 & F & _).
  destruct (F SigCancel Hn Hs) as [(sg' & -> & Hsg) (c' & F1 & F2)]. exists sh', sg'. eauto.
Qed.
Print Assumptions C27_cancelled_job_cancels_the_next_listening_step.

(** *** Non-vacuity: a job of three steps; the first fails, the second is skipped, the third continues on error. *)
Definition ex_job_step (n : N) (coe : bool) : step := Step (StepId "w" "j" n) None None None "x" coe [] [] (Duration 60 0).
Definition ex_job : job := Job (JobId "w" "j") None None [ex_job_step 0 false; ex_job_step 1 false; ex_job_step 2 true] [] [].
Definition ex_open : list jlabel :=
  map JOwn [JStep (OpBefore c26_hooks); JStep OpNext; JStep OpNext; JStep OpNext; JStep OpNext; JStep OpNext; JStep (OpAnswer true); JStep OpNext; JStep OpNext].
Definition ex_close (rr : run_result) : list jlabel :=
  map JOwn [JStep (OpRunner (REndCheck 1 rr)); JStep (OpRunner (REndCommit 1));
            JStep OpStream; JStep OpNext; JStep OpNext; JStep OpNext; JStep OpNext; JNext].
Definition ex_job_run : list jlabel :=
  map JOwn [JNext; JNext; JNext; JNext; JNext; JNext] ++ ex_open ++ ex_close (RFailed 3) ++ map JOwn [JNext; JNext; JNext] ++
  ex_open ++ ex_close RSucceeded ++ map JOwn [JNext; JNext; JNext; JNext].
Example C28_C31_nonvacuous : exists sh r tr,
  owns_steps ex_job /\ jrun (fun _ => None) c26_cx 0 ex_job ex_job_run sh (JpReturned r) tr /\ jr_state r = Failed /\
  map sr_state (jr_steps r) = [Failed; Skipped; Succeeded] /\ (forall l, In l ex_job_run -> quiet ex_job l /\ keeps_job l).
Proof.
  do 3 eexists. split; [intros st [<-|[<-|[<-|[]]]]; reflexivity|].
  split; [eapply jexec_init with (sh := Shared 0%N sm_init None); vm_compute; reflexivity|]. split; [reflexivity|]. split; [reflexivity|].
  intros l Hl. apply Forall_forall with (P := fun l => quiet ex_job l /\ keeps_job l) (x := l) (l := ex_job_run); [|exact Hl].
  repeat constructor; cbn; auto.
Qed.
