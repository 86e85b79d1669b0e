From Verif Require Import Base Types Signals_model Signals_proof Stream_model Stream_spec Stream_proof Cond_model
  Plugins_model Plugins_spec Plugins_proof Exec_model Exec_spec Step_proof.

Section P.
Variable glob : glob_oracle.
Variable cx : ectx.
Variable me : task.

(** A completed execution of a step. *)
Definition step_ran (st : step) (tr : list obs) (r : step_run_result) : Prop :=
  exists ls sh, srun cx me st ls sh (SpDone r) tr.

Definition ev_run_job (j : job) : obs := OHook (HRunJob (RunEvent j (cm_event (cx_matcher cx)) (cx_payload cx))).
Definition jhead (j : job) (chk : list obs) : list obs := chk ++ [ev_run_job j; job_state_event (jb_id j) InProgress].

Definition js_ok (js : wf_state) (rs : list step_run_result) : Prop :=
  ((exists r, In r rs /\ sr_state r = Cancelled) /\ js = Cancelled) \/
  ((forall r, In r rs -> sr_state r <> Cancelled) /\ (exists r, In r rs /\ sr_state r = Failed) /\ js = Failed) \/
  ((forall r, In r rs -> sr_state r <> Cancelled /\ sr_state r <> Failed) /\ js = InProgress).

Definition jmid (j : job) (sh : shared) (t0 : time) (js : wf_state) (rs : list step_run_result) (rest : list step) (tr : list obs) : Prop :=
  exists chk done evs, lets_run (jb_on j) chk /\ jb_steps j = done ++ rest /\ steps_story step_ran [] done evs rs /\
    tr = jhead j chk ++ evs /\ js_ok js rs /\ (t0 <= sh_now sh)%N.

Definition jend (j : job) (r : job_run_result) (tr : list obs) : Prop :=
  exists chk evs t0 t1, lets_run (jb_on j) chk /\ steps_story step_ran [] (jb_steps j) evs (jr_steps r) /\
    tr = jhead j chk ++ evs /\ final_state (jr_steps r) (jr_state r) /\ (t0 <= t1)%N /\
    jr_id r = jb_id j /\ jr_started_at r = Some t0 /\ jr_completed_at r = Some t1.

Definition jinv (j : job) (sh : shared) (p : job_phase) (tr : list obs) : Prop :=
  match p with
  | JpCheck => tr = []
  | JpFetch c ev => jb_on j = Some c /\ tr = []
  | JpSkip => exists c, jb_on j = Some c /\ tr = [OMatch c false]
  | JpStart => lets_run (jb_on j) tr
  | JpRegister t0 | JpRunEvent t0 => (t0 <= sh_now sh)%N /\ lets_run (jb_on j) tr
  | JpInProgress t0 => (t0 <= sh_now sh)%N /\ exists chk, lets_run (jb_on j) chk /\ tr = chk ++ [ev_run_job j]
  | JpSteps t0 js rs rest => jmid j sh t0 js rs rest tr
  | JpStepFetch t0 js rs st rest c ev => jmid j sh t0 js rs (st :: rest) tr /\ ~ must_skip rs st /\ st_on st = Some c
  | JpStepSkip t0 js rs st rest =>
      exists tr' chk, jmid j sh t0 js rs (st :: rest) tr' /\ tr = tr' ++ chk /\
        ((must_skip rs st /\ chk = []) \/ (~ must_skip rs st /\ exists c, st_on st = Some c /\ chk = [OMatch c false]))
  | JpStepRun t0 js rs sp rest =>
      exists st tr' chk trs ls, jmid j sh t0 js rs (st :: rest) tr' /\ tr = tr' ++ chk ++ trs /\
        ~ must_skip rs st /\ lets_run (st_on st) chk /\ srun cx me st ls sh sp trs
  | JpEndState r => jend j r tr
  | JpUnregister r | JpCompleted r => exists tr', jend j r tr' /\ tr = tr' ++ [job_state_event (jb_id j) (jr_state r)]
  | JpReturned r => job_story_with step_ran cx j tr r
  end.

Lemma steps_story_app S e a b ea eb ra rb :
  steps_story S e a ea ra -> steps_story S (e ++ ra) b eb rb -> steps_story S e (a ++ b) (ea ++ eb) (ra ++ rb).
Proof.
  intros Ha Hb. induction Ha as [e|e st rest r evs rs H1 H2 Ha IH|e st rest c r evs rs H1 H2 H3 Ha IH|e st rest chk sevs r evs rs H1 H2 H3 Ha IH];
    cbn [app]; try rewrite <- !app_assoc.
  - rewrite app_nil_r in Hb. exact Hb.
  - eapply ss_forced; eauto. apply IH. rewrite <- app_assoc. exact Hb.
  - change (OMatch c false :: step_state_event (st_id st) Skipped :: evs ++ eb) with ([OMatch c false; step_state_event (st_id st) Skipped] ++ (evs ++ eb)).
    eapply ss_unmatched; eauto. apply IH. rewrite <- app_assoc. exact Hb.
  - eapply ss_run; eauto. apply IH. rewrite <- app_assoc. exact Hb.
Qed.

Lemma forced_skip_spec js rs st : js_ok js rs -> (forced_skip js st = true <-> must_skip rs st).
Proof.
  intros [[(r & Hi & Hr) ->]|[[Hn [(r & Hi & Hr) ->]]|[Hn ->]]]; unfold must_skip; cbn.
  - split; [intros _; left; eauto|reflexivity].
  - destruct (st_continue_on_error st); cbn; split; try discriminate; try reflexivity.
    + intros [(r' & Hi' & Hr')|[_ C]]; [exfalso; eapply Hn; eauto|discriminate].
    + intros _; right; eauto.
  - split; [discriminate|]. intros [(r' & Hi' & Hr')|[(r' & Hi' & Hr') _]]; exfalso; destruct (Hn _ Hi'); auto.
Qed.

Lemma js_ok_skip js rs r : js_ok js rs -> sr_state r = Skipped -> js_ok js (rs ++ [r]).
Proof.
  intros [[(r0 & Hi & Hr) ->]|[[Hn [(r0 & Hi & Hr) ->]]|[Hn ->]]] Hs.
  - left. split; [|reflexivity]. exists r0; split; [apply in_or_app; auto|exact Hr].
  - right; left. split; [|split; [exists r0; split; [apply in_or_app; auto|exact Hr]|reflexivity]].
    intros x Hx. apply in_app_iff in Hx as [Hx|[<-|[]]]; [auto|congruence].
  - right; right. split; [|reflexivity]. intros x Hx. apply in_app_iff in Hx as [Hx|[<-|[]]]; [auto|]. split; congruence.
Qed.

Lemma js_ok_run js rs st r : js_ok js rs -> ~ must_skip rs st -> js_ok (job_state_after js r) (rs ++ [r]).
Proof.
  intros J Hn. assert (NC : forall x, In x rs -> sr_state x <> Cancelled) by (intros x Hx C; apply Hn; left; eauto).
  unfold job_state_after. destruct (sr_state r) eqn:Er.
  5: { right; left. split; [|split; [exists r; split; [apply in_or_app; right; left; reflexivity|exact Er]|reflexivity]].
       intros x Hx. apply in_app_iff in Hx as [Hx|[<-|[]]]; [auto|congruence]. }
  5: { left. split; [|reflexivity]. exists r; split; [apply in_or_app; right; left; reflexivity|exact Er]. }
  all: destruct J as [[(r0 & Hi & Hr) ->]|[[H1 [(r0 & Hi & Hr) ->]]|[H1 ->]]];
    [exfalso; eapply NC; eauto
    |right; left; split; [|split; [exists r0; split; [apply in_or_app; auto|exact Hr]|reflexivity]];
       intros x Hx; apply in_app_iff in Hx as [Hx|[<-|[]]]; [auto|congruence]
    |right; right; split; [|reflexivity]; intros x Hx; apply in_app_iff in Hx as [Hx|[<-|[]]]; [auto|split; congruence]].
Qed.

Lemma js_ok_final js rs : js_ok js rs -> final_state rs (job_final_state js).
Proof.
  intros [[H ->]|[[H1 [H2 ->]]|[H ->]]]; unfold final_state; cbn; auto 6.
Qed.

Lemma skipped_entry_result st : skipped_entry st (skipped_step_result st).
Proof. repeat split. Qed.

Lemma jmid_now j sh sh' t0 js rs rest tr : (sh_now sh <= sh_now sh')%N -> jmid j sh t0 js rs rest tr -> jmid j sh' t0 js rs rest tr.
Proof. intros H (chk & done & evs & H1 & H2 & H3 & H4 & H5 & H6). exists chk, done, evs. repeat split; auto. lia. Qed.

Lemma jmid_skip j sh t0 js rs st rest tr chk :
  jmid j sh t0 js rs (st :: rest) tr ->
  ((must_skip rs st /\ chk = []) \/ (~ must_skip rs st /\ exists c, st_on st = Some c /\ chk = [OMatch c false])) ->
  jmid j sh t0 js (rs ++ [skipped_step_result st]) rest ((tr ++ chk) ++ [step_state_event (st_id st) Skipped]).
Proof.
  intros (ck & done & evs & H1 & H2 & H3 & -> & H5 & H6) Hc.
  exists ck, (done ++ [st]), (evs ++ (chk ++ [step_state_event (st_id st) Skipped])). split; [exact H1|].
  split; [rewrite <- app_assoc; exact H2|]. split.
  - eapply steps_story_app; [exact H3|]. cbn. destruct Hc as [[Hc ->]|[Hc (c & Hon & ->)]].
    + change ([] ++ [step_state_event (st_id st) Skipped]) with ([step_state_event (st_id st) Skipped] ++ []).
      apply ss_forced; [exact Hc|apply skipped_entry_result|constructor].
    + change ([OMatch c false] ++ [step_state_event (st_id st) Skipped]) with ([OMatch c false; step_state_event (st_id st) Skipped] ++ []).
      eapply ss_unmatched; eauto; [apply skipped_entry_result|constructor].
  - split; [rewrite <- !app_assoc; reflexivity|]. split; [|exact H6]. apply js_ok_skip; [exact H5|reflexivity].
Qed.

Lemma jmid_run j sh t0 js rs st rest tr chk trs r :
  jmid j sh t0 js rs (st :: rest) tr -> ~ must_skip rs st -> lets_run (st_on st) chk -> step_ran st trs r ->
  jmid j sh t0 (job_state_after js r) (rs ++ [r]) rest (tr ++ chk ++ trs).
Proof.
  intros (ck & done & evs & H1 & H2 & H3 & -> & H5 & H6) Hn Hl Hr.
  exists ck, (done ++ [st]), (evs ++ (chk ++ trs)). split; [exact H1|].
  split; [rewrite <- app_assoc; exact H2|]. split.
  - eapply steps_story_app; [exact H3|]. cbn.
    replace (chk ++ trs) with (chk ++ trs ++ []) by (rewrite app_nil_r; reflexivity).
    apply ss_run; auto. constructor.
  - split; [rewrite <- !app_assoc; reflexivity|]. split; [|exact H6]. eapply js_ok_run; eauto.
Qed.

Lemma jmid_end j sh t0 js rs tr : jmid j sh t0 js rs [] tr ->
  jend j (JobRunResult (jb_id j) (job_final_state js) (Some t0) (Some (sh_now sh)) rs) tr.
Proof.
  intros (ck & done & evs & H1 & H2 & H3 & -> & H5 & H6). rewrite app_nil_r in H2. subst done.
  exists ck, evs, t0, (sh_now sh). cbn. repeat split; auto. apply js_ok_final, H5.
Qed.

Lemma srun_set_cache st ls sh p tr c : srun cx me st ls sh p tr -> srun cx me st (ls ++ [SEnv (ECache c)]) (set_cache c sh) p tr.
Proof. intros H. apply (srun_env cx me st ls sh p tr (ECache c) H). Qed.

Lemma step_now sh p op sh' p' o : step_step cx me sh p op = Some (sh', p', o) -> sh_now sh' = sh_now sh.
Proof.
  unfold step_step. destruct p, op; try discriminate; try (intros [= <- <- <-]; reflexivity);
  repeat match goal with
  | |- context [match ?x with _ => _ end] => destruct x eqn:?; try discriminate
  end; intros [= <- <- <-]; reflexivity.
Qed.

Lemma jinv_env j sh p tr e : jinv j sh p tr -> jinv j (env_step sh e) p tr.
Proof.
  assert (H := env_now sh e).
  destruct p; cbn [jinv]; auto; try (intros [H1 H2]; split; [lia|exact H2]).
  - apply jmid_now; exact H.
  - intros [H1 H2]. split; [eapply jmid_now; eauto|exact H2].
  - intros (tr' & chk & H1 & H2). exists tr', chk. split; [eapply jmid_now; eauto|exact H2].
  - intros (st & tr' & chk & trs & ls & H1 & H2 & H3 & H4 & H5). exists st, tr', chk, trs, (ls ++ [SEnv e]).
    split; [eapply jmid_now; eauto|]. repeat split; auto. apply srun_env, H5.
Qed.

Lemma lets_run_check on c : on = Some c -> lets_run on [OMatch c true].
Proof. intros ->; reflexivity. Qed.

Lemma jend_returned j r tr' : jend j r tr' ->
  job_story_with step_ran cx j ((tr' ++ [job_state_event (jb_id j) (jr_state r)]) ++ [OHook (HJobCompleted r)]) r.
Proof.
  intros (chk & evs & t0 & t1 & H1 & H2 & -> & H4 & H5 & H6 & H7 & H8).
  destruct r as [id s a b rs]; cbn in *. subst. unfold jhead. rewrite <- !app_assoc. cbn. eapply js_run; eauto.
Qed.

Lemma jinv_step j sh p tr op sh' p' o :
  jinv j sh p tr -> job_step glob cx me j sh p op = Some (sh', p', o) -> jinv j sh' p' (tr ++ o).
Proof.
  intros I E. unfold job_step in E. destruct p as [|c ev| | |t0|t0|t0|t0 js rs rest|t0 js rs st rest c ev|t0 js rs st rest|t0 js rs sp rest|r|r|r|r].
  - destruct op; try discriminate. cbn in I; subst tr. destruct (jb_on j) as [c|] eqn:Eo.
    + destruct (is_match_first _ _ _ _) as [b|ev]; injection E as <- <- <-; [|cbn; auto].
      destruct b; cbn; [apply lets_run_check, Eo|eauto].
    + injection E as <- <- <-. cbn. rewrite Eo. reflexivity.
  - destruct op as [|gh|]; try discriminate. destruct I as [Eo ->].
    destruct (is_match_second _ _ _ _) as [cache' b]. injection E as <- <- <-.
    destruct b; cbn; [apply lets_run_check, Eo|eauto].
  - destruct op; try discriminate. destruct I as (c & Eo & ->). injection E as <- <- <-. cbn. apply js_skipped, Eo.
  - destruct op; try discriminate. injection E as <- <- <-. cbn in *. rewrite app_nil_r. split; [lia|exact I].
  - destruct op; try discriminate. injection E as <- <- <-. cbn in *. rewrite app_nil_r. exact I.
  - destruct op; try discriminate. injection E as <- <- <-. destruct I as [H1 H2]. split; [exact H1|]. exists tr. auto.
  - destruct op; try discriminate. injection E as <- <- <-. destruct I as (H1 & chk & H2 & ->).
    exists chk, [], []. split; [exact H2|]. split; [reflexivity|]. split; [constructor|].
    split; [unfold jhead; rewrite app_nil_r, <- app_assoc; reflexivity|]. split; [|exact H1].
    right; right. split; [intros ? []|reflexivity].
  - destruct op; try (destruct rest; discriminate). destruct rest as [|st rest].
    + injection E as <- <- <-. rewrite app_nil_r. cbn in *. apply jmid_end, I.
    + assert (J : js_ok js rs) by (destruct I as (ck & done & evs & H1 & H2 & H3 & H4 & H5 & H6); exact H5).
      destruct (forced_skip js st) eqn:Ef.
      * injection E as <- <- <-. apply (forced_skip_spec js rs st J) in Ef. exists tr, []. auto.
      * assert (NM : ~ must_skip rs st) by (intros C; apply (forced_skip_spec js rs st J) in C; congruence).
        destruct (st_on st) as [c|] eqn:Eo.
        -- destruct (is_match_first _ _ _ _) as [b|ev]; injection E as <- <- <-.
           ++ destruct b; cbn.
              ** exists st, tr, [OMatch c true], [], []. rewrite app_nil_r. split; [exact I|]. split; [reflexivity|].
                 split; [exact NM|]. split; [apply lets_run_check, Eo|constructor].
              ** exists tr, [OMatch c false]. split; [exact I|]. split; [reflexivity|]. right. eauto.
           ++ rewrite app_nil_r. cbn. auto.
        -- injection E as <- <- <-. cbn. exists st, tr, [], [], []. split; [exact I|]. split; [reflexivity|].
           split; [exact NM|]. split; [rewrite Eo; reflexivity|constructor].
  - destruct op as [|gh|]; try discriminate. destruct I as (I & NM & Eo).
    destruct (is_match_second _ _ _ _) as [cache' b]. injection E as <- <- <-.
    apply (jmid_now j sh (set_cache cache' sh)) in I; [|cbn; lia]. destruct b; cbn.
    + exists st, tr, [OMatch c true], [], []. rewrite app_nil_r. split; [exact I|]. split; [reflexivity|].
      split; [exact NM|]. split; [apply lets_run_check, Eo|constructor].
    + exists tr, [OMatch c false]. split; [exact I|]. split; [reflexivity|]. right. eauto.
  - destruct op; try discriminate. injection E as <- <- <-. destruct I as (tr' & chk & I & -> & H). cbn.
    apply jmid_skip; assumption.
  - destruct I as (st & tr' & chk & trs & ls & I & -> & NM & Hl & R). destruct op as [|gh|sop].
    + destruct sp; try discriminate. injection E as <- <- <-. rewrite app_nil_r. cbn. eapply jmid_run; eauto.
      do 2 eexists; exact R.
    + destruct sp; discriminate.
    + assert (E' : match step_step cx me sh sp sop with
             | Some (sh'0, sp', o) => Some (sh'0, JpStepRun t0 js rs sp' rest, o) | None => None end = Some (sh', p', o))
        by (destruct sp; exact E).
      destruct (step_step cx me sh sp sop) as [[[sh1 sp1] o1]|] eqn:Es; [|discriminate]. injection E' as <- <- <-.
      exists st, tr', chk, (trs ++ o1), (ls ++ [SOwn sop]). split; [eapply jmid_now; [|exact I]; rewrite (step_now _ _ _ _ _ _ Es); lia|].
      split; [rewrite <- !app_assoc; reflexivity|]. split; [exact NM|]. split; [exact Hl|]. eapply srun_own; eauto.
  - destruct op; try discriminate. injection E as <- <- <-. cbn in *.
    exists tr. split; [exact I|]. destruct I as (chk & evs & t0 & t1 & _ & _ & _ & _ & _ & Hid & _). rewrite Hid. reflexivity.
  - destruct op; try discriminate. injection E as <- <- <-. rewrite app_nil_r. exact I.
  - destruct op; try discriminate. injection E as <- <- <-. destruct I as (tr' & I & ->). cbn. apply jend_returned, I.
  - destruct op; discriminate.
Qed.

Lemma jrun_inv j ls sh p tr : jrun glob cx me j ls sh p tr -> jinv j sh p tr.
Proof. induction 1; [reflexivity|eapply jinv_step; eauto|apply jinv_env; assumption]. Qed.

Lemma steps_story_mono (S S' : step -> list obs -> step_run_result -> Prop) e l evs rs :
  (forall st tr r, S st tr r -> S' st tr r) -> steps_story S e l evs rs -> steps_story S' e l evs rs.
Proof.
  intros H. induction 1; [constructor|eapply ss_forced; eauto|eapply ss_unmatched; eauto|eapply ss_run; eauto].
Qed.
Lemma job_story_mono (S S' : step -> list obs -> step_run_result -> Prop) j evs r :
  (forall st tr r, S st tr r -> S' st tr r) -> job_story_with S cx j evs r -> job_story_with S' cx j evs r.
Proof. intros H [c E|chk e rs s t0 t1 H1 H2 H3 H4]; [apply js_skipped, E|]. eapply js_run; eauto. eapply steps_story_mono; eauto. Qed.

Lemma step_ran_story st tr r : step_ran st tr r -> step_story cx st tr r.
Proof. intros (ls & sh & H). eapply step_done_story; eauto. Qed.

Lemma job_done_ran j ls sh r tr : jrun glob cx me j ls sh (JpReturned r) tr -> job_story_with step_ran cx j tr r.
Proof. intros H. apply jrun_inv in H. exact H. Qed.
Lemma job_done_story j ls sh r tr : jrun glob cx me j ls sh (JpReturned r) tr -> job_story cx j tr r.
Proof. intros H. apply job_done_ran in H. eapply job_story_mono; [|exact H]. apply step_ran_story. Qed.

(** completions *)
Lemma must_skip_dec rs st : {must_skip rs st} + {~ must_skip rs st}.
Proof.
  assert (D : forall s, {exists r, In r rs /\ sr_state r = s} + {~ exists r, In r rs /\ sr_state r = s}).
  { intros s. destruct (in_dec eq_dec s (map sr_state rs)) as [H|H].
    - left. apply in_map_iff in H as (r & H1 & H2). eauto.
    - right. intros (r & H1 & H2). apply H. apply in_map_iff. eauto. }
  unfold must_skip. destruct (D Cancelled); [left; auto|]. destruct (D Failed); [|right; tauto].
  destruct (st_continue_on_error st) eqn:E; [right|left; auto]. intros [C|[_ C]]; [auto|discriminate].
Defined.

Lemma some_step_story st : exists tr r, step_story cx st tr r.
Proof.
  destruct (step_prefix_story cx me st [] (Shared 0%N sm_init None) (SpBefore st) []) as (tail & r & H); [constructor|]. eauto.
Qed.

Lemma steps_complete rest : forall e, exists evs rs, steps_story (step_story cx) e rest evs rs.
Proof.
  induction rest as [|st rest IH]; intros e; [do 2 eexists; constructor|].
  destruct (must_skip_dec e st) as [H|H].
  - destruct (IH (e ++ [skipped_step_result st])) as (evs & rs & R). do 2 eexists. eapply ss_forced; eauto. apply skipped_entry_result.
  - destruct (some_step_story st) as (tr & r & S). destruct (IH (e ++ [r])) as (evs & rs & R).
    destruct (st_on st) as [c|] eqn:Eo.
    + do 2 eexists. eapply ss_run with (check := [OMatch c true]); eauto. rewrite Eo; reflexivity.
    + do 2 eexists. eapply ss_run with (check := []); eauto. rewrite Eo; reflexivity.
Qed.

Lemma final_state_exists rs : exists s, final_state rs s.
Proof.
  assert (D : forall s, (exists r, In r rs /\ sr_state r = s) \/ (forall r, In r rs -> sr_state r <> s)).
  { intros s. destruct (in_dec eq_dec s (map sr_state rs)) as [H|H].
    - left. apply in_map_iff in H as (r & H1 & H2). eauto.
    - right. intros r H1 H2. apply H. apply in_map_iff. eauto. }
  unfold final_state. destruct (D Cancelled); [exists Cancelled; auto|]. destruct (D Failed); [exists Failed; auto|].
  exists Succeeded. right; right. auto.
Qed.

Lemma head_completes j chk e done rest evs rs : lets_run (jb_on j) chk -> jb_steps j = done ++ rest -> e = [] ->
  steps_story (step_story cx) e done evs rs ->
  exists tail r, job_story cx j ((jhead j chk ++ evs) ++ tail) r.
Proof.
  intros H1 H2 -> H3. destruct (steps_complete rest rs) as (evs2 & rs2 & R).
  destruct (final_state_exists (rs ++ rs2)) as [s F].
  assert (A := steps_story_app _ [] _ _ _ _ _ _ H3 R). rewrite <- H2 in A.
  exists (evs2 ++ [job_state_event (jb_id j) s; OHook (HJobCompleted (JobRunResult (jb_id j) s (Some 0%N) (Some 0%N) (rs ++ rs2)))]).
  eexists. assert (K := js_run (step_story cx) cx j chk (evs ++ evs2) (rs ++ rs2) s 0%N 0%N H1 A F (N.le_refl _)).
  cbn zeta in K. unfold jhead. rewrite <- !app_assoc. rewrite <- !app_assoc in K. exact K.
Qed.

Lemma chk_completes j chk : lets_run (jb_on j) chk -> exists tail r, job_story cx j (jhead j chk ++ tail) r.
Proof.
  intros H. destruct (head_completes j chk [] [] (jb_steps j) [] []) as (tail & r & S); auto; [constructor|].
  rewrite app_nil_r in S. eauto.
Qed.

Lemma jmid_weak j sh t0 js rs rest tr : jmid j sh t0 js rs rest tr ->
  exists chk done evs, lets_run (jb_on j) chk /\ jb_steps j = done ++ rest /\ steps_story (step_story cx) [] done evs rs /\ tr = jhead j chk ++ evs.
Proof.
  intros (chk & done & evs & H1 & H2 & H3 & H4 & _). exists chk, done, evs. repeat split; auto.
  eapply steps_story_mono; [|exact H3]. apply step_ran_story.
Qed.

Lemma jmid_run_completes j sh t0 js rs st rest tr chk trs tail r :
  jmid j sh t0 js rs (st :: rest) tr -> ~ must_skip rs st -> lets_run (st_on st) chk ->
  step_story cx st (trs ++ tail) r -> exists tail' r', job_story cx j ((tr ++ chk ++ trs) ++ tail') r'.
Proof.
  intros M NM Hl S. apply jmid_weak in M as (ck & done & evs & H1 & H2 & H3 & ->).
  assert (A : steps_story (step_story cx) [] (done ++ [st]) (evs ++ (chk ++ (trs ++ tail) ++ [])) (rs ++ [r])).
  { eapply steps_story_app; [exact H3|]. apply ss_run; auto. constructor. }
  assert (H2' : jb_steps j = (done ++ [st]) ++ rest) by (rewrite <- app_assoc; exact H2).
  destruct (head_completes j ck [] (done ++ [st]) rest _ _ H1 H2' eq_refl A) as (tail' & r' & J).
  exists (tail ++ tail'), r'. rewrite app_nil_r in J. rewrite <- !app_assoc in *. exact J.
Qed.

Lemma jmid_skip_completes j sh t0 js rs st rest tr chk :
  jmid j sh t0 js rs (st :: rest) tr ->
  ((must_skip rs st /\ chk = []) \/ (~ must_skip rs st /\ exists c, st_on st = Some c /\ chk = [OMatch c false])) ->
  exists tail' r', job_story cx j ((tr ++ chk) ++ tail') r'.
Proof.
  intros M Hc. apply (jmid_skip _ _ _ _ _ _ _ _ chk) in M; [|exact Hc].
  apply jmid_weak in M as (ck & done & evs & H1 & H2 & H3 & E).
  destruct (head_completes j ck [] done rest _ _ H1 H2 eq_refl H3) as (tail' & r' & J).
  rewrite <- E in J. rewrite <- app_assoc in J. eauto.
Qed.

Lemma job_prefix_story j ls sh p tr : jrun glob cx me j ls sh p tr -> exists tail r, job_story cx j (tr ++ tail) r.
Proof.
  intros R. apply jrun_inv in R as I.
  destruct p as [|c ev| | |t0|t0|t0|t0 js rs rest|t0 js rs st rest c ev|t0 js rs st rest|t0 js rs sp rest|r|r|r|r]; cbn in I.
  - subst tr. destruct (jb_on j) as [c|] eqn:Eo.
    + destruct (chk_completes j [OMatch c true]) as (t & r & S); [rewrite Eo; reflexivity|]. cbn. eauto.
    + destruct (chk_completes j []) as (t & r & S); [rewrite Eo; reflexivity|]. cbn. eauto.
  - destruct I as [Eo ->]. destruct (chk_completes j [OMatch c true]) as (t & r & S); [rewrite Eo; reflexivity|]. cbn. eauto.
  - destruct I as (c & Eo & ->). do 2 eexists. apply (js_skipped _ _ _ c Eo).
  - destruct (chk_completes j tr I) as (t & r & S). unfold jhead in S. rewrite <- app_assoc in S. do 2 eexists; exact S.
  - destruct I as [_ I]. destruct (chk_completes j tr I) as (t & r & S). unfold jhead in S. rewrite <- app_assoc in S. do 2 eexists; exact S.
  - destruct I as [_ I]. destruct (chk_completes j tr I) as (t & r & S). unfold jhead in S. rewrite <- app_assoc in S. do 2 eexists; exact S.
  - destruct I as (_ & chk & I & ->). destruct (chk_completes j chk I) as (t & r & S). unfold jhead in S.
    exists (job_state_event (jb_id j) InProgress :: t), r. rewrite <- app_assoc in *. exact S.
  - apply jmid_weak in I as (ck & done & evs & H1 & H2 & H3 & ->). eapply head_completes; eauto.
  - destruct I as (I & NM & Eo). destruct (jmid_skip_completes j sh t0 js rs st rest tr [OMatch c false] I) as (t & r & S); eauto.
    rewrite <- app_assoc in S. eauto.
  - destruct I as (tr' & chk & I & -> & H). eapply jmid_skip_completes; eauto.
  - destruct I as (st & tr' & chk & trs & ls' & I & -> & NM & Hl & Rs).
    destruct (step_prefix_story cx me st ls' sh sp trs Rs) as (tail & r & S). eapply jmid_run_completes; eauto.
  - do 2 eexists. eapply job_story_mono; [apply step_ran_story|]. rewrite app_cons_assoc. apply jend_returned, I.
  - destruct I as (tr' & I & ->). do 2 eexists. eapply job_story_mono; [apply step_ran_story|]. apply jend_returned, I.
  - destruct I as (tr' & I & ->). do 2 eexists. eapply job_story_mono; [apply step_ran_story|]. apply jend_returned, I.
  - exists [], r. rewrite app_nil_r. eapply job_story_mono; [apply step_ran_story|]. exact I.
Qed.
End P.
