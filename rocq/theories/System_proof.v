From Verif Require Import Base Types Signals_model Signals_proof Stream_model Stream_spec Stream_proof Cond_model
  Plugins_model Plugins_spec Plugins_proof Exec_model Exec_spec Step_proof Job_proof Workflow_model Workflow_spec Workflow_proof Workflow_inv
  System_model System_spec.

(** ** The job's story, whatever a step's execution is. [fin]: finished executions; [cur]: the current one. *)
Section J.
Variable glob : glob_oracle.
Variable cx : ectx.
Variable me : task.
Variable fin : step -> list obs -> step_run_result -> Prop.

Definition gmid (j : job) (sh : shared) (t0 : time) (js : wf_state) (rs : list step_run_result) (rest : list step) (tr : list obs) : Prop :=
  exists chk done evs, lets_run (jb_on j) chk /\ jb_steps j = done ++ rest /\ steps_story fin [] done evs rs /\
    tr = jhead cx j chk ++ evs /\ js_ok js rs /\ (t0 <= sh_now sh)%N.
Definition gend (j : job) (r : job_run_result) (tr : list obs) : Prop :=
  exists chk evs t0 t1, lets_run (jb_on j) chk /\ steps_story fin [] (jb_steps j) evs (jr_steps r) /\
    tr = jhead cx j chk ++ evs /\ final_state (jr_steps r) (jr_state r) /\ (t0 <= t1)%N /\
    jr_id r = jb_id j /\ jr_started_at r = Some t0 /\ jr_completed_at r = Some t1.
Definition ginv (cur : step -> shared -> step_phase -> list obs -> Prop) (j : job) (sh : shared) (p : job_phase) (tr : list obs) : Prop :=
  match p with
  | JpCheck => tr = []
  | JpFetch c ev => jb_on j = Some c /\ tr = []
  | JpSkip => exists c, jb_on j = Some c /\ tr = [OMatch c false]
  | JpStart => lets_run (jb_on j) tr
  | JpRegister t0 | JpRunEvent t0 => (t0 <= sh_now sh)%N /\ lets_run (jb_on j) tr
  | JpInProgress t0 => (t0 <= sh_now sh)%N /\ exists chk, lets_run (jb_on j) chk /\ tr = chk ++ [ev_run_job cx j]
  | JpSteps t0 js rs rest => gmid j sh t0 js rs rest tr
  | JpStepFetch t0 js rs st rest c ev => gmid j sh t0 js rs (st :: rest) tr /\ ~ must_skip rs st /\ st_on st = Some c
  | JpStepSkip t0 js rs st rest =>
      exists tr' chk, gmid j sh t0 js rs (st :: rest) tr' /\ tr = tr' ++ chk /\
        ((must_skip rs st /\ chk = []) \/ (~ must_skip rs st /\ exists c, st_on st = Some c /\ chk = [OMatch c false]))
  | JpStepRun t0 js rs sp rest =>
      exists st tr' chk trs, gmid j sh t0 js rs (st :: rest) tr' /\ tr = tr' ++ chk ++ trs /\
        ~ must_skip rs st /\ lets_run (st_on st) chk /\ cur st sh sp trs
  | JpEndState r => gend j r tr
  | JpUnregister r | JpCompleted r => exists tr', gend j r tr' /\ tr = tr' ++ [job_state_event (jb_id j) (jr_state r)]
  | JpReturned r => job_story_with fin cx j tr r
  end.

Lemma gmid_now j sh sh' t0 js rs rest tr : (sh_now sh <= sh_now sh')%N -> gmid j sh t0 js rs rest tr -> gmid j sh' t0 js rs rest tr.
Proof. intros H (chk & done & evs & H1 & H2 & H3 & H4 & H5 & H6). exists chk, done, evs. repeat split; auto. lia. Qed.

Lemma gmid_skip j sh t0 js rs st rest tr chk :
  gmid j sh t0 js rs (st :: rest) tr ->
  ((must_skip rs st /\ chk = []) \/ (~ must_skip rs st /\ exists c, st_on st = Some c /\ chk = [OMatch c false])) ->
  gmid j sh t0 js (rs ++ [skipped_step_result st]) rest ((tr ++ chk) ++ [step_state_event (st_id st) Skipped]).
Proof.
  intros (ck & done & evs & H1 & H2 & H3 & -> & H5 & H6) Hc.
  exists ck, (done ++ [st]), (evs ++ (chk ++ [step_state_event (st_id st) Skipped])). split; [exact H1|].
  split; [rewrite <- app_assoc; exact H2|]. split.
  - eapply steps_story_app; [exact H3|]. cbn. destruct Hc as [[Hc ->]|[Hc (c & Hon & ->)]].
    + change ([] ++ [step_state_event (st_id st) Skipped]) with ([step_state_event (st_id st) Skipped] ++ []).
      apply ss_forced; [exact Hc|apply skipped_entry_result|constructor].
    + change ([OMatch c false] ++ [step_state_event (st_id st) Skipped]) with ([OMatch c false; step_state_event (st_id st) Skipped] ++ []).
      eapply ss_unmatched; eauto; [apply skipped_entry_result|constructor].
  - split; [rewrite <- !app_assoc; reflexivity|]. split; [|exact H6]. apply js_ok_skip; [exact H5|reflexivity].
Qed.
Lemma gmid_run j sh t0 js rs st rest tr chk trs r :
  gmid j sh t0 js rs (st :: rest) tr -> ~ must_skip rs st -> lets_run (st_on st) chk -> fin st trs r ->
  gmid j sh t0 (job_state_after js r) (rs ++ [r]) rest (tr ++ chk ++ trs).
Proof.
  intros (ck & done & evs & H1 & H2 & H3 & -> & H5 & H6) Hn Hl Hr.
  exists ck, (done ++ [st]), (evs ++ (chk ++ trs)). split; [exact H1|].
  split; [rewrite <- app_assoc; exact H2|]. split.
  - eapply steps_story_app; [exact H3|]. cbn.
    replace (chk ++ trs) with (chk ++ trs ++ []) by (rewrite app_nil_r; reflexivity).
    apply ss_run; auto. constructor.
  - split; [rewrite <- !app_assoc; reflexivity|]. split; [|exact H6]. eapply js_ok_run; eauto.
Qed.
Lemma gmid_end j sh t0 js rs tr : gmid j sh t0 js rs [] tr ->
  gend j (JobRunResult (jb_id j) (job_final_state js) (Some t0) (Some (sh_now sh)) rs) tr.
Proof.
  intros (ck & done & evs & H1 & H2 & H3 & -> & H5 & H6). rewrite app_nil_r in H2. subst done.
  exists ck, evs, t0, (sh_now sh). cbn. repeat split; auto. apply js_ok_final, H5.
Qed.
Lemma gend_returned j r tr' : gend j r tr' ->
  job_story_with fin cx j ((tr' ++ [job_state_event (jb_id j) (jr_state r)]) ++ [OHook (HJobCompleted r)]) r.
Proof.
  intros (chk & evs & t0 & t1 & H1 & H2 & -> & H4 & H5 & H6 & H7 & H8).
  destruct r as [id s a b rs]; cbn in *. subst. unfold jhead. rewrite <- !app_assoc. cbn. eapply js_run; eauto.
Qed.

(** What happens elsewhere. *)
Lemma ginv_env (cur cur' : step -> shared -> step_phase -> list obs -> Prop) j sh sh' p tr : (sh_now sh <= sh_now sh')%N -> (forall st sp trs, cur st sh sp trs -> cur' st sh' sp trs) ->
  ginv cur j sh p tr -> ginv cur' j sh' p tr.
Proof.
  intros H Hc. destruct p; cbn [ginv]; auto; try (intros [H1 H2]; split; [lia|exact H2]).
  - apply gmid_now; exact H.
  - intros [H1 H2]. split; [eapply gmid_now; eauto|exact H2].
  - intros (tr' & chk & H1 & H2). exists tr', chk. split; [eapply gmid_now; eauto|exact H2].
  - intros (st & tr' & chk & trs & H1 & H2 & H3 & H4 & H5). exists st, tr', chk, trs.
    split; [eapply gmid_now; eauto|]. repeat split; auto.
Qed.
(** An action inside the current step. *)
Lemma ginv_inner (cur cur' : step -> shared -> step_phase -> list obs -> Prop) j sh sh' t0 js rs sp sp' rest tr o : (sh_now sh <= sh_now sh')%N ->
  (forall st trs, cur st sh sp trs -> cur' st sh' sp' (trs ++ o)) ->
  ginv cur j sh (JpStepRun t0 js rs sp rest) tr -> ginv cur' j sh' (JpStepRun t0 js rs sp' rest) (tr ++ o).
Proof.
  intros H Hc (st & tr' & chk & trs & H1 & -> & H3 & H4 & H5). exists st, tr', chk, (trs ++ o).
  split; [eapply gmid_now; eauto|]. split; [rewrite <- !app_assoc; reflexivity|]. auto.
Qed.
(** An action of the job outside a step. *)
Lemma ginv_step (cur cur' : step -> shared -> step_phase -> list obs -> Prop) j sh p tr op sh' p' o :
  (forall st sp trs, cur st sh sp trs -> match sp with SpDone r => fin st trs r | _ => True end) ->
  (forall st, cur' st sh' (SpBefore st) []) -> (forall sop, op <> JStep sop) ->
  ginv cur j sh p tr -> job_step glob cx me j sh p op = Some (sh', p', o) -> ginv cur' j sh' p' (tr ++ o).
Proof.
  intros Hfin Hst Hop I E. unfold job_step in E. destruct p as [|c ev| | |t0|t0|t0|t0 js rs rest|t0 js rs st rest c ev|t0 js rs st rest|t0 js rs sp rest|r|r|r|r].
  - destruct op; try discriminate. cbn in I; subst tr. destruct (jb_on j) as [c|] eqn:Eo.
    + destruct (is_match_first _ _ _ _) as [b|ev]; injection E as <- <- <-; [|cbn; auto].
      destruct b; cbn; [apply lets_run_check, Eo|eauto].
    + injection E as <- <- <-. cbn. rewrite Eo. reflexivity.
  - destruct op as [|gh|]; try discriminate. destruct I as [Eo ->].
    destruct (is_match_second _ _ _ _) as [cache' b]. injection E as <- <- <-.
    destruct b; cbn; [apply lets_run_check, Eo|eauto].
  - destruct op; try discriminate. destruct I as (c & Eo & ->). injection E as <- <- <-. cbn. apply js_skipped, Eo.
  - destruct op; try discriminate. injection E as <- <- <-. cbn in *. rewrite app_nil_r. split; [lia|exact I].
  - destruct op; try discriminate. injection E as <- <- <-. cbn in *. rewrite app_nil_r. exact I.
  - destruct op; try discriminate. injection E as <- <- <-. destruct I as [H1 H2]. split; [exact H1|]. exists tr. auto.
  - destruct op; try discriminate. injection E as <- <- <-. destruct I as (H1 & chk & H2 & ->).
    exists chk, [], []. split; [exact H2|]. split; [reflexivity|]. split; [constructor|].
    split; [unfold jhead; rewrite app_nil_r, <- app_assoc; reflexivity|]. split; [|exact H1].
    right; right. split; [intros ? []|reflexivity].
  - destruct op; try (destruct rest; discriminate). destruct rest as [|st rest].
    + injection E as <- <- <-. rewrite app_nil_r. cbn in *. apply gmid_end, I.
    + assert (J : js_ok js rs) by (destruct I as (ck & done & evs & H1 & H2 & H3 & H4 & H5 & H6); exact H5).
      destruct (forced_skip js st) eqn:Ef.
      * injection E as <- <- <-. apply (forced_skip_spec js rs st J) in Ef. exists tr, []. auto.
      * assert (NM : ~ must_skip rs st) by (intros C; apply (forced_skip_spec js rs st J) in C; congruence).
        destruct (st_on st) as [c|] eqn:Eo.
        -- destruct (is_match_first _ _ _ _) as [b|ev]; injection E as <- <- <-.
           ++ destruct b; cbn.
              ** exists st, tr, [OMatch c true], []. rewrite app_nil_r. split; [exact I|]. split; [reflexivity|].
                 split; [exact NM|]. split; [apply lets_run_check, Eo|apply Hst].
              ** exists tr, [OMatch c false]. split; [exact I|]. split; [reflexivity|]. right. eauto.
           ++ rewrite app_nil_r. cbn. auto.
        -- injection E as <- <- <-. cbn. exists st, tr, [], []. split; [exact I|]. split; [reflexivity|].
           split; [exact NM|]. split; [rewrite Eo; reflexivity|apply Hst].
  - destruct op as [|gh|]; try discriminate. destruct I as (I & NM & Eo).
    destruct (is_match_second _ _ _ _) as [cache' b]. injection E as <- <- <-.
    apply (gmid_now j sh (set_cache cache' sh)) in I; [|cbn; lia]. destruct b; cbn.
    + exists st, tr, [OMatch c true], []. rewrite app_nil_r. split; [exact I|]. split; [reflexivity|].
      split; [exact NM|]. split; [apply lets_run_check, Eo|apply Hst].
    + exists tr, [OMatch c false]. split; [exact I|]. split; [reflexivity|]. right. eauto.
  - destruct op; try discriminate. injection E as <- <- <-. destruct I as (tr' & chk & I & -> & H). cbn.
    apply gmid_skip; assumption.
  - destruct I as (st & tr' & chk & trs & I & -> & NM & Hl & Rn). destruct op as [|gh|sop]; [| |destruct (Hop sop eq_refl)].
    + destruct sp; try discriminate. injection E as <- <- <-. rewrite app_nil_r. cbn. eapply gmid_run; eauto. exact (Hfin _ _ _ Rn).
    + destruct sp; discriminate.
  - destruct op; try discriminate. injection E as <- <- <-. cbn in *.
    exists tr. split; [exact I|]. destruct I as (chk & evs & t0 & t1 & _ & _ & _ & _ & _ & Hid & _). rewrite Hid. reflexivity.
  - destruct op; try discriminate. injection E as <- <- <-. rewrite app_nil_r. exact I.
  - destruct op; try discriminate. injection E as <- <- <-. destruct I as (tr' & I & ->). cbn. apply gend_returned, I.
  - destruct op; discriminate.
Qed.
End J.

Lemma ginv_mono cx (fin fin' : step -> list obs -> step_run_result -> Prop) cur j sh p tr : (forall st evs r, fin st evs r -> fin' st evs r) -> ginv cx fin cur j sh p tr -> ginv cx fin' cur j sh p tr.
Proof.
  intros H.
  assert (M : forall sh t0 js rs rest tr, gmid cx fin j sh t0 js rs rest tr -> gmid cx fin' j sh t0 js rs rest tr).
  { intros ? ? ? ? ? ? (chk & done & evs & H1 & H2 & H3 & H4 & H5 & H6). exists chk, done, evs. repeat split; auto. eapply steps_story_mono; eauto. }
  assert (G : forall r tr, gend cx fin j r tr -> gend cx fin' j r tr).
  { intros ? ? (chk & evs & t0 & t1 & H1 & H2 & H3 & H4). exists chk, evs, t0, t1. repeat (split; [assumption|]); split; [eapply steps_story_mono; eauto|]. auto. }
  destruct p; cbn [ginv]; auto.
  - intros [H1 H2]; auto.
  - intros (tr' & chk & H1 & H2); eauto 6.
  - intros (st & tr' & chk & trs & H1 & H2); eauto 10.
  - intros (tr' & H1 & H2); eauto.
  - intros (tr' & H1 & H2); eauto.
  - apply job_story_mono, H.
Qed.

(** ** The whole system. *)
Lemma job_quiet_env glob cx me j sh p op sh' p' o : job_step glob cx me j sh p op = Some (sh', p', o) ->
  exists es, sh' = env_steps sh es /\ forall e, In e es -> ~ raises e.
Proof.
  intros E.
  assert (Nil : exists es, sh = env_steps sh es /\ forall e, In e es -> ~ raises e) by (exists []; split; [reflexivity|intros e []]).
  assert (One : forall e, ~ raises e -> exists es, env_step sh e = env_steps sh es /\ forall e, In e es -> ~ raises e).
  { intros e He. exists [e]. split; [reflexivity|]. intros e' [<-|[]]; exact He. }
  unfold job_step in E. destruct p as [|c ev| | |t0|t0|t0|t0 js rs rest|t0 js rs st rest c ev|t0 js rs st rest|t0 js rs sp rest|r|r|r|r];
    destruct op as [|gh|sop]; try discriminate E; try (destruct rest; discriminate E); try (injection E as <- <- <-; exact Nil).
  - destruct (jb_on j); [destruct (is_match_first _ _ _ _)|]; injection E as <- <- <-; exact Nil.
  - destruct (is_match_second _ _ _ _) as [c' b]; injection E as <- <- <-. apply (One (ECache c')). cbn. tauto.
  - injection E as <- <- <-. apply (One (ESig (MRegister (jb_id j)))). cbn. tauto.
  - destruct rest as [|st rest]; [|destruct (forced_skip js st); [|destruct (st_on st); [destruct (is_match_first _ _ _ _)|]]]; injection E as <- <- <-; exact Nil.
  - destruct (is_match_second _ _ _ _) as [c' b]; injection E as <- <- <-. apply (One (ECache c')). cbn. tauto.
  - destruct sp; try discriminate E; injection E as <- <- <-; exact Nil.
  - destruct sp; discriminate E.
  - assert (E' : match step_step cx me sh sp sop with
             | Some (sh'0, sp', o) => Some (sh'0, JpStepRun t0 js rs sp' rest, o) | None => None end = Some (sh', p', o))
          by (destruct sp; exact E). clear E.
    destruct (step_step cx me sh sp sop) as [[[sh1 sp1] o1]|] eqn:Es; [|discriminate]. injection E' as <- <- <-.
    apply step_as_env in Es as [->|[a ->]]; [exact Nil|]. apply (One (ESig (MSignal a (OPoll me)))). cbn. tauto.
  - injection E as <- <- <-. apply (One (ESig (MUnregister (jr_id r)))). cbn. tauto.
Qed.
Lemma envs_now es : forall sh, (sh_now sh <= sh_now (env_steps sh es))%N.
Proof. induction es as [|e es IH]; intros sh; cbn; [lia|]. assert (H := env_now sh e). specialize (IH (env_step sh e)). unfold env_steps in IH. lia. Qed.

Section Y.
Context {T iop iobs : Type}.
Variable R : rside T iop iobs.
Variable glob : glob_oracle.
Variable cx : ectx.
Variable wf : workflow.
(** The runner's side acts on the engine only in the ways a runner can. *)
Definition faithful : Prop := forall me sh p x op sh' p' x' o, rs_step R me sh p x op = Some (sh', p', x', o) ->
  (sh' = sh /\ p' = p /\ step_events R o = []) \/ exists sop, step_step cx me sh p sop = Some (sh', p', step_events R o).
Hypothesis F : faithful.

Notation sysop' := (sysop (iop := iop)).
Definition current (all : list sysop') (i : nat) (x : T) (st : step) (sh : shared) (p : step_phase) (trs : list obs) : Prop :=
  exists ops os, irun R (S i) st ops sh p x os /\ step_events R os = trs /\ forall l, In l ops -> part_of all i l.
Definition in_step (p : job_phase) : bool := match p with JpStepRun _ _ _ _ _ => true | _ => false end.
Definition past_ok (all : list sysop') (e : nat * (shared * step_phase * T)) : Prop :=
  exists st r ops os, snd (fst (snd e)) = SpDone r /\ irun R (S (fst e)) st ops (fst (fst (snd e))) (SpDone r) (snd (snd e)) os /\
    forall l, In l ops -> part_of all (fst e) l \/ exists k o, l = inl o /\ In (YPast k o) all.

Lemma part_mono (all all' : list sysop') i l : (forall o, In o all -> In o all') -> part_of all i l -> part_of all' i l.
Proof. intros H. destruct l as [o|e]; cbn; [apply H|]. intros [K|K]; [left; apply H, K|right; exact K]. Qed.
Lemma ran_mono all all' i st evs r : (forall o, In o all -> In o all') -> ran R all i st evs r -> ran R all' i st evs r.
Proof. intros H (ops & sh & x & tr & H1 & H2 & H3). exists ops, sh, x, tr. split; [exact H1|]. split; [exact H2|]. intros l Hl. eapply part_mono; [exact H|]. auto. Qed.
Lemma current_envs all all' i x st es : (forall o, In o all -> In o all') -> (forall e, In e es -> In (YFlow (WEnv e)) all' \/ ~ raises e) ->
  forall sh p trs, current all i x st sh p trs -> current all' i x st (env_steps sh es) p trs.
Proof.
  intros Ha He sh p trs (ops & os & H1 & H2 & H3).
  assert (K : forall es ops sh, irun R (S i) st ops sh p x os -> irun R (S i) st (ops ++ map inr es) (env_steps sh es) p x os).
  { clear. induction es as [|e es IH]; intros ops sh H; cbn; [rewrite app_nil_r; exact H|].
    change (inr e :: map inr es) with ([@inr iop env_op e] ++ map inr es). rewrite app_assoc. apply IH. apply irun_env, H. }
  exists (ops ++ map inr es), os. split; [apply K, H1|]. split; [exact H2|]. intros l Hl. apply in_app_iff in Hl as [Hl|Hl]; [eapply part_mono; eauto|].
  apply in_map_iff in Hl as (e & <- & Hl). cbn. auto.
Qed.
Lemma step_events_app a b : step_events R (a ++ b) = step_events R a ++ step_events R b.
Proof. apply flat_map_app. Qed.
Lemma flow_app a b : flow_of R (a ++ b) = flow_of R a ++ flow_of R b.
Proof. apply flat_map_app. Qed.
Lemma flow_inl tr : flow_of R (map (fun x : who * obs => (fst x, inl (snd x))) tr) = tr.
Proof. induction tr as [|[w o] tr IH]; cbn; [reflexivity|]. f_equal. exact IH. Qed.
Lemma flow_inr i out : flow_of R (map (fun e => (Some i, inr e)) out) = map (fun o => (Some i, o)) (step_events R out).
Proof. induction out as [|e out IH]; cbn; [reflexivity|]. rewrite map_app. f_equal. exact IH. Qed.
Lemma done_silent me sh r x op sh' p' x' o : rs_step R me sh (SpDone r) x op = Some (sh', p', x', o) -> sh' = sh /\ p' = SpDone r /\ step_events R o = [].
Proof. intros E. apply F in E as [E|[sop E]]; [exact E|]. destruct sop; discriminate E. Qed.
Lemma inner_env me sh p x op sh' p' x' o : rs_step R me sh p x op = Some (sh', p', x', o) -> exists es, sh' = env_steps sh es /\ forall e, In e es -> ~ raises e.
Proof.
  intros E. apply F in E as [(-> & _)|[sop E]]; [exists []; split; [reflexivity|intros e []]|].
  apply step_as_env in E as [->|[a ->]]; [exists []; split; [reflexivity|intros e []]|]. exists [ESig (MSignal a (OPoll me))]. split; [reflexivity|]. intros e [<-|[]]. cbn. tauto.
Qed.
Lemma pad_eq n (l : list T) : length l = n -> pad R n l = l.
Proof. intros <-. unfold pad. rewrite Nat.sub_diag. apply app_nil_r. Qed.
Lemma pad_length n (l : list T) : length l <= n -> length (pad R n l) = n.
Proof. intros H. unfold pad. rewrite app_length, repeat_length. lia. Qed.
Lemma pad_nth n (l : list T) i x : nth_error (pad R n l) i = Some x -> (i < length l /\ nth_error l i = Some x) \/ (length l <= i /\ x = rs_init R).
Proof.
  unfold pad. intros H. destruct (Nat.lt_ge_cases i (length l)) as [Hl|Hl].
  - rewrite nth_error_app1 in H by exact Hl. auto.
  - rewrite nth_error_app2 in H by exact Hl. apply nth_error_In, repeat_spec in H. auto.
Qed.

Record sysinv (all : list sysop') (s : system) (tr : list (who * (obs + iobs))) : Prop := {
  si_len : length (sy_cur s) = length (ws_tasks (sy_w s));
  si_past : forall e, In e (sy_past s) -> past_ok all e;
  si_idle : forall i t x, nth_error (ws_tasks (sy_w s)) i = Some t -> nth_error (sy_cur s) i = Some x -> in_step (tk_phase t) = false -> x = rs_init R;
  si_task : forall i t x, nth_error (ws_tasks (sy_w s)) i = Some t -> nth_error (sy_cur s) i = Some x ->
    ginv cx (ran R all i) (current all i x) (tk_job t) (ws_sh (sy_w s)) (tk_phase t) (events_of (Some i) (flow_of R tr));
  si_other : forall i, length (ws_tasks (sy_w s)) <= i -> events_of (Some i) (flow_of R tr) = [] }.

Lemma ginv_elsewhere all all' i x j sh p tr es : (forall o, In o all -> In o all') -> (forall e, In e es -> In (YFlow (WEnv e)) all' \/ ~ raises e) ->
  ginv cx (ran R all i) (current all i x) j sh p tr -> ginv cx (ran R all' i) (current all' i x) j (env_steps sh es) p tr.
Proof.
  intros Ha He G. eapply ginv_mono; [intros st evs r; apply ran_mono, Ha|]. eapply ginv_env; [apply envs_now| |exact G].
  intros st sp trs. apply current_envs; assumption.
Qed.
Lemma past_mono all all' e : (forall o, In o all -> In o all') -> past_ok all e -> past_ok all' e.
Proof.
  intros H (st & r & ops & os & H1 & H2 & H3). exists st, r, ops, os. split; [exact H1|]. split; [exact H2|]. intros l Hl.
  destruct (H3 l Hl) as [K|(k & o & -> & K)]; [left; eapply part_mono; eauto|right; eauto].
Qed.
Lemma cur_done all i x st sh sp trs : current all i x st sh sp trs -> match sp with SpDone r => ran R all i st trs r | _ => True end.
Proof. intros (ops & os & H1 & H2 & H3). destruct sp; auto. exists ops, sh, x, os. auto. Qed.

Lemma sys_inv sh0 ops s tr : sysrun R glob cx wf sh0 ops s tr -> sysinv ops s tr.
Proof.
  induction 1 as [|ops s tr op s' o Hr [I1 I2 I3 I4 I5] E].
  { split; cbn; [reflexivity|intros e []|intros [|i]; discriminate|intros [|i]; discriminate|reflexivity]. }
  assert (Mo : forall x, In x ops -> In x (ops ++ [op])) by (intros x Hx; apply in_or_app; left; exact Hx).
  assert (Last : In op (ops ++ [op])) by (apply in_or_app; right; left; reflexivity).
  destruct op as [wo|i io|k io]; cbn [sysstep] in E.
  - (* the engine *)
    destruct (is_step_op wo) eqn:Hs; [discriminate|]. destruct (wstep glob cx wf (sy_w s) wo) as [[w' wtr]|] eqn:Ew; [|discriminate].
    destruct wo as [|gh|i jo|i|e].
    + (* main *)
      cbn [step_over] in E. injection E as <- <-. cbn [wstep] in Ew. assert (Hsh := main_sh glob cx wf _ _ _ Ew). assert (Hw := main_who glob cx wf _ _ _ Ew). apply main_tasks in Ew.
      assert (Hev : forall i, events_of (Some i) wtr = []).
      { intros i. rewrite (who_none_map wtr Hw). apply events_of_map_other. discriminate. }
      assert (Hn : forall i t, nth_error (ws_tasks w') i = Some t -> (i < length (ws_tasks (sy_w s)) /\ nth_error (ws_tasks (sy_w s)) i = Some t) \/ (length (ws_tasks (sy_w s)) <= i /\ tk_phase t = JpCheck)).
      { intros i t Ht. destruct Ew as [[Et _]|(kj & Et & _)]; rewrite Et in Ht.
        - left. split; [apply nth_error_Some; congruence|exact Ht].
        - destruct (Nat.lt_ge_cases i (length (ws_tasks (sy_w s)))) as [Hl|Hl]; [rewrite nth_error_app1 in Ht by exact Hl; auto|].
          right. split; [exact Hl|]. rewrite nth_error_app2 in Ht by exact Hl. apply nth_error_In in Ht as [<-|[]]. reflexivity. }
      assert (Hle : length (ws_tasks (sy_w s)) <= length (ws_tasks w')).
      { destruct Ew as [[Et _]|(kj & Et & _)]; rewrite Et; [lia|rewrite app_length; lia]. }
      split; cbn [sy_w sy_cur sy_past].
      * apply pad_length. lia.
      * rewrite app_nil_r. intros e He. eapply past_mono; eauto.
      * intros i t x Ht Hx Hp. apply pad_nth in Hx as [[Hl Hx]|[_ Hx]]; [|exact Hx]. destruct (Hn _ _ Ht) as [[_ Ht']|[Hl' _]]; [eauto|lia].
      * intros i t x Ht Hx. rewrite flow_app, flow_inl, events_of_app, Hev, app_nil_r, Hsh. destruct (Hn _ _ Ht) as [[Hl Ht']|[Hl Hp]].
        -- apply pad_nth in Hx as [[_ Hx]|[Hl' _]]; [|lia]. apply (ginv_elsewhere ops _ _ _ _ _ _ _ [] Mo); [intros e []|]. apply I4; assumption.
        -- rewrite Hp. apply I5, Hl.
      * intros i Hi. rewrite flow_app, flow_inl, events_of_app, Hev, app_nil_r. apply I5. lia.
    + (* GitHub answers the workflow *)
      cbn [step_over] in E. injection E as <- <-. cbn [wstep] in Ew. destruct (ws_main (sy_w s)); try discriminate Ew.
      destruct (is_match_second _ _ _ _) as [cache' b]. injection Ew as <- <-. split; cbn [sy_w sy_cur sy_past ws_tasks ws_sh].
      * rewrite pad_eq; exact I1.
      * rewrite app_nil_r. intros e He. eapply past_mono; eauto.
      * rewrite pad_eq by exact I1. exact I3.
      * rewrite pad_eq by exact I1. intros i t x Ht Hx. rewrite flow_app, flow_inl, events_of_app. cbn. rewrite app_nil_r.
        apply (ginv_elsewhere ops _ _ _ _ _ _ _ [ECache cache'] Mo); [intros e [<-|[]]; right; cbn; tauto|]. apply I4; assumption.
      * intros i Hi. rewrite flow_app, flow_inl, events_of_app. cbn. rewrite app_nil_r. apply I5, Hi.
    + (* a job *)
      cbn [wstep] in Ew. destruct (nth_error (ws_tasks (sy_w s)) i) as [t|] eqn:Et; [|discriminate Ew].
      destruct (job_step glob cx (S i) (tk_job t) (ws_sh (sy_w s)) (tk_phase t) jo) as [[[sh' p'] out]|] eqn:Ej; [|discriminate Ew]. injection Ew as <- <-.
      assert (Hlt : i < length (ws_tasks (sy_w s))) by (apply nth_error_Some; congruence).
      destruct (nth_error (sy_cur s) i) as [x|] eqn:Ex; [|apply nth_error_None in Ex; lia].
      assert (Hop : forall sop, jo <> JStep sop) by (intros sop ->; discriminate Hs).
      assert (K : s' = System (WState sh' (ws_main (sy_w s)) (list_set i (set_phase t p') (ws_tasks (sy_w s))) (ws_chan (sy_w s)))
                         (if in_step (tk_phase t) then list_set i (rs_init R) (sy_cur s) else sy_cur s)
                         (sy_past s ++ (if in_step (tk_phase t) then [(i, (ws_sh (sy_w s), match tk_phase t with JpStepRun _ _ _ p _ => p | _ => SpBefore (Step (StepId "" "" 0) None None None "" false [] [] (Duration 0 0)) end, x))] else []))
                /\ o = map (fun x => (Some i, inl x)) out).
      { assert (Ed : forall c p, (pad R (length (list_set i (set_phase t p) (ws_tasks (sy_w s)))) (list_set i c (sy_cur s)) = list_set i c (sy_cur s)))
          by (intros c p; apply pad_eq; rewrite !list_set_length; exact I1).
        assert (Ed' : forall p, (pad R (length (list_set i (set_phase t p) (ws_tasks (sy_w s)))) (sy_cur s) = sy_cur s))
          by (intros p; apply pad_eq; rewrite list_set_length; exact I1).
        unfold step_over in E. fold (set_phase t p') in E. destruct jo as [|gh|sop]; [| |destruct (Hop sop eq_refl)].
        - rewrite Et in E. destruct (tk_phase t) as [| | | | | | | | | |t0 js rs sp rest| | | |] eqn:Ep;
            try (cbn [in_step]; injection E as <- <-; cbn [ws_tasks]; rewrite Ed'; split; [reflexivity|rewrite map_map; reflexivity]).
          cbn [job_step] in Ej. destruct sp; try discriminate Ej. rewrite Ex in E. cbn [in_step]. injection E as <- <-. cbn [ws_tasks]. rewrite Ed.
          split; [reflexivity|rewrite map_map; reflexivity].
        - assert (Hn : in_step (tk_phase t) = false).
          { destruct (tk_phase t); try reflexivity. cbn [job_step] in Ej. destruct p; discriminate Ej. }
          rewrite Hn. injection E as <- <-. cbn [ws_tasks]. rewrite Ed'. split; [reflexivity|rewrite map_map; reflexivity]. }
      clear E. destruct K as [-> ->].
      assert (Ev : forall k, events_of (Some k) (flow_of R (tr ++ map (fun x => (Some i, inl x)) out)) = events_of (Some k) (flow_of R tr) ++ if Nat.eqb k i then out else []).
      { intros k. rewrite flow_app, events_of_app. f_equal.
        replace (map (fun x0 : obs => (Some i, @inl obs iobs x0)) out) with (map (fun x : who * obs => (fst x, @inl obs iobs (snd x))) (map (fun x => (Some i, x)) out)) by (rewrite map_map; reflexivity).
        rewrite flow_inl. destruct (Nat.eqb k i) eqn:Ek.
        - apply Nat.eqb_eq in Ek as ->. apply events_of_map_same.
        - apply Nat.eqb_neq in Ek. apply events_of_map_other. congruence. }
      assert (Hcur : forall k y, k <> i -> nth_error (if in_step (tk_phase t) then list_set i (rs_init R) (sy_cur s) else sy_cur s) k = Some y -> nth_error (sy_cur s) k = Some y).
      { intros k y Hk. destruct (in_step (tk_phase t)); [rewrite list_set_ne by exact Hk|]; auto. }
      assert (Hcuri : forall y, nth_error (if in_step (tk_phase t) then list_set i (rs_init R) (sy_cur s) else sy_cur s) i = Some y -> y = rs_init R).
      { intros y Hy. destruct (in_step (tk_phase t)) eqn:Ein.
        - erewrite list_set_eq in Hy by exact Ex. congruence.
        - eapply I3; eauto. }
      assert (I4i := I4 i t x Et Ex).
      split; cbn [sy_w sy_cur sy_past ws_tasks ws_sh].
      * rewrite list_set_length. destruct (in_step (tk_phase t)); [rewrite list_set_length|]; exact I1.
      * intros e He. apply in_app_iff in He as [He|He]; [eapply past_mono; eauto|].
        destruct (tk_phase t) as [| | | | | | | | | |t0 js rs sp rest| | | |] eqn:Ep; try contradiction. destruct He as [<-|[]].
        destruct jo as [|gh|sop]; [| |destruct (Hop sop eq_refl)]; cbn [job_step] in Ej; destruct sp; try discriminate Ej.
        destruct I4i as (st & tr' & chk & trs & _ & _ & _ & _ & (iops & os & Hi & _ & Hp)). exists st, r, iops, os. split; [reflexivity|]. split; [exact Hi|].
        intros l Hl. left. eapply part_mono; [exact Mo|]. cbn [fst]. auto.
      * intros k t' y Hk Hy Hp. destruct (Nat.eq_dec k i) as [->|Hne]; [apply Hcuri, Hy|]. rewrite list_set_ne in Hk by exact Hne. eauto.
      * intros k t' y Hk Hy. rewrite Ev. destruct (Nat.eq_dec k i) as [->|Hne].
        -- rewrite Nat.eqb_refl. erewrite list_set_eq in Hk by exact Et. injection Hk as <-. cbn [tk_job tk_phase set_phase].
           apply Hcuri in Hy as ->.
           eapply (ginv_step glob cx (S i) (ran R (ops ++ [YFlow (WTaskOp i jo)]) i) (current ops i x)); [| |exact Hop| |exact Ej].
           ++ intros st sp trs Hc. apply cur_done in Hc. destruct sp; auto. eapply ran_mono; eauto.
           ++ intros st. exists [], []. split; [constructor|]. split; [reflexivity|]. intros l [].
           ++ eapply ginv_mono; [|exact I4i]. intros st evs r. apply ran_mono, Mo.
        -- assert (Nat.eqb k i = false) as -> by (apply Nat.eqb_neq; exact Hne). rewrite app_nil_r. rewrite list_set_ne in Hk by exact Hne.
           destruct (job_quiet_env _ _ _ _ _ _ _ _ _ _ Ej) as (es & -> & He).
           apply (ginv_elsewhere ops _ _ _ _ _ _ _ es Mo); [intros e Hin; right; apply He, Hin|]. apply I4; eauto.
      * intros k Hk. rewrite list_set_length in Hk. rewrite Ev. assert (Nat.eqb k i = false) as -> by (apply Nat.eqb_neq; lia). rewrite app_nil_r. apply I5, Hk.
    + (* a job's result is sent *)
      cbn [step_over] in E. injection E as <- <-. cbn [wstep] in Ew. destruct (nth_error (ws_tasks (sy_w s)) i) as [[key j p sent]|] eqn:Ei; [|discriminate]. destruct p as [| | | | | | | | | | | | | |r]; try discriminate.
      destruct sent; [discriminate|].
      assert (Et : ws_tasks w' = list_set i (WTask key j (JpReturned r) true) (ws_tasks (sy_w s)) /\ ws_sh w' = ws_sh (sy_w s) /\ wtr = []).
      { destruct (ws_main (sy_w s)); try (destruct (Nat.ltb _ _); [|discriminate Ew]); injection Ew as <- <-; auto. }
      destruct Et as (Et & Hsh & ->). cbn [map]. rewrite !app_nil_r.
      assert (Hk : forall k t', nth_error (ws_tasks w') k = Some t' -> exists t, nth_error (ws_tasks (sy_w s)) k = Some t /\ tk_job t' = tk_job t /\ tk_phase t' = tk_phase t).
      { intros k t' H. rewrite Et in H. destruct (Nat.eq_dec k i) as [->|Hne].
        - erewrite list_set_eq in H by exact Ei. injection H as <-. eexists; split; [exact Ei|]. auto.
        - rewrite list_set_ne in H by exact Hne. eauto. }
      assert (Hl : length (ws_tasks w') = length (ws_tasks (sy_w s))) by (rewrite Et; apply list_set_length).
      split; cbn [sy_w sy_cur sy_past].
      * rewrite pad_eq; congruence.
      * intros e He. eapply past_mono; eauto.
      * rewrite pad_eq by congruence. intros k t' y Ht Hy Hp. destruct (Hk _ _ Ht) as (t & Ht' & _ & Hp'). rewrite Hp' in Hp. eauto.
      * rewrite pad_eq by congruence. intros k t' y Ht Hy. destruct (Hk _ _ Ht) as (t & Ht' & -> & ->). rewrite Hsh.
        apply (ginv_elsewhere ops _ _ _ _ _ _ _ [] Mo); [intros e []|]. apply I4; assumption.
      * intros k Hk'. rewrite Hl in Hk'. apply I5, Hk'.
    + (* the rest of the world *)
      cbn [step_over] in E. injection E as <- <-. cbn [wstep] in Ew. injection Ew as <- <-. cbn [map]. rewrite !app_nil_r.
      split; cbn [sy_w sy_cur sy_past ws_tasks ws_sh].
      * rewrite pad_eq; exact I1.
      * intros e' He. eapply past_mono; eauto.
      * rewrite pad_eq by exact I1. exact I3.
      * rewrite pad_eq by exact I1. intros i t x Ht Hx.
        apply (ginv_elsewhere ops _ _ _ _ _ _ _ [e] Mo); [intros e' [<-|[]]; left; exact Last|]. apply I4; assumption.
      * exact I5.
  - (* inside a step *)
    destruct (nth_error (ws_tasks (sy_w s)) i) as [t|] eqn:Et; [|discriminate]. destruct (nth_error (sy_cur s) i) as [x|] eqn:Ex; [|discriminate].
    destruct (tk_phase t) as [| | | | | | | | | |t0 js rs sp rest| | | |] eqn:Ep; try discriminate E.
    destruct (rs_step R (S i) (ws_sh (sy_w s)) sp x io) as [[[[sh' sp'] x'] out]|] eqn:Es; [|discriminate E]. injection E as <- <-.
    destruct (inner_env _ _ _ _ _ _ _ _ _ Es) as (es & Hsh & He).
    assert (Ev : forall k, events_of (Some k) (flow_of R (tr ++ map (fun e => (Some i, inr e)) out)) = events_of (Some k) (flow_of R tr) ++ if Nat.eqb k i then step_events R out else []).
    { intros k. rewrite flow_app, events_of_app. f_equal. rewrite flow_inr. destruct (Nat.eqb k i) eqn:Ek.
      - apply Nat.eqb_eq in Ek as ->. apply events_of_map_same.
      - apply Nat.eqb_neq in Ek. apply events_of_map_other. congruence. }
    split; cbn [sy_w sy_cur sy_past ws_tasks ws_sh].
    + rewrite !list_set_length. exact I1.
    + intros e Hin. eapply past_mono; eauto.
    + intros k t' y Hk Hy Hp. destruct (Nat.eq_dec k i) as [->|Hne].
      * erewrite list_set_eq in Hk by exact Et. injection Hk as <-. discriminate Hp.
      * rewrite list_set_ne in Hk by exact Hne. rewrite list_set_ne in Hy by exact Hne. eauto.
    + intros k t' y Hk Hy. rewrite Ev. destruct (Nat.eq_dec k i) as [->|Hne].
      * rewrite Nat.eqb_refl. erewrite list_set_eq in Hk by exact Et. injection Hk as <-. erewrite list_set_eq in Hy by exact Ex. injection Hy as <-.
        cbn [tk_job tk_phase set_phase]. assert (G := I4 i t x Et Ex). rewrite Ep in G.
        eapply ginv_mono in G; [|intros st evs r; apply ran_mono, Mo].
        eapply ginv_inner; [| |exact G]; [rewrite Hsh; apply envs_now|].
        intros st trs (iops & os & H1 & H2 & H3). exists (iops ++ [inl io]), (os ++ out). split; [eapply irun_op; eauto|].
        split; [rewrite step_events_app, H2; reflexivity|]. intros l Hl. apply in_app_iff in Hl as [Hl|[<-|[]]]; [eapply part_mono; eauto|exact Last].
      * assert (Nat.eqb k i = false) as -> by (apply Nat.eqb_neq; exact Hne). rewrite app_nil_r. rewrite list_set_ne in Hk by exact Hne. rewrite list_set_ne in Hy by exact Hne.
        rewrite Hsh. apply (ginv_elsewhere ops _ _ _ _ _ _ _ es Mo); [intros e Hin; right; apply He, Hin|]. apply I4; eauto.
    + intros k Hk. rewrite list_set_length in Hk. rewrite Ev. assert (i < length (ws_tasks (sy_w s))) by (apply nth_error_Some; congruence).
      assert (Nat.eqb k i = false) as -> by (apply Nat.eqb_neq; lia). rewrite app_nil_r. apply I5, Hk.
  - (* after a step *)
    destruct (nth_error (sy_past s) k) as [[i [[sh p] x]]|] eqn:Ek; [|discriminate].
    destruct (rs_step R (S i) sh p x io) as [[[[sh' p'] x'] out]|] eqn:Es; [|discriminate E]. injection E as <- <-.
    assert (P := I2 _ (nth_error_In _ _ Ek)). destruct P as (st & r & iops & os & Hp & Hi & Hl). cbn [fst snd] in *. subst p.
    destruct (done_silent _ _ _ _ _ _ _ _ _ Es) as (-> & -> & Hso).
    assert (Fl : flow_of R (tr ++ map (fun e => (Some i, inr e)) out) = flow_of R tr) by (rewrite flow_app, flow_inr, Hso; cbn; apply app_nil_r).
    split; cbn [sy_w sy_cur sy_past]; rewrite ?Fl; auto.
    + intros e He. apply in_list_set in He as [->|He]; [|eapply past_mono; eauto].
      exists st, r, (iops ++ [inl io]), (os ++ out). cbn [fst snd]. split; [reflexivity|]. split; [eapply irun_op; eauto|].
      intros l Hin. apply in_app_iff in Hin as [Hin|[<-|[]]].
      * destruct (Hl l Hin) as [K|(k' & o & -> & K)]; [left; eapply part_mono; eauto|right; eauto].
      * right. eauto.
    + intros j t y Ht Hy. apply (ginv_elsewhere ops _ _ _ _ _ _ _ [] Mo); [intros e []|]. apply I4; assumption.
Qed.
End Y.
