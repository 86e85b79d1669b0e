(** Proofs for C110: the times in results and logs. *)
From Coq Require Import Sorting.Sorted.
From Verif Require Import Base Types Signals_model Stream_model Cond_model Plugins_model Exec_model Exec_spec Workflow_model Workflow_spec Workflow_proof Times_spec.

(** *** Lists of times *)
Definition asc (l : list time) : Prop := StronglySorted N.le l.
Lemma asc_snoc l x : asc (l ++ [x]) <-> asc l /\ Forall (fun y => y <= x)%N l.
Proof.
  induction l as [|y l IH]; cbn [app].
  - split; [intros _; split; constructor|intros _; constructor; constructor].
  - split.
    + intros H. inversion H as [|? ? H1 H2]; subst. apply IH in H1 as [A B]. apply Forall_app in H2 as [C D]. inversion D; subst. split; [constructor; assumption|constructor; assumption].
    + intros [H1 H2]. inversion H1 as [|? ? A B]; subst. inversion H2; subst. constructor; [apply IH; auto|apply Forall_app; auto].
Qed.
Lemma asc_raise l x y : asc (l ++ [x]) -> (x <= y)%N -> asc (l ++ [y]).
Proof. rewrite !asc_snoc. intros [A B] H. split; [exact A|]. eapply Forall_impl; [|exact B]. cbn. intros; lia. Qed.
Lemma asc_more l x y : asc (l ++ [x]) -> (x <= y)%N -> asc (l ++ [x; y]).
Proof.
  intros H L. change [x; y] with ([x] ++ [y]). rewrite app_assoc. apply asc_snoc. split; [exact H|]. apply asc_snoc in H as [_ B]. apply Forall_app. split; [|constructor; [exact L|constructor]].
  eapply Forall_impl; [|exact B]. cbn. intros; lia.
Qed.
Lemma asc_last l x y z : asc (l ++ [x; y]) -> (y <= z)%N -> asc (l ++ [x; y; z]).
Proof.
  intros H L. change (l ++ [x; y]) with (l ++ [x] ++ [y]) in H. change (l ++ [x; y; z]) with (l ++ [x] ++ [y; z]). rewrite app_assoc in *. apply asc_more; assumption.
Qed.
Lemma asc_sorted l : asc l -> Sorted N.le l.
Proof. apply StronglySorted_Sorted. Qed.

Lemma upto_snoc {A} t (evs : timed A) t' o : upto t (evs ++ [(t', o)]) <-> upto t evs /\ (t' <= t)%N.
Proof.
  unfold upto. rewrite Forall_app. split; intros [H1 H2]; (split; [exact H1|]); [inversion H2; assumption|constructor; [exact H2|constructor]].
Qed.
Lemma upto_mono {A} t t' (evs : timed A) : upto t evs -> (t <= t')%N -> upto t' evs.
Proof. intros H L. eapply Forall_impl; [|exact H]. cbn. intros; lia. Qed.
Lemma read_later {A} base (evs : timed A) a t t' : read_between base evs a t -> (t <= t')%N -> read_between base evs a t'.
Proof. intros (H1 & H2 & H3) L. repeat split; auto. lia. Qed.

Section P.
Variables (glob : glob_oracle) (cx : ectx) (base : time).
Notation truthful := (truthful cx base).
Lemma truthful_snoc evs t o : truthful evs -> truthful_event cx base evs t o -> truthful (evs ++ [(t, o)]).
Proof.
  intros H1 H2 pre t' o' post E. destruct (@exists_last _ ((t', o') :: post)) as (l & [t2 o2] & El); [discriminate|].
  rewrite El, app_assoc in E. apply app_inj_tail in E as [E1 E2]. injection E2 as <- <-.
  destruct l as [|x l].
  - destruct post; [|destruct post; discriminate El]. injection El as -> ->. rewrite app_nil_r in E1. subst evs. exact H2.
  - injection El as <- ->. eapply H1. exact E1.
Qed.
Lemma truthful_nil : truthful [].
Proof. intros pre t o post E. destruct pre; discriminate E. Qed.
Definition mute (o : obs) : Prop := match o with OHook (HLog _) | OHook (HStepCompleted _) | OHook (HJobCompleted _) | OHook (HWorkflowCompleted _) => False | _ => True end.
Lemma mute_truthful evs t o : mute o -> truthful_event cx base evs t o.
Proof. destruct o as [[]| | | |]; cbn; try exact (fun _ => I); contradiction. Qed.

(** *** Steps *)
Definition rev_step (st : step) : obs := OHook (HRunStep (RunEvent st (cm_event (cx_matcher cx)) (cx_payload cx))).
Definition opened (evs : timed obs) (st : step) (a : time) : Prop := exists before tf mid,
  evs = before ++ (tf, rev_step st) :: mid /\ Forall (fun e => is_run_step (snd e) = false) mid /\ read_between base before a tf.
Lemma opened_snoc evs st a t o : opened evs st a -> is_run_step o = false -> opened (evs ++ [(t, o)]) st a.
Proof.
  intros (before & tf & mid & -> & Hm & Hr) Ho. exists before, tf, (mid ++ [(t, o)]). split; [rewrite <- app_assoc; reflexivity|]. split; [|exact Hr].
  apply Forall_app. split; [exact Hm|]. constructor; [exact Ho|constructor].
Qed.
Definition SI (evs : timed obs) (now : time) (c : list time) (p : step_phase) : Prop :=
  match p with
  | SpBefore _ | SpStarted _ => asc (c ++ [now])
  | SpRunEvent st t0 => read_between base evs t0 now /\ asc (c ++ [t0])
  | SpQueue st t0 | SpGetSignal st t0 | SpCall st t0 _ | SpCalling st t0 _ _ _ | SpInProgress st t0 _ _ _ | SpEnter st t0 _ _ _ | SpLoop st t0 _ _ _ _
  | SpGotLog st t0 _ _ _ _ | SpBroken st t0 _ _ _ | SpEnded st t0 _ _ => opened evs st t0 /\ asc (c ++ [t0]) /\ (t0 <= now)%N
  | SpDeliver st t0 _ _ _ wl => opened evs st t0 /\ asc (c ++ [t0]) /\ (t0 <= now)%N /\ read_between base evs (wl_time wl) now
  | SpTerminal r => exists st t0 t1, sr_id r = st_id st /\ sr_started_at r = Some t0 /\ sr_completed_at r = Some t1 /\ opened evs st t0 /\ upto t1 evs /\ (t1 <= now)%N /\ asc (c ++ [t0; t1])
  | SpComplete r => exists st t0 t1 evs' t2, sr_id r = st_id st /\ sr_started_at r = Some t0 /\ sr_completed_at r = Some t1 /\ evs = evs' ++ [(t2, step_state_event (sr_id r) (sr_state r))] /\
      opened evs' st t0 /\ upto t1 evs' /\ (t1 <= t2 <= now)%N /\ asc (c ++ [t0; t1])
  | SpDone r => asc (c ++ step_times r ++ [now])
  | SpPanic _ => True
  end.
Lemma SI_tick evs now now' c p : SI evs now c p -> (now <= now')%N -> SI evs now' c p.
Proof.
  intros H L. destruct p; cbn [SI] in *; auto.
  - eapply asc_raise; eassumption.
  - eapply asc_raise; eassumption.
  - destruct H as [H1 H2]. split; [eapply read_later; eassumption|exact H2].
  - destruct H as (H1 & H2 & H3). repeat split; auto; lia.
  - destruct H as (H1 & H2 & H3). repeat split; auto; lia.
  - destruct H as (H1 & H2 & H3). repeat split; auto; lia.
  - destruct H as (H1 & H2 & H3). repeat split; auto; lia.
  - destruct H as (H1 & H2 & H3). repeat split; auto; lia.
  - destruct H as (H1 & H2 & H3). repeat split; auto; lia.
  - destruct H as (H1 & H2 & H3). repeat split; auto; lia.
  - destruct H as (H1 & H2 & H3). repeat split; auto; lia.
  - destruct H as (H1 & H2 & H3 & H4). split; [exact H1|]. split; [exact H2|]. split; [lia|eapply read_later; eassumption].
  - destruct H as (H1 & H2 & H3). repeat split; auto; lia.
  - destruct H as (H1 & H2 & H3). repeat split; auto; lia.
  - destruct H as (st & t0 & t1 & H1 & H2 & H3 & H4 & H5 & H6 & H7). exists st, t0, t1. repeat (split; auto). lia.
  - destruct H as (st & t0 & t1 & evs' & t2 & H1 & H2 & H3 & H4 & H5 & H6 & H7 & H8). exists st, t0, t1, evs', t2. repeat (split; auto); lia.
  - rewrite app_assoc in *. eapply asc_raise; eassumption.
Qed.
(** One transition of a step emits at most one event. *)
Lemma step_times_ok me sh p op sh' p' o evs c : step_step cx me sh p op = Some (sh', p', o) ->
  (base <= sh_now sh)%N -> upto (sh_now sh) evs -> truthful evs -> SI evs (sh_now sh) c p ->
  sh_now sh' = sh_now sh /\ truthful (evs ++ map (fun x => (sh_now sh, x)) o) /\ SI (evs ++ map (fun x => (sh_now sh, x)) o) (sh_now sh) c p' /\
  upto (sh_now sh) (evs ++ map (fun x => (sh_now sh, x)) o).
Proof.
  intros E Hb Hu Ht H.
  assert (Quiet : sh_now sh' = sh_now sh -> o = [] -> SI evs (sh_now sh) c p' -> sh_now sh' = sh_now sh /\ truthful (evs ++ map (fun x => (sh_now sh, x)) o) /\ SI (evs ++ map (fun x => (sh_now sh, x)) o) (sh_now sh) c p' /\ upto (sh_now sh) (evs ++ map (fun x => (sh_now sh, x)) o)).
  { intros Hs -> K. cbn [map]. rewrite !app_nil_r. auto. }
  assert (Say : forall e, sh_now sh' = sh_now sh -> o = [e] -> truthful_event cx base evs (sh_now sh) e -> SI (evs ++ [(sh_now sh, e)]) (sh_now sh) c p' ->
    sh_now sh' = sh_now sh /\ truthful (evs ++ map (fun x => (sh_now sh, x)) o) /\ SI (evs ++ map (fun x => (sh_now sh, x)) o) (sh_now sh) c p' /\ upto (sh_now sh) (evs ++ map (fun x => (sh_now sh, x)) o)).
  { intros e Hs -> K1 K2. cbn [map]. split; [exact Hs|]. split; [apply truthful_snoc; assumption|]. split; [exact K2|]. apply upto_snoc. split; [exact Hu|lia]. }
  destruct p; destruct op as [|bc|ok| | | |ro]; cbn [step_step] in E; try discriminate E;
    try (destruct (runner_step ro sg str) as [sg' str']; injection E as <- <- <-; apply Quiet; [reflexivity|reflexivity|exact H]).
  - injection E as <- <- <-. apply Quiet; auto.
  - injection E as <- <- <-. apply Quiet; auto. cbn [SI] in *. split; [split; [exact Hb|split; [exact Hu|lia]]|exact H].
  - injection E as <- <- <-. destruct H as [[R1 [R2 R3]] H2]. eapply Say; [reflexivity|reflexivity|exact I|]. cbn [SI]. split; [|split; [exact H2|exact R3]].
    exists evs, (sh_now sh), []. split; [reflexivity|]. split; [constructor|]. repeat split; assumption.
  - injection E as <- <- <-. destruct H as (H1 & H2 & H3). eapply Say; [reflexivity|reflexivity|exact I|]. cbn [SI]. split; [|auto]. apply opened_snoc; auto.
  - destruct (lookup _ _) as [a|]; injection E as <- <- <-; apply Quiet; auto. exact I.
  - injection E as <- <- <-. destruct H as (H1 & H2 & H3). eapply Say; [reflexivity|reflexivity|exact I|]. cbn [SI]. split; [|auto]. apply opened_snoc; auto.
  - destruct ok; injection E as <- <- <-; apply Quiet; auto.
  - injection E as <- <- <-. destruct H as (H1 & H2 & H3). eapply Say; [reflexivity|reflexivity|exact I|]. cbn [SI]. split; [|auto]. apply opened_snoc; auto.
  - injection E as <- <- <-. apply Quiet; auto.
  - destruct (_ <=? _)%N; [|discriminate E]. injection E as <- <- <-. apply Quiet; auto.
  - destruct (sm_step (sh_sm sh) (MSignal a (OPoll me))) as [sm' so]. repeat match type of E with (match ?x with _ => _ end) = _ => destruct x; try discriminate E end; injection E as <- <- <-; apply Quiet; auto.
  - destruct (stream_poll me str) as [[str' []] w]; injection E as <- <- <-; apply Quiet; auto.
  - injection E as <- <- <-. apply Quiet; auto. destruct H as (H1 & H2 & H3). cbn [SI]. repeat (split; auto). cbn. lia.
  - injection E as <- <- <-. destruct H as (H1 & H2 & H3 & H4). eapply Say; [reflexivity|reflexivity|exact H4|]. cbn [SI]. split; [|auto]. apply opened_snoc; auto.
  - destruct (ss_result str); injection E as <- <- <-; apply Quiet; auto. exact I.
  - injection E as <- <- <-. apply Quiet; auto. destruct H as (H1 & H2 & H3). cbn [SI]. exists st, t0, (sh_now sh). repeat (split; auto); try (cbn; lia).
    change [t0; sh_now sh] with ([t0] ++ [sh_now sh]). apply asc_more; auto.
  - injection E as <- <- <-. destruct H as (st & t0 & t1 & H1 & H2 & H3 & H4 & H5 & H6 & H7). eapply Say; [reflexivity|reflexivity|exact I|].
    cbn [SI]. exists st, t0, t1, evs, (sh_now sh). repeat (split; auto); lia.
  - injection E as <- <- <-. destruct H as (st & t0 & t1 & evs' & t2 & H1 & H2 & H3 & -> & (before & tf & mid & -> & Hm & Hr) & H6 & H7 & H8).
    eapply Say; [reflexivity|reflexivity| |].
    + cbn [truthful_event]. exists t0, t1, st, before, tf, mid, t2. split; [exact H2|]. split; [exact H3|]. split; [auto|].
      split; [rewrite <- app_assoc; reflexivity|]. split; [exact Hm|]. split; [exact Hr|].
      unfold upto in H6. apply Forall_app in H6 as [_ H6]. inversion H6; subst. repeat split; auto; lia.
    + cbn [SI]. unfold step_times. rewrite H2, H3. cbn [app]. apply asc_last; [exact H8|lia].
Qed.

(** *** Jobs *)
Definition jopened (evs : timed obs) (j : job) (a : time) : Prop := exists before tf mid,
  evs = before ++ (tf, OHook (HRunJob (RunEvent j (cm_event (cx_matcher cx)) (cx_payload cx)))) :: mid /\ read_between base before a tf.
Lemma jopened_app evs j a more : jopened evs j a -> jopened (evs ++ more) j a.
Proof. intros (before & tf & mid & -> & Hr). exists before, tf, (mid ++ more). split; [rewrite <- app_assoc; reflexivity|exact Hr]. Qed.
Definition JI (j : job) (evs : timed obs) (now : time) (p : job_phase) : Prop :=
  match p with
  | JpCheck | JpFetch _ _ | JpSkip | JpStart | JpReturned _ => True
  | JpRegister t0 | JpRunEvent t0 => read_between base evs t0 now
  | JpInProgress t0 => jopened evs j t0 /\ (t0 <= now)%N
  | JpSteps t0 _ rs _ | JpStepFetch t0 _ rs _ _ _ _ | JpStepSkip t0 _ rs _ _ => jopened evs j t0 /\ asc (t0 :: flat_map step_times rs ++ [now])
  | JpStepRun t0 _ rs p _ => jopened evs j t0 /\ SI evs now (t0 :: flat_map step_times rs) p
  | JpEndState r => exists t0 t1, jr_id r = jb_id j /\ jr_started_at r = Some t0 /\ jr_completed_at r = Some t1 /\ jopened evs j t0 /\ upto t1 evs /\ (t1 <= now)%N /\
      asc (t0 :: flat_map step_times (jr_steps r) ++ [t1])
  | JpUnregister r | JpCompleted r => exists t0 t1 evs' t2, jr_id r = jb_id j /\ jr_started_at r = Some t0 /\ jr_completed_at r = Some t1 /\
      evs = evs' ++ [(t2, job_state_event (jr_id r) (jr_state r))] /\ jopened evs' j t0 /\ upto t1 evs' /\ (t1 <= t2 <= now)%N /\
      asc (t0 :: flat_map step_times (jr_steps r) ++ [t1])
  end.
Lemma JI_tick j evs now now' p : JI j evs now p -> (now <= now')%N -> JI j evs now' p.
Proof.
  intros H L. destruct p; cbn [JI] in *; auto.
  - eapply read_later; eassumption.
  - eapply read_later; eassumption.
  - destruct H as (H1 & H2). split; [exact H1|lia].
  - destruct H as (H1 & H2). split; [exact H1|]. rewrite app_comm_cons in *. eapply asc_raise; eassumption.
  - destruct H as (H1 & H2). split; [exact H1|]. rewrite app_comm_cons in *. eapply asc_raise; eassumption.
  - destruct H as (H1 & H2). split; [exact H1|]. rewrite app_comm_cons in *. eapply asc_raise; eassumption.
  - destruct H as (H1 & H2). split; [exact H1|]. eapply SI_tick; eassumption.
  - destruct H as (t0 & t1 & H1 & H2 & H3 & H4 & H5 & H6 & H7). exists t0, t1. repeat (split; auto). lia.
  - destruct H as (t0 & t1 & evs' & t2 & H1 & H2 & H3 & H4 & H5 & H6 & H7 & H8). exists t0, t1, evs', t2. repeat (split; auto); lia.
  - destruct H as (t0 & t1 & evs' & t2 & H1 & H2 & H3 & H4 & H5 & H6 & H7 & H8). exists t0, t1, evs', t2. repeat (split; auto); lia.
Qed.
Lemma job_times_ok me j sh p op sh' p' o evs : job_step glob cx me j sh p op = Some (sh', p', o) ->
  (base <= sh_now sh)%N -> upto (sh_now sh) evs -> truthful evs -> JI j evs (sh_now sh) p ->
  sh_now sh' = sh_now sh /\ truthful (evs ++ map (fun x => (sh_now sh, x)) o) /\ JI j (evs ++ map (fun x => (sh_now sh, x)) o) (sh_now sh) p' /\
  upto (sh_now sh) (evs ++ map (fun x => (sh_now sh, x)) o).
Proof.
  intros E Hb Hu Ht H.
  assert (Quiet : sh_now sh' = sh_now sh -> o = [] -> JI j evs (sh_now sh) p' -> sh_now sh' = sh_now sh /\ truthful (evs ++ map (fun x => (sh_now sh, x)) o) /\ JI j (evs ++ map (fun x => (sh_now sh, x)) o) (sh_now sh) p' /\ upto (sh_now sh) (evs ++ map (fun x => (sh_now sh, x)) o)).
  { intros Hs -> K. cbn [map]. rewrite !app_nil_r. auto. }
  assert (Say : forall e, sh_now sh' = sh_now sh -> o = [e] -> truthful_event cx base evs (sh_now sh) e -> JI j (evs ++ [(sh_now sh, e)]) (sh_now sh) p' ->
    sh_now sh' = sh_now sh /\ truthful (evs ++ map (fun x => (sh_now sh, x)) o) /\ JI j (evs ++ map (fun x => (sh_now sh, x)) o) (sh_now sh) p' /\ upto (sh_now sh) (evs ++ map (fun x => (sh_now sh, x)) o)).
  { intros e Hs -> K1 K2. cbn [map]. split; [exact Hs|]. split; [apply truthful_snoc; assumption|]. split; [exact K2|]. apply upto_snoc. split; [exact Hu|lia]. }
  destruct p as [|fc fev| | |t0|t0|t0|t0 js rs rest|t0 js rs st rest fc fev|t0 js rs st rest|t0 js rs sp rest|r|r|r|r]; destruct op as [|gh|sop]; cbn [job_step] in E; try discriminate E;
    try (destruct rest; discriminate E); try (destruct sp; discriminate E).
  - destruct (jb_on j) as [c|]; [|injection E as <- <- <-; apply Quiet; auto].
    destruct (is_match_first _ _ _ _) as [b|ev]; injection E as <- <- <-; [|apply Quiet; auto; exact I]. eapply Say; [reflexivity|reflexivity|exact I|]. destruct b; exact I.
  - destruct (is_match_second _ _ _ _) as [cache' b]. injection E as <- <- <-. eapply Say; [reflexivity|reflexivity|exact I|]. destruct b; exact I.
  - injection E as <- <- <-. eapply Say; [reflexivity|reflexivity|exact I|exact I].
  - injection E as <- <- <-. apply Quiet; auto. split; [exact Hb|split; [exact Hu|lia]].
  - injection E as <- <- <-. apply Quiet; auto.
  - injection E as <- <- <-. eapply Say; [reflexivity|reflexivity|exact I|]. cbn [JI]. destruct H as (R1 & R2 & R3). split; [|exact R3].
    exists evs, (sh_now sh), []. split; [reflexivity|]. repeat split; assumption.
  - injection E as <- <- <-. eapply Say; [reflexivity|reflexivity|exact I|]. cbn [JI]. destruct H as (H1 & H2). split; [apply jopened_app, H1|].
    cbn. constructor; [constructor; constructor|]. constructor; [exact H2|constructor].
  - destruct H as (H1 & H2). destruct rest as [|st rest].
    + injection E as <- <- <-. apply Quiet; auto. cbn [JI]. exists t0, (sh_now sh). repeat (split; auto). cbn. lia.
    + destruct (forced_skip js st); [injection E as <- <- <-; apply Quiet; auto; split; assumption|].
      destruct (st_on st) as [c|]; [|injection E as <- <- <-; apply Quiet; auto; split; assumption].
      destruct (is_match_first _ _ _ _) as [b|ev]; injection E as <- <- <-; [|apply Quiet; auto; split; assumption].
      eapply Say; [reflexivity|reflexivity|exact I|]. destruct b; (split; [apply jopened_app, H1|exact H2]).
  - destruct H as (H1 & H2). destruct (is_match_second _ _ _ _) as [cache' b]. injection E as <- <- <-. eapply Say; [reflexivity|reflexivity|exact I|]. destruct b; (split; [apply jopened_app, H1|exact H2]).
  - destruct H as (H1 & H2). injection E as <- <- <-. eapply Say; [reflexivity|reflexivity|exact I|]. cbn [JI]. split; [apply jopened_app, H1|].
    rewrite flat_map_app. cbn. rewrite app_nil_r. exact H2.
  - destruct sp; try discriminate E. destruct H as (H1 & H2). injection E as <- <- <-. apply Quiet; auto. cbn [JI]. split; [exact H1|].
    rewrite flat_map_app. cbn [flat_map]. rewrite app_nil_r, <- app_assoc. exact H2.
  - assert (K : match step_step cx me sh sp sop with Some (sh', sp', o) => Some (sh', JpStepRun t0 js rs sp' rest, o) | None => None end = Some (sh', p', o)) by (destruct sp; exact E || (destruct sop; discriminate E)).
    destruct (step_step cx me sh sp sop) as [[[sh1 sp1] o1]|] eqn:Es; [|discriminate K]. injection K as <- <- <-. destruct H as (H1 & H2).
    destruct (step_times_ok _ _ _ _ _ _ _ _ _ Es Hb Hu Ht H2) as (K1 & K2 & K3 & K4). split; [exact K1|]. split; [exact K2|]. split; [|exact K4]. cbn [JI]. split; [apply jopened_app, H1|exact K3].
  - injection E as <- <- <-. destruct H as (t0 & t1 & H1 & H2 & H3 & H4 & H5 & H6 & H7). eapply Say; [reflexivity|reflexivity|exact I|].
    cbn [JI]. exists t0, t1, evs, (sh_now sh). repeat (split; auto); lia.
  - injection E as <- <- <-. apply Quiet; auto.
  - injection E as <- <- <-. destruct H as (t0 & t1 & evs' & t2 & H1 & H2 & H3 & -> & (before & tf & mid & -> & Hr) & H6 & H7 & H8).
    eapply Say; [reflexivity|reflexivity| |exact I].
    cbn [truthful_event]. exists t0, t1, j, before, tf, mid, t2. split; [exact H2|]. split; [exact H3|]. split; [auto|].
    split; [rewrite <- app_assoc; reflexivity|]. split; [exact Hr|]. unfold upto in H6. apply Forall_app in H6 as [_ H6]. inversion H6; subst. split; [repeat split; auto; lia|].
    apply asc_sorted. exact H8.
Qed.

(** *** The workflow's own task *)
Variable wf : workflow.
Definition wopened (evs : timed obs) (a : time) : Prop := exists before tf mid,
  evs = before ++ (tf, OHook (HRunWorkflow (RunEvent wf (cm_event (cx_matcher cx)) (cx_payload cx)))) :: mid /\
  read_between base before a tf /\ Forall (fun e => is_spawn (snd e) = false) before.
Lemma wopened_app evs a more : wopened evs a -> wopened (evs ++ more) a.
Proof. intros (before & tf & mid & -> & Hr). exists before, tf, (mid ++ more). split; [rewrite <- app_assoc; reflexivity|exact Hr]. Qed.
Definition no_spawn (evs : timed obs) : Prop := Forall (fun e => is_spawn (snd e) = false) evs.
Lemma no_spawn_snoc evs t o : no_spawn evs -> is_spawn o = false -> no_spawn (evs ++ [(t, o)]).
Proof. intros H1 H2. apply Forall_app. split; [exact H1|constructor; [exact H2|constructor]]. Qed.
Definition MI (evs : timed obs) (now : time) (p : wphase) : Prop :=
  match p with
  | WpDone _ => True
  | WpCheck | WpFetch _ _ | WpSkip | WpStart => no_spawn evs
  | WpRunEvent t0 => read_between base evs t0 now /\ no_spawn evs
  | WpInProgress t0 | WpSpawn t0 _ _ _ | WpLoop t0 _ _ _ | WpScan t0 _ _ _ _ | WpBroken t0 _ _ => wopened evs t0
  | WpEndState r => exists t0 t1, wr_id r = wf_id wf /\ wr_started_at r = Some t0 /\ wr_completed_at r = Some t1 /\ wopened evs t0 /\ upto t1 evs /\ (t1 <= now)%N
  | WpEndDone r => exists t0 t1 evs' t2, wr_id r = wf_id wf /\ wr_started_at r = Some t0 /\ wr_completed_at r = Some t1 /\
      evs = evs' ++ [(t2, wf_state_event wf (wr_state r))] /\ wopened evs' t0 /\ upto t1 evs' /\ (t1 <= t2 <= now)%N
  end.
Lemma MI_tick evs now now' p : MI evs now p -> (now <= now')%N -> MI evs now' p.
Proof.
  intros H L. destruct p; cbn [MI] in *; auto.
  - split; [eapply read_later; [exact (proj1 H)|exact L]|exact (proj2 H)].
  - destruct H as (t0 & t1 & H1 & H2 & H3 & H4 & H5 & H6). exists t0, t1. repeat (split; auto). lia.
  - destruct H as (t0 & t1 & evs' & t2 & H1 & H2 & H3 & H4 & H5 & H6 & H7). exists t0, t1, evs', t2. repeat (split; auto); lia.
Qed.
Lemma main_times_ok s s' o evs : main_step glob cx wf s = Some (s', o) -> let now := sh_now (ws_sh s) in
  (base <= now)%N -> upto now evs -> truthful evs -> MI evs now (ws_main s) ->
  truthful (evs ++ map (fun x => (now, snd x)) o) /\ MI (evs ++ map (fun x => (now, snd x)) o) now (ws_main s') /\ upto now (evs ++ map (fun x => (now, snd x)) o).
Proof.
  intros E now Hb Hu Ht H.
  assert (Quiet : o = [] -> MI evs now (ws_main s') -> truthful (evs ++ map (fun x => (now, snd x)) o) /\ MI (evs ++ map (fun x => (now, snd x)) o) now (ws_main s') /\ upto now (evs ++ map (fun x => (now, snd x)) o)).
  { intros -> K. cbn [map]. rewrite !app_nil_r. auto. }
  assert (Say : forall w e, o = [(w, e)] -> truthful_event cx base evs now e -> MI (evs ++ [(now, e)]) now (ws_main s') ->
    truthful (evs ++ map (fun x => (now, snd x)) o) /\ MI (evs ++ map (fun x => (now, snd x)) o) now (ws_main s') /\ upto now (evs ++ map (fun x => (now, snd x)) o)).
  { intros w e -> K1 K2. cbn [map snd]. split; [apply truthful_snoc; assumption|]. split; [exact K2|]. apply upto_snoc. split; [exact Hu|lia]. }
  unfold main_step in E. destruct (ws_main s) as [|fc fev| | |t0|t0|t0 w wait rest|t0 w wait res|t0 w wait res todo|t0 w res|r|r|r] eqn:Em; cbn [MI] in H; try discriminate E.
  - destruct (wf_on wf) as [c|]; [|injection E as <- <-; apply Quiet; [reflexivity|exact H]].
    destruct (is_match_first _ _ _ _) as [b|ev]; injection E as <- <-; [|apply Quiet; [reflexivity|exact H]]. eapply Say; [reflexivity|exact I|]. destruct b; apply no_spawn_snoc; auto.
  - injection E as <- <-. eapply Say; [reflexivity|exact I|exact I].
  - injection E as <- <-. apply Quiet; [reflexivity|]. split; [split; [exact Hb|split; [exact Hu|apply N.le_refl]]|exact H].
  - injection E as <- <-. eapply Say; [reflexivity|exact I|]. exists evs, now, []. split; [reflexivity|]. exact H.
  - injection E as <- <-. eapply Say; [reflexivity|exact I|]. apply wopened_app, H.
  - destruct rest as [|[key j] rest]; [injection E as <- <-; apply Quiet; [reflexivity|exact H]|].
    destruct (has_deps j); injection E as <- <-; [apply Quiet; [reflexivity|exact H]|]. eapply Say; [reflexivity|exact I|]. apply wopened_app, H.
  - destruct (ws_chan s) as [|[key r] chan']; [discriminate E|]. injection E as <- <-. eapply Say; [reflexivity|exact I|]. cbn [ws_main]. destruct (Nat.eqb _ _); apply wopened_app, H.
  - destruct todo as [|[key j] todo]; [injection E as <- <-; apply Quiet; [reflexivity|exact H]|].
    destruct (ready res j); injection E as <- <-; [|apply Quiet; [reflexivity|exact H]]. eapply Say; [reflexivity|exact I|]. apply wopened_app, H.
  - injection E as <- <-. apply Quiet; [reflexivity|]. exists t0, now. repeat (split; auto). apply N.le_refl.
  - injection E as <- <-. destruct H as (t0 & t1 & H1 & H2 & H3 & H4 & H5 & H6). eapply Say; [reflexivity|exact I|]. cbn [MI ws_main set_main]. exists t0, t1, evs, now.
    split; [exact H1|]. split; [exact H2|]. split; [exact H3|]. split; [unfold wf_state_event; rewrite H1; reflexivity|]. split; [exact H4|]. split; [exact H5|]. split; [exact H6|apply N.le_refl].
  - injection E as <- <-. destruct H as (t0 & t1 & evs' & t2 & H1 & H2 & H3 & -> & (before & tf & mid & -> & Hr) & H6 & H7). eapply Say; [reflexivity| |exact I].
    cbn [truthful_event]. exists t0, t1, wf, before, tf, mid, t2. split; [exact H2|]. split; [exact H3|]. split; [auto|].
    split; [rewrite <- app_assoc; reflexivity|]. split; [exact (proj2 Hr)|]. split; [exact (proj1 Hr)|]. unfold upto in H6. apply Forall_app in H6 as [_ H6]. inversion H6; subst. repeat split; auto; lia.
Qed.
End P.
