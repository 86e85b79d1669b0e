From Verif Require Import Base Types Signals_model Signals_proof Stream_model Cond_model Plugins_model Exec_model Exec_spec Step_proof Job_proof Workflow_model Workflow_spec Workflow_proof Workflow_inv Workflow_term
  System_model System_spec System_proof System_flow Finish_spec Finish_proof Fleet_model Fleet_spec.

(** ** What one action does to the shared state. *)
Definition mild (P : job_id -> Prop) (e : env_op) : Prop :=
  match e with
  | ECache _ | ESig (MSignal _ (OPoll _)) => True
  | ESig (MRegister id) | ESig (MUnregister id) => P id
  | _ => False
  end.
Lemma mild_quiet P e : mild P e -> ~ raises e /\ (forall c j, e <> ESig (MCancelGet c j)) /\ forall id, enters id e -> P id.
Proof.
  destruct e as [d|[j|j|c j|c|a [| | | |t]]|c]; cbn; intros H; try contradiction; (split; [tauto|]); (split; [discriminate|]); intros id [E|E]; try discriminate E; injection E as <-; exact H.
Qed.
(** The job is in the table of running jobs, or has been. *)
Definition entered (p : job_phase) : bool := match p with JpRunEvent _ | JpInProgress _ | JpSteps _ _ _ _ | JpStepFetch _ _ _ _ _ _ _ | JpStepSkip _ _ _ _ _ | JpStepRun _ _ _ _ _ => true | _ => false end.
Lemma job_effect glob cx me j ls sh p tr op sh' p' o : jrun glob cx me j ls sh p tr -> job_step glob cx me j sh p op = Some (sh', p', o) ->
  exists es, sh' = env_steps sh es /\ Forall (mild (fun id => id = jb_id j)) es /\ (entered p' = true -> entered p = true \/ In (ESig (MRegister (jb_id j))) es).
Proof.
  intros R E. apply jrun_inv in R.
  assert (Nil : (entered p' = true -> entered p = true) -> exists es, sh = env_steps sh es /\ Forall (mild (fun id => id = jb_id j)) es /\ (entered p' = true -> entered p = true \/ In (ESig (MRegister (jb_id j))) es)).
  { intros Hq. exists []. split; [reflexivity|]. split; [constructor|auto]. }
  assert (One : forall e, mild (fun id => id = jb_id j) e -> (entered p' = true -> entered p = true \/ e = ESig (MRegister (jb_id j))) ->
    exists es, env_step sh e = env_steps sh es /\ Forall (mild (fun id => id = jb_id j)) es /\ (entered p' = true -> entered p = true \/ In (ESig (MRegister (jb_id j))) es)).
  { intros e He Hq. exists [e]. split; [reflexivity|]. split; [repeat constructor; exact He|]. intros Hp. destruct (Hq Hp) as [Hx| ->]; [auto|right; left; reflexivity]. }
  unfold job_step in E. destruct p as [|c ev| | |t0|t0|t0|t0 js rs rest|t0 js rs st rest c ev|t0 js rs st rest|t0 js rs sp rest|r|r|r|r];
    destruct op as [|gh|sop]; try discriminate E; try (destruct rest; discriminate E); try (injection E as <- <- <-; apply Nil; cbn; auto; discriminate).
  - destruct (jb_on j); [destruct (is_match_first _ _ _ _) as [[]|]|]; injection E as <- <- <-; apply Nil; cbn; auto.
  - destruct (is_match_second _ _ _ _) as [c' []]; injection E as <- <- <-; apply (One (ECache c')); cbn; auto.
  - injection E as <- <- <-. apply (One (ESig (MRegister (jb_id j)))); cbn; auto.
  - destruct rest as [|st rest]; [|destruct (forced_skip js st); [|destruct (st_on st); [destruct (is_match_first _ _ _ _) as [[]|]|]]]; injection E as <- <- <-; apply Nil; cbn; auto.
  - destruct (is_match_second _ _ _ _) as [c' []]; injection E as <- <- <-; apply (One (ECache c')); cbn; auto.
  - destruct sp; try discriminate E; injection E as <- <- <-; apply Nil; cbn; auto.
  - destruct sp; discriminate E.
  - assert (E' : match step_step cx me sh sp sop with
             | Some (sh'0, sp', o) => Some (sh'0, JpStepRun t0 js rs sp' rest, o) | None => None end = Some (sh', p', o))
          by (destruct sp; exact E). clear E.
    destruct (step_step cx me sh sp sop) as [[[sh1 sp1] o1]|] eqn:Es; [|discriminate]. injection E' as <- <- <-.
    apply step_as_env in Es as [->|[a ->]]; [apply Nil; cbn; auto|]. apply (One (ESig (MSignal a (OPoll me)))); cbn; auto.
  - injection E as <- <- <-. cbn in R. destruct R as (tr' & (chk & evs & t0 & t1 & _ & _ & _ & _ & _ & Hid & _) & _).
    apply (One (ESig (MUnregister (jr_id r)))); [exact Hid|discriminate].
Qed.

Section G.
Context {T iop iobs : Type}.
Variable R : rside T iop iobs.
Variable glob : glob_oracle.
Variable cx : ectx.
Variable wf : workflow.
Hypothesis F : faithful R cx.
Hypothesis Hnd : NoDup (keys (wf_jobs wf)).
Lemma sys_effect sh0 ops s tr op s' o : sysrun R glob cx wf sh0 ops s tr -> sysstep R glob cx wf s op = Some (s', o) -> is_env op = false ->
  exists es, ws_sh (sy_w s') = env_steps (ws_sh (sy_w s)) es /\ Forall (mild (fun id => job_of wf id /\ job_action op = true)) es /\
    forall i t, nth_error (ws_tasks (sy_w s')) i = Some t -> entered (tk_phase t) = true ->
      (exists t0, nth_error (ws_tasks (sy_w s)) i = Some t0 /\ tk_job t0 = tk_job t /\ entered (tk_phase t0) = true) \/ In (ESig (MRegister (jb_id (tk_job t)))) es.
Proof.
  intros Hr E Hne.
  destruct (flow_run R glob cx wf F _ _ _ _ Hr) as (wls & W & _).
  destruct op as [wo|i io|k io]; cbn [sysstep] in E.
  - destruct (is_step_op wo) eqn:Hs; [discriminate|]. destruct (wstep glob cx wf (sy_w s) wo) as [[w' wtr]|] eqn:Ew; [|discriminate].
    assert (K : sy_w s' = w') by (destruct (step_over (sy_w s) wo) as [[i p]|]; injection E as <- _; reflexivity). rewrite K. clear E K.
    destruct wo as [|gh|i jo|i|e]; [| | | |discriminate Hne]; cbn [wstep] in Ew.
    + exists []. rewrite (main_sh glob cx wf _ _ _ Ew). split; [reflexivity|]. split; [constructor|]. intros i t Ht He. left.
      apply main_tasks in Ew as [[Ew _]|(kj & Ew & _)]; rewrite Ew in Ht; [eauto|]. destruct (Nat.lt_ge_cases i (length (ws_tasks (sy_w s)))) as [L|L]; [rewrite nth_error_app1 in Ht by exact L; eauto|].
      rewrite nth_error_app2 in Ht by exact L. apply nth_error_In in Ht as [<-|[]]. discriminate He.
    + destruct (ws_main (sy_w s)); try discriminate Ew. destruct (is_match_second _ _ _ _) as [ca b]. injection Ew as <- _. exists [ECache ca]. split; [reflexivity|]. split; [repeat constructor|]. eauto.
    + destruct (nth_error (ws_tasks (sy_w s)) i) as [t|] eqn:Et; [|discriminate]. destruct (job_step _ _ _ _ _ _ _) as [[[sh' p'] jo']|] eqn:Ej; [|discriminate]. injection Ew as <- _.
      destruct (tasks_run_inv glob cx wf _ _ _ W) as [TR _]. destruct (TR i t Et) as (jls & J & _).
      destruct (job_effect _ _ _ _ _ _ _ _ _ _ _ _ J Ej) as (es & H1 & H2 & H3). exists es. split; [exact H1|]. split.
      * eapply Forall_impl; [|exact H2].
        assert (Hj : job_of wf (jb_id (tk_job t))).
        { destruct (winv glob cx wf Hnd _ _ _ W) as [_ [_ T2 _ _]]. exists (tk_key t), (tk_job t). split; [apply T2, (nth_error_In _ _ Et)|reflexivity]. }
        intros e. destruct e as [d|[x|x|c x|c|a [| | | |t']]|c]; cbn; auto; intros ->; auto.
      * intros k t' Ht' He. cbn [ws_tasks] in Ht'. destruct (Nat.eq_dec k i) as [->|Hki]; [|rewrite list_set_ne in Ht' by exact Hki; eauto].
        rewrite (list_set_eq _ _ _ _ Et) in Ht'. injection Ht' as <-. cbn [tk_phase tk_job set_phase] in *. destruct (H3 He) as [H|H]; [left; eauto|right; exact H].
    + destruct (nth_error (ws_tasks (sy_w s)) i) as [[key j p b]|] eqn:Et; [|discriminate]. destruct p; try discriminate Ew. destruct b; [discriminate|].
      assert (K : ws_tasks w' = list_set i (WTask key j (JpReturned r) true) (ws_tasks (sy_w s)) /\ ws_sh w' = ws_sh (sy_w s)).
      { destruct (ws_main (sy_w s)); try (destruct (Nat.ltb _ _); [|discriminate Ew]); injection Ew as <- _; split; reflexivity. }
      destruct K as [K1 K2]. exists []. rewrite K2. split; [reflexivity|]. split; [constructor|]. rewrite K1. intros k t' Ht' He. left.
      destruct (Nat.eq_dec k i) as [->|Hki]; [|rewrite list_set_ne in Ht' by exact Hki; eauto]. rewrite (list_set_eq _ _ _ _ Et) in Ht'. injection Ht' as <-. discriminate He.
  - destruct (nth_error (ws_tasks (sy_w s)) i) as [t|] eqn:Et; [|discriminate]. destruct (nth_error (sy_cur s) i) as [x|] eqn:Ex; [|discriminate].
    destruct (tk_phase t) as [| | | | | | | | | |t0 js rs sp rest| | | |] eqn:Ep; try discriminate E.
    destruct (rs_step R (S i) (ws_sh (sy_w s)) sp x io) as [[[[sh' sp'] x'] out]|] eqn:Es; [|discriminate E]. injection E as <- <-. cbn [sy_w ws_sh ws_tasks].
    assert (Q : forall k t', nth_error (list_set i (set_phase t (JpStepRun t0 js rs sp' rest)) (ws_tasks (sy_w s))) k = Some t' -> entered (tk_phase t') = true ->
      exists t1, nth_error (ws_tasks (sy_w s)) k = Some t1 /\ tk_job t1 = tk_job t' /\ entered (tk_phase t1) = true).
    { intros k t' Ht' He. destruct (Nat.eq_dec k i) as [->|Hki]; [|rewrite list_set_ne in Ht' by exact Hki; eauto]. rewrite (list_set_eq _ _ _ _ Et) in Ht'. injection Ht' as <-. exists t. rewrite Ep. auto. }
    apply F in Es as [(-> & _)|[sop Es]]; [exists []; split; [reflexivity|]; split; [constructor|]; intros k t' H1 H2; left; eauto|].
    apply step_as_env in Es as [->|[a ->]]; [exists []; split; [reflexivity|]; split; [constructor|]; intros k t' H1 H2; left; eauto|].
    exists [ESig (MSignal a (OPoll (S i)))]. split; [reflexivity|]. split; [repeat constructor|]. intros k t' H1 H2; left; eauto.
  - destruct (nth_error (sy_past s) k) as [[i [[sh p] x]]|] eqn:Ek; [|discriminate].
    destruct (rs_step R (S i) sh p x io) as [[[[sh' p'] x'] out]|] eqn:Es; [|discriminate E]. injection E as <- <-. exists []. split; [reflexivity|]. split; [constructor|]. eauto.
Qed.
End G.

(** Effects without the cache. *)
Definition not_cache (e : env_op) : bool := match e with ECache _ => false | _ => true end.
Lemma envs_parts es : forall sh ca, sh_now (env_steps (set_cache ca sh) (filter not_cache es)) = sh_now (env_steps sh es) /\
  sh_sm (env_steps (set_cache ca sh) (filter not_cache es)) = sh_sm (env_steps sh es) /\ sh_cache (env_steps (set_cache ca sh) (filter not_cache es)) = ca.
Proof.
  induction es as [|e es IH]; intros sh ca; [repeat split|]. destruct e as [d|o|c]; cbn [filter not_cache].
  - apply (IH (env_step sh (ETick d)) ca).
  - apply (IH (env_step sh (ESig o)) ca).
  - destruct (IH (set_cache c sh) ca) as (H1 & H2 & H3). split; [exact H1|]. split; [exact H2|exact H3].
Qed.

Section P.
Context {T iop iobs : Type}.
Variable R : ectx -> rside T iop iobs.
Variable glob : glob_oracle.
Hypothesis F : forall cx, faithful (R cx) cx.
Notation fstep := (fstep R glob).
Notation fleet_run := (fleet_run R glob).

Lemma sysrun_envs cx wf es : forall sh0 ops s tr, sysrun (R cx) glob cx wf sh0 ops s tr ->
  sysrun (R cx) glob cx wf sh0 (ops ++ map (fun e => YFlow (WEnv e)) es) (System (WState (env_steps (ws_sh (sy_w s)) es) (ws_main (sy_w s)) (ws_tasks (sy_w s)) (ws_chan (sy_w s))) (sy_cur s) (sy_past s)) tr.
Proof.
  induction es as [|e es IH]; intros sh0 ops s tr H; cbn [map env_steps].
  - rewrite app_nil_r. destruct s as [[a b c d] cur past]. exact H.
  - change (YFlow (WEnv e) :: map (fun e => YFlow (WEnv e)) es) with ([YFlow (WEnv e)] ++ map (fun e => @YFlow iop (WEnv e)) es). rewrite app_assoc.
    assert (H1 : sysrun (R cx) glob cx wf sh0 (ops ++ [YFlow (WEnv e)]) (System (WState (env_step (ws_sh (sy_w s)) e) (ws_main (sy_w s)) (ws_tasks (sy_w s)) (ws_chan (sy_w s))) (sy_cur s) (sy_past s)) (tr ++ [])).
    { assert (I := sys_inv (R cx) glob cx wf (F cx) _ _ _ _ H). destruct (si_len _ _ _ _ _ I). eapply sysrun_step; [exact H|]. cbn [sysstep is_step_op wstep step_over]. rewrite pad_eq; [|apply (si_len _ _ _ _ _ I)].
      rewrite app_nil_r. reflexivity. }
    rewrite app_nil_r in H1. exact (IH _ _ _ _ H1).
Qed.
Definition env_ops (es : list env_op) : list (sysop (iop := iop)) := map (fun e => YFlow (WEnv e)) es.
Lemma env_ops_none es : filter (fun op : sysop (iop := iop) => negb (is_env op)) (env_ops es) = [].
Proof. induction es; [reflexivity|assumption]. Qed.

Lemma run_ops_app k a b : run_ops (iop := iop) k (a ++ b) = run_ops k a ++ run_ops k b.
Proof. apply flat_map_app. Qed.
Lemma run_events_app k a b : run_events (iobs := iobs) k (a ++ b) = run_events k a ++ run_events k b.
Proof. unfold run_events. rewrite filter_app, map_app. reflexivity. Qed.
Lemma run_events_same k o : run_events (iobs := iobs) k (map (fun x => (k, x)) o) = o.
Proof. unfold run_events. induction o as [|x o IH]; [reflexivity|]. cbn [map filter fst]. rewrite Nat.eqb_refl. cbn [map snd]. f_equal. exact IH. Qed.
Lemma run_events_other k k' o : k' <> k -> run_events (iobs := iobs) k (map (fun x => (k', x)) o) = [].
Proof. intros H. unfold run_events. induction o as [|x o IH]; [reflexivity|]. cbn [map filter fst]. rewrite (proj2 (Nat.eqb_neq _ _) H). exact IH. Qed.

Definition placed (ops : list (fop (iop := iop))) (f : @fleet T) (tr : list (nat * sysobs (iobs := iobs))) : Prop :=
  (forall k r, nth_error (fl_runs f) k = Some r -> fr_ctx r < length (fl_ctx f)) /\ forall k, length (fl_runs f) <= k -> run_ops k ops = [] /\ run_events k tr = [].
Lemma placed_run now ops f tr : fleet_run now ops f tr -> placed ops f tr.
Proof.
  induction 1 as [|ops f tr op f' o Hr [I1 I2] E]; [split; [intros [|k]; discriminate|split; reflexivity]|].
  assert (Same : fl_ctx f' = fl_ctx f -> fl_runs f' = fl_runs f -> o = [] -> (forall k, run_ops k [op] = []) -> placed (ops ++ [op]) f' (tr ++ o)).
  { intros E1 E2 -> E3. split; [rewrite E1, E2; exact I1|]. rewrite E2, app_nil_r. intros k Hk. rewrite run_ops_app, E3, app_nil_r. auto. }
  destruct op as [cx0|c wf0|k0 op0|d|c j|c]; cbn [Fleet_model.fstep] in E.
  - injection E as <- <-. split; cbn [fl_runs fl_ctx].
    + intros k r Hk. rewrite app_length. specialize (I1 k r Hk). cbn. lia.
    + intros k Hk. rewrite run_ops_app, app_nil_r. destruct (I2 k Hk) as [E1 E2]. rewrite E1. split; [reflexivity|]. rewrite ?app_nil_r in *. exact E2.
  - destruct (nth_error (fl_ctx f) c) as [[cx ca]|] eqn:Ec; [|discriminate]. injection E as <- <-. split; cbn [fl_runs fl_ctx].
    + intros k r Hk. destruct (Nat.lt_ge_cases k (length (fl_runs f))) as [Hl|Hl]; [rewrite nth_error_app1 in Hk by exact Hl; apply (I1 k r Hk)|].
      rewrite nth_error_app2 in Hk by exact Hl. apply nth_error_In in Hk as [<-|[]]. cbn [fr_ctx]. apply nth_error_Some. congruence.
    + intros k Hk. rewrite app_length in Hk. cbn in Hk. rewrite run_ops_app, app_nil_r. destruct (I2 k) as [E1 E2]; [lia|]. rewrite E1. split; [reflexivity|]. rewrite ?app_nil_r in *. exact E2.
  - destruct (nth_error (fl_runs f) k0) as [r0|] eqn:Ek; [|discriminate]. destruct (nth_error (fl_ctx f) (fr_ctx r0)) as [[cx ca]|] eqn:Ec; [|discriminate].
    destruct (is_env op0); [discriminate|]. destruct (sysstep _ _ _ _ _ _) as [[s' o']|]; [|discriminate]. injection E as <- <-. split; cbn [fl_runs fl_ctx].
    + intros k r Hk. rewrite list_set_length. destruct (Nat.eq_dec k k0) as [->|Hne].
      * rewrite (list_set_eq _ _ _ _ Ek) in Hk. injection Hk as <-. apply (I1 k0 r0 Ek).
      * rewrite list_set_ne in Hk by exact Hne. apply (I1 k r Hk).
    + intros k Hk. rewrite list_set_length in Hk. rewrite run_ops_app, run_events_app. destruct (I2 k Hk) as [E1 E2]. rewrite E1, E2.
      assert (Hl : k0 < length (fl_runs f)) by (apply nth_error_Some; congruence). rewrite run_events_other by lia. cbn. rewrite (proj2 (Nat.eqb_neq k0 k)) by lia. split; reflexivity.
  - injection E as <- <-. apply Same; reflexivity.
  - injection E as <- <-. apply Same; reflexivity.
  - injection E as <- <-. apply Same; reflexivity.
Qed.

Lemma settle_same (s : @system T) : settle (sh_now (ws_sh (sy_w s))) (sh_sm (ws_sh (sy_w s))) (sh_cache (ws_sh (sy_w s))) s = s.
Proof. destruct s as [[[a b c] m t ch] cur past]. reflexivity. Qed.
Lemma env_ops_in e es : In (@YFlow iop (WEnv e)) (env_ops es) <-> In e es.
Proof. unfold env_ops. rewrite in_map_iff. split; [intros (x & [= ->] & H); exact H|eauto]. Qed.

(** The part of a history since a run was started. *)
Fixpoint starts (ops : list (fop (iop := iop))) : nat := match ops with [] => 0 | FStart _ _ :: r => S (starts r) | _ :: r => starts r end.
Lemma starts_app a b : starts (a ++ b) = starts a + starts b.
Proof. induction a as [|[] a IH]; cbn [app starts]; rewrite ?IH; reflexivity. Qed.
Lemma since_started a : forall k b, k < starts a -> since k (a ++ b) = since k a ++ b.
Proof. induction a as [|op a IH]; intros k b H; [cbn in H; lia|]. destruct op; cbn [app since starts] in *; try (apply IH; exact H). destruct k as [|k]; [reflexivity|]. apply IH. lia. Qed.
Lemma since_begins a : forall k c wf0, starts a = k -> since k (a ++ [FStart c wf0]) = [].
Proof. induction a as [|op a IH]; intros k c wf0 <-; [reflexivity|]. destruct op; cbn [app since starts]; apply IH; reflexivity. Qed.
Lemma starts_run now ops f tr : fleet_run now ops f tr -> starts ops = length (fl_runs f).
Proof.
  induction 1 as [|ops f tr op f' o Hr IH E]; [reflexivity|]. rewrite starts_app, IH. clear IH Hr. destruct op as [cx0|c wf0|k0 op0|d|c j|c]; cbn [Fleet_model.fstep starts] in *; try (injection E as <- <-; cbn [fl_runs]; apply Nat.add_0_r).
  - destruct (nth_error (fl_ctx f) c) as [[cx ca]|]; [|discriminate]. injection E as <- <-. cbn [fl_runs]. rewrite app_length. reflexivity.
  - destruct (nth_error (fl_runs f) k0) as [r0|] eqn:Ek; [|discriminate]. destruct (nth_error (fl_ctx f) (fr_ctx r0)) as [[cx ca]|]; [|discriminate].
    destruct (is_env op0); [discriminate|]. destruct (sysstep _ _ _ _ _ _) as [[s' o']|]; [|discriminate]. injection E as <- <-. cbn [fl_runs]. rewrite list_set_length. apply Nat.add_0_r.
Qed.

(** How a run began. *)
Definition began (now : time) (ops : list (fop (iop := iop))) (f : @fleet T) (k : nat) (sh0 : shared) : Prop :=
  exists ops0 c wf0 f0 tr0 ca, fleet_run now ops0 f0 tr0 /\ ops = ops0 ++ FStart c wf0 :: since k ops /\ sh0 = Shared (fl_now f0) (fl_sm f0) ca /\ length (fl_runs f0) = k /\
    forall k' r, nth_error (fl_runs f0) k' = Some r -> exists r', nth_error (fl_runs f) k' = Some r' /\ fr_wf r' = fr_wf r.
Lemma grows f op f' o : fstep f op = Some (f', o) -> forall k' r, nth_error (fl_runs f) k' = Some r -> exists r', nth_error (fl_runs f') k' = Some r' /\ fr_wf r' = fr_wf r.
Proof.
  intros E k' r H. destruct op as [cx0|c wf0|k0 op0|d|c j|c]; cbn [Fleet_model.fstep] in E; try (injection E as <- <-; exists r; auto).
  - destruct (nth_error (fl_ctx f) c) as [[cx0 ca0]|]; [|discriminate]. injection E as <- <-. exists r. cbn [fl_runs]. rewrite nth_error_app1; [auto|apply nth_error_Some; congruence].
  - destruct (nth_error (fl_runs f) k0) as [r0|] eqn:Ek0; [|discriminate]. destruct (nth_error (fl_ctx f) (fr_ctx r0)) as [[cx0 ca0]|]; [|discriminate].
    destruct (is_env op0); [discriminate|]. destruct (sysstep _ _ _ _ _ _) as [[s' o']|]; [|discriminate]. injection E as <- <-. cbn [fl_runs].
    destruct (Nat.eq_dec k' k0) as [->|Hne]; [|exists r; rewrite list_set_ne by exact Hne; auto]. rewrite Ek0 in H. injection H as <-. eexists. split; [apply (list_set_eq _ _ _ _ Ek0)|reflexivity].
Qed.
Lemma began_step now ops f k sh0 op f' o : k < starts ops -> fstep f op = Some (f', o) -> began now ops f k sh0 -> began now (ops ++ [op]) f' k sh0.
Proof.
  intros Hl E (ops0 & c & wf0 & f0 & tr0 & ca & H1 & H2 & H3 & H4 & H5). exists ops0, c, wf0, f0, tr0, ca. split; [exact H1|]. split; [|split; [exact H3|split; [exact H4|]]].
  - rewrite since_started by exact Hl. rewrite H2 at 1. rewrite <- app_assoc. reflexivity.
  - intros k' r H. destruct (H5 k' r H) as (r1 & G1 & G2). destruct (grows _ _ _ _ E _ _ G1) as (r2 & G3 & G4). exists r2. split; [exact G3|congruence].
Qed.

(** Runs of which every action of every run satisfies [Q] (of the run's number, its context, its state and the action). *)
Inductive fleet_watched (Q : nat -> ectx -> @system T -> sysop (iop := iop) -> Prop) (now : time) : list (fop (iop := iop)) -> @fleet T -> list (nat * sysobs (iobs := iobs)) -> Prop :=
| fwatched_init : fleet_watched Q now [] (finit now) []
| fwatched_step ops f tr op f' o : fleet_watched Q now ops f tr -> fstep f op = Some (f', o) ->
    (forall k so r cx ca, op = FRunOp k so -> nth_error (fl_runs f) k = Some r -> nth_error (fl_ctx f) (fr_ctx r) = Some (cx, ca) -> Q k cx (settle (fl_now f) (fl_sm f) ca (fr_sys r)) so) ->
    fleet_watched Q now (ops ++ [op]) f' (tr ++ o).
Inductive sys_watched (Q : @system T -> sysop (iop := iop) -> Prop) (cx : ectx) (wf : workflow) (sh0 : shared) : list (sysop (iop := iop)) -> @system T -> list (sysobs (iobs := iobs)) -> Prop :=
| swatched_init : sys_watched Q cx wf sh0 [] (System (winit sh0) [] []) []
| swatched_step ops s tr op s' o : sys_watched Q cx wf sh0 ops s tr -> sysstep (R cx) glob cx wf s op = Some (s', o) -> (is_env op = false -> Q s op) -> sys_watched Q cx wf sh0 (ops ++ [op]) s' (tr ++ o).
Lemma fwatched_run Q now ops f tr : fleet_watched Q now ops f tr -> fleet_run now ops f tr.
Proof. induction 1; econstructor; eassumption. Qed.
Lemma swatched_run Q cx wf sh0 ops s tr : sys_watched Q cx wf sh0 ops s tr -> sysrun (R cx) glob cx wf sh0 ops s tr.
Proof. induction 1; econstructor; eassumption. Qed.
Lemma fleet_any now ops f tr : fleet_run now ops f tr -> fleet_watched (fun _ _ _ _ => True) now ops f tr.
Proof. induction 1; econstructor; eauto. Qed.
Lemma swatched_envs Q cx wf es : forall sh0 ops s tr, sys_watched Q cx wf sh0 ops s tr ->
  sys_watched Q cx wf sh0 (ops ++ env_ops es) (System (WState (env_steps (ws_sh (sy_w s)) es) (ws_main (sy_w s)) (ws_tasks (sy_w s)) (ws_chan (sy_w s))) (sy_cur s) (sy_past s)) tr.
Proof.
  unfold env_ops. induction es as [|e es IH]; intros sh0 ops s tr H; cbn [map env_steps].
  - rewrite app_nil_r. destruct s as [[a b c d] cur past]. exact H.
  - change (YFlow (WEnv e) :: map (fun e => YFlow (WEnv e)) es) with ([YFlow (WEnv e)] ++ map (fun e => @YFlow iop (WEnv e)) es). rewrite app_assoc.
    assert (H1 : sys_watched Q cx wf sh0 (ops ++ [YFlow (WEnv e)]) (System (WState (env_step (ws_sh (sy_w s)) e) (ws_main (sy_w s)) (ws_tasks (sy_w s)) (ws_chan (sy_w s))) (sy_cur s) (sy_past s)) (tr ++ [])).
    { assert (I := sys_inv (R cx) glob cx wf (F cx) _ _ _ _ (swatched_run _ _ _ _ _ _ _ H)). destruct (si_len _ _ _ _ _ I). eapply swatched_step; [exact H| |discriminate]. cbn [sysstep is_step_op wstep step_over]. rewrite pad_eq; [|apply (si_len _ _ _ _ _ I)].
      rewrite app_nil_r. reflexivity. }
    rewrite app_nil_r in H1. exact (IH _ _ _ _ H1).
Qed.
Lemma projection_watched Q now ops f tr : fleet_watched Q now ops f tr -> named f -> forall k cx wf s, run_at f k cx wf s ->
  exists sh0 ops', sys_watched (Q k cx) cx wf sh0 ops' s (run_events k tr) /\ filter (fun op => negb (is_env op)) ops' = run_ops k ops /\
    (forall e, In (YFlow (WEnv e)) ops' -> from_others ops f k e) /\ began now ops f k sh0.
Proof.
  induction 1 as [|ops f tr op f' o Hw0 IH E HQ]; intros Hn k cx wf s (r & ca & Hk & Hc & Hw & Hs); [destruct k; discriminate Hk|]. assert (Hr := fwatched_run _ _ _ _ _ Hw0).
  destruct (placed_run _ _ _ _ Hr) as [Pl1 Pl2]. assert (St := starts_run _ _ _ _ Hr). assert (Be := fun Hl sh0 => began_step now ops f k sh0 op f' o Hl E).
  assert (Lk : forall r0, nth_error (fl_runs f) k = Some r0 -> k < starts ops) by (intros r0 H0; rewrite St; apply nth_error_Some; congruence).
  rewrite run_ops_app, run_events_app.
  assert (Mono : forall e, (forall k' r', k' <> k -> nth_error (fl_runs f) k' = Some r' -> exists r'', nth_error (fl_runs f') k' = Some r'' /\ fr_wf r'' = fr_wf r') -> k < starts ops -> from_others ops f k e -> from_others (ops ++ [op]) f' k e).
  { intros e Hm Hl [(d & -> & H)|[(c & j & -> & H)|[(c & -> & H)|(H & H' & k' & r' & op' & H1 & H2 & H3 & H4)]]]; unfold from_others; rewrite since_started by exact Hl.
    - left. exists d. split; [reflexivity|]. apply in_or_app; auto.
    - right; left. exists c, j. split; [reflexivity|]. apply in_or_app; auto.
    - right; right; left. exists c. split; [reflexivity|]. apply in_or_app; auto.
    - right; right; right. split; [exact H|]. split; [exact H'|]. destruct (Hm _ _ H1 H2) as (r'' & H5 & H6). exists k', r'', op'. split; [exact H1|]. split; [exact H5|]. rewrite H6. split; [|exact H4]. rewrite run_ops_app. apply in_or_app; auto. }
  (* an action that changes the shared state by [e] and nothing else *)
  assert (Plain : forall e, fl_runs f' = fl_runs f -> fl_ctx f' = fl_ctx f -> o = [] -> (forall k', run_ops k' [op] = []) -> (k < starts ops -> from_others (ops ++ [op]) f' k e) ->
    (forall ca, env_step (Shared (fl_now f) (fl_sm f) ca) e = Shared (fl_now f') (fl_sm f') ca) ->
    exists sh0 ops', sys_watched (Q k cx) cx wf sh0 ops' s (run_events k tr ++ run_events k o) /\ filter (fun op => negb (is_env op)) ops' = run_ops k ops ++ run_ops k [op] /\ (forall e, In (YFlow (WEnv e)) ops' -> from_others (ops ++ [op]) f' k e) /\ began now (ops ++ [op]) f' k sh0).
  { intros e Er Ec -> Eo Fo Ee. rewrite Er in Hk. rewrite Ec in Hc. rewrite Eo. cbn [run_events filter map]. rewrite !app_nil_r.
    assert (Hn' : named f) by (intros k0 r0 H0; apply (Hn k0 r0); rewrite Er; exact H0).
    destruct (IH Hn' k cx wf (settle (fl_now f) (fl_sm f) ca (fr_sys r))) as (sh0 & ops' & H1 & H2 & H3 & HB); [exists r, ca; auto|].
    exists sh0, (ops' ++ env_ops [e]). split; [|split; [|split; [|exact (Be (Lk _ Hk) _ HB)]]].
    - assert (X := swatched_envs _ cx wf [e] _ _ _ _ H1). cbn [settle sy_w ws_sh ws_main ws_tasks ws_chan sy_cur sy_past env_steps fold_left] in X. rewrite (Ee ca) in X. rewrite Hs. exact X.
    - rewrite filter_app, env_ops_none, app_nil_r. exact H2.
    - intros e' He'. apply in_app_iff in He' as [He'|[He'|[]]]; [|injection He' as <-; exact (Fo (Lk _ Hk))]. apply Mono; [|exact (Lk _ Hk)|apply H3, He']. intros k' r' _ H. exists r'. rewrite Er. auto. }
  assert (Last : In op (ops ++ [op])) by (apply in_or_app; right; left; reflexivity).
  destruct op as [cx0|c wf0|k0 op0|d|c j|c]; cbn [Fleet_model.fstep] in E.
  - injection E as <- <-. cbn [fl_runs fl_ctx fl_now fl_sm] in *. cbn [run_ops flat_map run_events filter map]. rewrite !app_nil_r.
    rewrite nth_error_app1 in Hc by (apply (Pl1 k r Hk)).
    destruct (IH Hn k cx wf s) as (sh0 & ops' & H1 & H2 & H3 & HB); [exists r, ca; auto|]. exists sh0, ops'. split; [exact H1|]. split; [exact H2|]. split; [|exact (Be (Lk _ Hk) _ HB)].
    intros e He. apply Mono; [|exact (Lk _ Hk)|apply H3, He]. intros k' r' _ H. exists r'. auto.
  - destruct (nth_error (fl_ctx f) c) as [[cx0 ca0]|] eqn:Ec; [|discriminate]. injection E as <- <-. cbn [fl_runs fl_ctx fl_now fl_sm] in *. cbn [run_ops flat_map run_events filter map]. rewrite !app_nil_r.
    destruct (Nat.lt_ge_cases k (length (fl_runs f))) as [Hl|Hl].
    + rewrite nth_error_app1 in Hk by exact Hl.
      assert (Hn' : named f) by (intros k0 r0 H0; apply (Hn k0 r0); cbn [fl_runs]; rewrite nth_error_app1; [exact H0|apply nth_error_Some; congruence]).
      destruct (IH Hn' k cx wf s) as (sh0 & ops' & H1 & H2 & H3 & HB); [exists r, ca; auto|]. exists sh0, ops'. split; [exact H1|]. split; [exact H2|]. split; [|exact (Be (Lk _ Hk) _ HB)].
      intros e He. apply Mono; [|exact (Lk _ Hk)|apply H3, He]. intros k' r' _ H. exists r'. cbn [fl_runs]. rewrite nth_error_app1; [auto|apply nth_error_Some; congruence].
    + assert (Hkl : k < length (fl_runs f ++ [FRun c wf0 (System (winit (Shared (fl_now f) (fl_sm f) ca0)) [] [])])) by (apply nth_error_Some; congruence).
      rewrite nth_error_app2 in Hk by exact Hl. apply nth_error_In in Hk as [<-|[]]. cbn [fr_ctx fr_wf fr_sys] in *. rewrite Ec in Hc. injection Hc as -> ->.
      destruct (Pl2 k Hl) as [P1 P2]. exists (Shared (fl_now f) (fl_sm f) ca), []. unfold run_ops, run_events in *. rewrite P1, P2, Hs. split; [constructor|]. split; [reflexivity|]. split; [intros e []|].
      assert (Ek : k = length (fl_runs f)) by (rewrite app_length in Hkl; cbn in Hkl; lia).
      exists ops, c, wf0, f, tr, ca. split; [exact Hr|]. split; [rewrite since_begins by congruence; reflexivity|]. split; [reflexivity|]. split; [congruence|].
      intros k' r' H'. exists r'. cbn [fl_runs]. rewrite nth_error_app1; [auto|apply nth_error_Some; congruence].
  - destruct (nth_error (fl_runs f) k0) as [r0|] eqn:Ek0; [|discriminate]. destruct (nth_error (fl_ctx f) (fr_ctx r0)) as [[cx0 ca0]|] eqn:Ec0; [|discriminate].
    destruct (is_env op0) eqn:Henv; [discriminate|]. destruct (sysstep _ _ _ _ _ _) as [[s' o']|] eqn:Es; [|discriminate]. injection E as <- <-. cbn [fl_runs fl_ctx fl_now fl_sm] in *.
    assert (Hn' : named f).
    { intros k1 r1 H1. destruct (Nat.eq_dec k1 k0) as [->|Hne]; [|apply (Hn k1 r1); cbn [fl_runs]; rewrite list_set_ne by exact Hne; exact H1].
      rewrite Ek0 in H1. injection H1 as <-. apply (Hn k0 (FRun (fr_ctx r0) (fr_wf r0) s')). cbn [fl_runs]. apply (list_set_eq _ _ _ _ Ek0). }
    assert (Mo : forall k' r', k' <> k -> nth_error (fl_runs f) k' = Some r' -> exists r'', nth_error (list_set k0 (FRun (fr_ctx r0) (fr_wf r0) s') (fl_runs f)) k' = Some r'' /\ fr_wf r'' = fr_wf r').
    { intros k' r' _ H. destruct (Nat.eq_dec k' k0) as [->|Hne]; [|exists r'; rewrite list_set_ne by exact Hne; auto]. rewrite Ek0 in H. injection H as <-. eexists. split; [apply (list_set_eq _ _ _ _ Ek0)|reflexivity]. }
    destruct (IH Hn' k0 cx0 (fr_wf r0) (settle (fl_now f) (fl_sm f) ca0 (fr_sys r0))) as (sh1 & ops1 & G1 & G2 & G3 & GB); [exists r0, ca0; auto|].
    destruct (Nat.eq_dec k k0) as [->|Hne].
    + rewrite (list_set_eq _ _ _ _ Ek0) in Hk. injection Hk as <-. cbn [fr_ctx fr_wf fr_sys] in *. rewrite (list_set_eq _ _ _ _ Ec0) in Hc. injection Hc as <- <-. subst wf. rewrite settle_same in Hs. subst s.
      exists sh1, (ops1 ++ [op0]). split; [|split; [|split; [|exact (Be (Lk _ Ek0) _ GB)]]].
      * rewrite run_events_same. eapply swatched_step; [exact G1|exact Es|]. intros _. eapply HQ; [reflexivity|exact Ek0|exact Ec0].
      * rewrite filter_app. cbn [filter run_ops flat_map]. rewrite Henv, Nat.eqb_refl, G2. reflexivity.
      * intros e He. apply in_app_iff in He as [He|[He|[]]]; [apply Mono; [exact Mo|exact (Lk _ Ek0)|apply G3, He]|]. subst op0. discriminate Henv.
    + rewrite list_set_ne in Hk by exact Hne. rewrite run_events_other by auto. cbn [run_ops flat_map]. rewrite (proj2 (Nat.eqb_neq k0 k)) by auto. cbn [app]. rewrite !app_nil_r.
      destruct (sys_effect (R cx0) glob cx0 (fr_wf r0) (F cx0) (Hn' _ _ Ek0) _ _ _ _ _ _ _ (swatched_run _ _ _ _ _ _ _ G1) Es Henv) as (es & Ee & He & _). cbn [settle sy_w ws_sh] in Ee.
      assert (Fo : forall e, In e es -> from_others (ops ++ [FRunOp k0 op0]) (Fleet (sh_now (ws_sh (sy_w s'))) (sh_sm (ws_sh (sy_w s'))) (list_set (fr_ctx r0) (cx0, sh_cache (ws_sh (sy_w s'))) (fl_ctx f)) (list_set k0 (FRun (fr_ctx r0) (fr_wf r0) s') (fl_runs f))) k e).
      { intros e Hin. rewrite Forall_forall in He. destruct (mild_quiet _ _ (He e Hin)) as (N1 & N3 & N2). unfold from_others. rewrite since_started by exact (Lk _ Hk). right; right; right. split; [exact N1|]. split; [exact N3|]. exists k0, (FRun (fr_ctx r0) (fr_wf r0) s'), op0. split; [auto|]. split; [apply (list_set_eq _ _ _ _ Ek0)|].
        split; [|exact N2]. rewrite run_ops_app. apply in_or_app. right. cbn. rewrite Nat.eqb_refl. left; reflexivity. }
      destruct (Nat.eq_dec (fr_ctx r) (fr_ctx r0)) as [Eq|Nq].
      * rewrite Eq, (list_set_eq _ _ _ _ Ec0) in Hc. injection Hc as <- <-.
        destruct (IH Hn' k cx0 wf (settle (fl_now f) (fl_sm f) ca0 (fr_sys r))) as (sh0 & ops' & H1 & H2 & H3 & HB); [exists r, ca0; rewrite Eq; auto|].
        exists sh0, (ops' ++ env_ops es). split; [|split; [|split; [|exact (Be (Lk _ Hk) _ HB)]]].
        -- assert (X := swatched_envs _ cx0 wf es _ _ _ _ H1). cbn [settle sy_w ws_sh ws_main ws_tasks ws_chan sy_cur sy_past] in X. rewrite <- Ee in X. rewrite Hs. unfold settle. destruct (ws_sh (sy_w s')); exact X.
        -- rewrite filter_app, env_ops_none, app_nil_r. exact H2.
        -- intros e Hin. apply in_app_iff in Hin as [Hin|Hin]; [apply Mono; [exact Mo|exact (Lk _ Hk)|apply H3, Hin]|]. apply Fo, env_ops_in, Hin.
      * rewrite list_set_ne in Hc by auto.
        destruct (IH Hn' k cx wf (settle (fl_now f) (fl_sm f) ca (fr_sys r))) as (sh0 & ops' & H1 & H2 & H3 & HB); [exists r, ca; auto|].
        exists sh0, (ops' ++ env_ops (filter not_cache es)). split; [|split; [|split; [|exact (Be (Lk _ Hk) _ HB)]]].
        -- assert (X := swatched_envs _ cx wf (filter not_cache es) _ _ _ _ H1). cbn [settle sy_w ws_sh ws_main ws_tasks ws_chan sy_cur sy_past] in X.
           destruct (envs_parts es (Shared (fl_now f) (fl_sm f) ca0) ca) as (Q1 & Q2 & Q3). change (set_cache ca (Shared (fl_now f) (fl_sm f) ca0)) with (Shared (fl_now f) (fl_sm f) ca) in *.
           rewrite <- Ee in Q1, Q2. rewrite Hs. unfold settle. destruct (env_steps (Shared (fl_now f) (fl_sm f) ca) (filter not_cache es)) as [a b c]. cbn in Q1, Q2, Q3. subst a b c. exact X.
        -- rewrite filter_app, env_ops_none, app_nil_r. exact H2.
        -- intros e Hin. apply in_app_iff in Hin as [Hin|Hin]; [apply Mono; [exact Mo|exact (Lk _ Hk)|apply H3, Hin]|]. apply Fo. apply env_ops_in, filter_In in Hin. apply Hin.
  - injection E as <- <-. apply (Plain (ETick d)); try reflexivity. intros Hl. unfold from_others. rewrite since_started by exact Hl. left. exists d. split; [reflexivity|]. apply in_or_app; right; left; reflexivity.
  - injection E as <- <-. apply (Plain (ESig (MCancelGet c j))); try reflexivity. intros Hl. unfold from_others. rewrite since_started by exact Hl. right; left. exists c, j. split; [reflexivity|]. apply in_or_app; right; left; reflexivity.
  - injection E as <- <-. apply (Plain (ESig (MCancelFire c))); try reflexivity. intros Hl. unfold from_others. rewrite since_started by exact Hl. right; right; left. exists c. split; [reflexivity|]. apply in_or_app; right; left; reflexivity.
Qed.
Lemma projection now ops f tr : fleet_run now ops f tr -> named f -> forall k cx wf s, run_at f k cx wf s ->
  exists sh0 ops', sysrun (R cx) glob cx wf sh0 ops' s (run_events k tr) /\ filter (fun op => negb (is_env op)) ops' = run_ops k ops /\
    (forall e, In (YFlow (WEnv e)) ops' -> from_others ops f k e) /\ began now ops f k sh0.
Proof.
  intros Hr Hn k cx wf s Hat. destruct (projection_watched _ _ _ _ _ (fleet_any _ _ _ _ Hr) Hn k cx wf s Hat) as (sh0 & ops' & H1 & H).
  exists sh0, ops'. split; [eapply swatched_run; exact H1|exact H].
Qed.
End P.
