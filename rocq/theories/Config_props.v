(** C15-C19: accepting a config and building the workflow. *)
From Verif Require Import Base Types Config_model Config_spec Config_proof.

(** C15: a config is accepted iff it is acceptable. *)
Theorem C15_accepted_iff : forall w, validate w = Ok tt <-> acceptable (uw_jobs w).
Proof. exact validate_spec. Qed.

(** C15: acceptance does not depend on the iteration order of the jobs map. *)
Theorem C15_order_irrelevant : forall w w', Permutation (uw_jobs w) (uw_jobs w') ->
  (validate w = Ok tt <-> validate w' = Ok tt).
Proof.
  intros w w' P. rewrite !validate_spec.
  split; apply acceptable_perm; [exact P|apply Permutation_sym, P].
Qed.

(** C15: a rejection names a defect that the config has. *)
Theorem C15_rejection_reason : forall w e, validate w = Err e ->
  (uw_jobs w = [] /\ e = WorkflowConfigError "Workflow must have at least one job") \/
  (exists k j d, In (k, j) (uw_jobs w) /\ In d (deps_of j) /\ ~ In d (keys (uw_jobs w)) /\
     e = WorkflowConfigError ("Job " +++ k +++ " depends on job " +++ d +++ ", but job " +++ d +++ " is not defined")) \/
  (exists k j, In (k, j) (uw_jobs w) /\ uj_steps j = [] /\
     e = WorkflowConfigError ("Job `" +++ k +++ "` must have at least one step")) \/
  ((forall k j, In (k, j) (uw_jobs w) -> deps_of j <> []) /\ e = WorkflowConfigError "Cannot have all jobs has dependencies").
Proof. exact validate_err. Qed.

(** C16: job keys, job ids, step ids. *)
Theorem C16_keys_and_ids : forall pd env id w bw,
  NoDup (keys (uw_jobs w)) -> parse pd env id w = Ok bw ->
  wf_id bw = WorkflowId id /\
  keys (wf_jobs bw) = keys (uw_jobs w) /\
  (forall k jb, In (k, jb) (wf_jobs bw) -> jb_id jb = JobId id k) /\
  (forall k jb i st, In (k, jb) (wf_jobs bw) -> nth_error (jb_steps jb) i = Some st -> st_id st = StepId id k (N.of_nat i)).
Proof.
  intros pd env id w bw ND H. apply (parse_ok pd env id w bw ND) in H as (H0 & _ & _ & H).
  split; [exact H0|]. split; [eapply Forall2_keys; exact H|].
  split; intros k jb; [intros Hi|intros i st Hi]; destruct (Forall2_built _ _ _ _ _ _ _ H Hi) as (j & _ & Hb); apply Hb.
Qed.

(** C16: all step ids of the workflow are distinct. *)
Theorem C16_step_ids_distinct : forall pd env id w bw,
  NoDup (keys (uw_jobs w)) -> parse pd env id w = Ok bw ->
  NoDup (map st_id (flat_map (fun '(_, jb) => jb_steps jb) (wf_jobs bw))).
Proof. exact step_ids_distinct. Qed.

(** C16-C18: the built workflow, exactly: [parse] returns [bw] iff [bw] is described by the specification. *)
Theorem C16_C17_C18_built_exactly : forall pd env id w bw, NoDup (keys (uw_jobs w)) ->
  (parse pd env id w = Ok bw <->
   wf_id bw = WorkflowId id /\ wf_name bw = uw_name w /\ wf_on bw = uw_on w /\
   Forall2 (fun '(k, j) '(k', jb) => k' = k /\ built_job pd env id k j jb) (uw_jobs w) (wf_jobs bw)).
Proof. exact parse_ok. Qed.

(** C17: order of the expanded steps. *)
Theorem C17_expansion_order : forall pd env id w bw k jb,
  NoDup (keys (uw_jobs w)) -> parse pd env id w = Ok bw -> In (k, jb) (wf_jobs bw) ->
  exists j es, In (k, j) (uw_jobs w) /\ Forall2 (expands env) (uj_steps j) es /\
    Forall2 (carries pd (uj_container j)) (pres es ++ mains es ++ rev (posts es)) (jb_steps jb).
Proof.
  intros pd env id w bw k jb ND H Hi. apply (parse_ok pd env id w bw ND) in H as (_ & _ & _ & H).
  destruct (Forall2_built _ _ _ _ _ _ _ H Hi) as (j & Hj & Hb).
  destruct Hb as (_ & _ & _ & _ & _ & _ & es & He & Hc). exists j, es. auto.
Qed.

(** C18: settings of the job and of the workflow. *)
Theorem C18_job_settings : forall pd env id w bw k j,
  NoDup (keys (uw_jobs w)) -> parse pd env id w = Ok bw -> In (k, j) (uw_jobs w) ->
  wf_name bw = uw_name w /\ wf_on bw = uw_on w /\
  exists jb, In (k, jb) (wf_jobs bw) /\ jb_name jb = uj_name j /\ jb_on jb = uj_on j /\
    jb_depends_on jb = match uj_depends_on j with Some l => l | None => [] end /\
    jb_working_directories jb = match uj_working_dirs j with Some l => l | None => [] end.
Proof.
  intros pd env id w bw k j ND H Hi. apply (parse_ok pd env id w bw ND) in H as (_ & Hn & Ho & H).
  split; [exact Hn|]. split; [exact Ho|]. destruct (Forall2_built_r _ _ _ _ _ _ _ H Hi) as (jb & Hj & Hb).
  exists jb. destruct Hb as (_ & H1 & H2 & H3 & H4 & _). auto.
Qed.

(** C18: without actions, step [i] of the built job carries the settings of step [i] of the config. *)
Theorem C18_step_settings : forall pd env id w bw k j jb,
  NoDup (keys (uw_jobs w)) -> parse pd env id w = Ok bw -> In (k, j) (uw_jobs w) -> In (k, jb) (wf_jobs bw) ->
  (forall u, In u (uj_steps j) -> exists c, u = UCommand c) ->
  Forall2 (carries pd (uj_container j)) (uj_steps j) (jb_steps jb).
Proof.
  intros pd env id w bw k j jb ND H Hj Hi Hc. apply (parse_ok pd env id w bw ND) in H as (_ & _ & _ & H).
  destruct (Forall2_built _ _ _ _ _ _ _ H Hi) as (j' & Hj' & Hb).
  assert (j' = j) as -> by (apply (In_lookup _ _ _ ND) in Hj; apply (In_lookup _ _ _ ND) in Hj'; congruence).
  destruct Hb as (_ & _ & _ & _ & _ & _ & es & He & Hf).
  assert (E : pres es = [] /\ mains es = uj_steps j /\ posts es = []).
  { clear -He Hc. induction He as [|u e l es Hu _ IH]; [auto|].
    destruct IH as (H1 & H2 & H3); [intros; apply Hc; right; assumption|].
    destruct (Hc u (or_introl eq_refl)) as [c ->]. assert (e = (None, UCommand c, None)) as -> by (inversion Hu; reflexivity). cbn. fold (pres es) (posts es) (mains es).
    rewrite H1, H2, H3. auto. }
  destruct E as (E1 & E2 & E3). rewrite E1, E2, E3 in Hf. cbn in Hf. rewrite app_nil_r in Hf. exact Hf.
Qed.

(** C19: resolution of [uses] steps. *)
Theorem C19_action_lookup : forall env a s, try_normalize_action env a = Ok s <-> resolves env a s.
Proof. exact try_normalize_action_ok. Qed.

(** C19: building succeeds iff every job can be expanded into command steps with readable timeouts. *)
Theorem C19_builds_iff : forall pd env id w, NoDup (keys (uw_jobs w)) ->
  ((exists bw, parse pd env id w = Ok bw) <-> forall k j, In (k, j) (uw_jobs w) -> job_buildable pd env j).
Proof. exact parse_exists. Qed.

(** C19: the error tells the cause. *)
Theorem C19_failure_cause : forall pd env id w e, parse pd env id w = Err e ->
  exists k j, In (k, j) (uw_jobs w) /\ failure_cause pd env j e.
Proof. exact parse_err. Qed.

(** C15, C19: the whole builder: [build] returns [bw] iff a config text was given, it decodes, the decoded config is
    acceptable, and [bw] is what the specification describes for the given id (or the fresh one). *)
Theorem C15_C19_build : forall pd decode env id config uuid bw,
  (forall t w, decode t = inl w -> NoDup (keys (uw_jobs w))) ->
  (build pd decode env id config uuid = Ok bw <->
   exists t w, config = Some t /\ decode t = inl w /\ acceptable (uw_jobs w) /\
     wf_id bw = WorkflowId (match id with Some i => i | None => uuid end) /\
     wf_name bw = uw_name w /\ wf_on bw = uw_on w /\
     Forall2 (fun '(k, j) '(k', jb) => k' = k /\ built_job pd env (match id with Some i => i | None => uuid end) k j jb)
       (uw_jobs w) (wf_jobs bw)).
Proof.
  intros pd decode env id config uuid bw ND. unfold build.
  change (option_default uuid id) with (match id with Some i => i | None => uuid end).
  destruct config as [t|]; [|split; [discriminate|intros (t & w & E & _); discriminate]].
  destruct (decode t) as [w|msg] eqn:Ed.
  - specialize (ND t w Ed). destruct (validate w) as [[]|e] eqn:Ev; cbn.
    + apply validate_spec in Ev. rewrite (parse_ok pd env _ w bw ND). split.
      * intros H. exists t, w. auto.
      * intros (t' & w' & [= <-] & E & _ & H). rewrite Ed in E. injection E as <-. exact H.
    + split; [discriminate|]. intros (t' & w' & [= <-] & E & Ha & H). rewrite Ed in E. injection E as <-.
      apply validate_spec in Ha. congruence.
  - split; [discriminate|]. intros (t' & w' & [= <-] & E & _). congruence.
Qed.

(** C15, C16: what a successfully built workflow satisfies; the hypotheses of the theorems on running workflows. *)
Theorem C15_C16_built_workflow_shape : forall pd decode env id config uuid bw,
  (forall t w, decode t = inl w -> NoDup (keys (uw_jobs w))) ->
  build pd decode env id config uuid = Ok bw ->
  NoDup (keys (wf_jobs bw)) /\ wf_jobs bw <> [] /\
  (forall k jb, In (k, jb) (wf_jobs bw) -> jb_steps jb <> [] /\
     (forall d, In d (jb_depends_on jb) -> In d (keys (wf_jobs bw)))) /\
  (exists k jb, In (k, jb) (wf_jobs bw) /\ jb_depends_on jb = []).
Proof.
  intros pd decode env id config uuid bw ND. unfold build. destruct config as [t|]; [|discriminate].
  destruct (decode t) as [w|msg] eqn:Ed; [|discriminate]. specialize (ND t w Ed).
  destruct (validate w) as [[]|e] eqn:Ev; cbn; [|discriminate]. intros H.
  split; [|eapply validate_nonempty; eauto].
  apply (parse_ok pd env _ w bw ND) in H as (_ & _ & _ & H). rewrite (Forall2_keys _ _ _ _ _ H). exact ND.
Qed.

(** *** Non-vacuity: a two-job config with an action that has pre and post steps. *)
Definition ex_cmd (r : string) := UserCommandStep None None r None None None None None.
Definition ex_action : action := fun a =>
  Ok (ActionSteps (Some (UCommand (ex_cmd "pre"))) (UCommand (ex_cmd "main")) (Some (UCommand (ex_cmd "post")))).
Definition ex_uses := UserActionStep None "act" None None None None None None.
Definition ex_config := UserWorkflow (Some "w") None
  [("a", UserJob None (Some (CName "img")) None [UAction ex_uses; UCommand (ex_cmd "x"); UAction ex_uses] None None);
   ("b", UserJob None None None [UCommand (ex_cmd "y")] None (Some ["a"]))].
Definition ex_env := BuildEnv [("act", ex_action)] [].
Definition ex_pd (s : string) : option duration := if eqb s "60m" then Some (Duration 3600 0) else None.

Example ex_build :
  exists bw, build ex_pd (fun _ => inl ex_config) ex_env (Some "id") (Some "text") "uuid" = Ok bw /\
    map (fun '(k, jb) => (k, map (fun st => (sid_2 (st_id st), st_run st)) (jb_steps jb))) (wf_jobs bw) =
    [("a", [(0, "pre"); (1, "pre"); (2, "main"); (3, "x"); (4, "main"); (5, "post"); (6, "post")]%N); ("b", [(0%N, "y")])].
Proof. eexists; split; reflexivity. Qed.
Example ex_reject_missing : validate (UserWorkflow None None
  [("a", UserJob None None None [UCommand (ex_cmd "x")] None (Some ["nope"]))]) =
  Err (WorkflowConfigError "Job a depends on job nope, but job nope is not defined").
Proof. reflexivity. Qed.
Example ex_reject_unknown_action : exists e, parse ex_pd (BuildEnv [] []) "id" ex_config = Err e.
Proof. eexists; reflexivity. Qed.
