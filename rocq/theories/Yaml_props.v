(** C63, C76-C79: which workflow configs are accepted, and as what. *)
From Verif Require Import Base Types Config_model Config_spec Config_proof Config_props Serde_model Serde_proof Yaml_model Yaml_spec Yaml_proof.
From Coq Require Import Permutation.

(** C76: steps, containers and conditions, exactly. *)
Theorem C76_step : forall same_yaml v s, read_user_step same_yaml v = Some s <-> step_shape same_yaml v s.
Proof. exact read_step_iff. Qed.
Print Assumptions C76_step.
Theorem C76_container : forall v c, read_container v = Some c <-> container_shape v c.
Proof. exact read_container_iff. Qed.
Print Assumptions C76_container.
Theorem C76_condition : forall v c, read_condition v = Some c <-> condition_shape v c.
Proof. exact read_condition_iff. Qed.
Print Assumptions C76_condition.
(** The step's kind: a command iff every field of a command that is given is of its type, `run` among them; otherwise an action iff every field of an action that is given is of its type, `uses` among them. *)
Theorem C76_step_kind : forall same_yaml v,
  ((exists c, read_user_step same_yaml v = Some (UCommand c)) <-> exists c, command_shape v c) /\
  ((exists a, read_user_step same_yaml v = Some (UAction a)) <-> (~ exists c, command_shape v c) /\ exists a, action_shape same_yaml v a) /\
  (read_user_step same_yaml v = None <-> (~ exists c, command_shape v c) /\ ~ exists a, action_shape same_yaml v a).
Proof.
  intros sy v. assert (H1 : (exists c, read_user_step sy v = Some (UCommand c)) <-> exists c, command_shape v c).
  { split; intros (c & H); exists c; apply (read_step_iff sy v (UCommand c)); exact H. }
  assert (H2 : (exists a, read_user_step sy v = Some (UAction a)) <-> (~ exists c, command_shape v c) /\ exists a, action_shape sy v a).
  { split.
    - intros (a & H). apply read_step_iff in H as [N H]. split; [intros (c & Hc); apply (N c Hc)|exists a; exact H].
    - intros (N & a & H). exists a. apply read_step_iff. split; [intros c Hc; apply N; exists c; exact Hc|exact H]. }
  split; [exact H1|]. split; [exact H2|]. split.
  - intros H. split; [rewrite <- H1; intros (c & E); congruence|]. intros HA. destruct (read_user_command v) eqn:E.
    + unfold read_user_step in H. rewrite E in H. discriminate.
    + assert (N : ~ exists c, command_shape v c) by (intros (c & Hc); apply read_command_iff in Hc; congruence). destruct (proj2 H2 (conj N HA)) as (a & X). congruence.
  - intros [N1 N2]. destruct (read_user_step sy v) as [[c|a]|] eqn:E; [exfalso; apply N1, H1; eauto| |reflexivity]. exfalso. apply N2, H2. eauto.
Qed.
Print Assumptions C76_step_kind.

(** C63, where it holds. Given that the other fields are well typed, a step is a command iff `run` is a string; *)
Theorem C63_command_partial : forall same_yaml v name cont run on coe env sec tmo,
  gives ["name"; "container"; "run"; "on"; "continue-on-error"; "environments"; "secrets"; "timeout"] v [name; cont; run; on; coe; env; sec; tmo] ->
  (exists x, optional is_string name x) -> (exists x, optional container_shape cont x) -> (exists x, optional condition_shape on x) -> (exists x, optional is_bool coe x) ->
  (exists x, optional (map_shape env_shape) env x) -> (exists x, optional (list_of is_string) sec x) -> (exists x, optional is_string tmo x) ->
  ((exists c, read_user_step same_yaml v = Some (UCommand c)) <-> exists s, run = Some (VStr s)).
Proof.
  intros sy v name cont run on coe env sec tmo G (n & Hn) (co & Hc) (o & Ho) (ce & Hce) (e & He) (s & Hs) (t & Ht). rewrite (proj1 (C76_step_kind sy v)). split.
  - intros (c & a1 & a2 & a3 & a4 & a5 & a6 & a7 & a8 & G' & _ & _ & (w & -> & E) & _). apply slots_iff in G, G'; try nodup. rewrite G in G'. injection G' as <- <- -> <- <- <- <- <-. exists (uc_run c). rewrite E. reflexivity.
  - intros (r & ->). exists (UserCommandStep n co r o ce e s t). exists name, cont, (Some (VStr r)), on, coe, env, sec, tmo. split; [exact G|]. cbn [uc_name uc_container uc_run uc_on uc_continue_on_error uc_environments uc_secrets uc_timeout].
    assert (required is_string (Some (VStr r)) r) by (exists (VStr r); split; reflexivity). auto 10.
Qed.
Print Assumptions C63_command_partial.
(** ... one without a string `run` is an action iff `uses` is a string, its other fields being well typed; *)
Theorem C63_action_partial : forall same_yaml v name uses with_ on coe env sec tmo,
  (~ exists c, command_shape v c) ->
  gives ["name"; "uses"; "with"; "on"; "continue-on-error"; "environments"; "secrets"; "timeout"] v [name; uses; with_; on; coe; env; sec; tmo] ->
  (exists x, optional is_string name x) -> (exists x, optional (free_shape same_yaml) with_ x) -> (exists x, optional condition_shape on x) -> (exists x, optional is_bool coe x) ->
  (exists x, optional (map_shape env_shape) env x) -> (exists x, optional (list_of is_string) sec x) -> (exists x, optional is_string tmo x) ->
  ((exists a, read_user_step same_yaml v = Some (UAction a)) <-> exists s, uses = Some (VStr s)).
Proof.
  intros sy v name uses with_ on coe env sec tmo N G (n & Hn) (co & Hc) (o & Ho) (ce & Hce) (e & He) (s & Hs) (t & Ht). rewrite (proj1 (proj2 (C76_step_kind sy v))). split.
  - intros (_ & c & a1 & a2 & a3 & a4 & a5 & a6 & a7 & a8 & G' & _ & (w & -> & E) & _). apply slots_iff in G, G'; try nodup. rewrite G in G'. injection G' as <- -> <- <- <- <- <- <-. exists (ua_uses c). rewrite E. reflexivity.
  - intros (r & ->). split; [exact N|]. exists (UserActionStep n r co o ce e s t). exists name, (Some (VStr r)), with_, on, coe, env, sec, tmo. split; [exact G|]. cbn [ua_name ua_uses ua_with ua_on ua_continue_on_error ua_environments ua_secrets ua_timeout].
    assert (required is_string (Some (VStr r)) r) by (exists (VStr r); split; reflexivity). auto 10.
Qed.
Print Assumptions C63_action_partial.
(** ... a container is a name iff it is a string, options only if a record with a string name; a condition is a list of events iff a list of strings. *)
Theorem C63_container_condition_partial :
  (forall v s, read_container v = Some (CName s) <-> v = VStr s) /\
  (forall v o, read_container v = Some (COptions o) -> exists vo so, gives ["name"; "volumes"; "security-opts"] v [Some (VStr (co_name o)); vo; so]) /\
  (forall v l, read_condition v = Some (CEvent l) <-> v = VSeq (map VStr l)).
Proof.
  split; [|split].
  - intros v s. exact (read_container_iff v (CName s)).
  - intros v o H. apply read_container_iff in H as (n & vo & so & G & (w & -> & E) & _). unfold is_string in E. subst w. eauto.
  - intros v l. rewrite read_condition_iff. cbn [condition_shape]. split.
    + intros (vs & -> & F). f_equal. induction F as [|x y vs l E F IH]; [reflexivity|]. cbn. rewrite E, IH. reflexivity.
    + intros ->. exists (map VStr l). split; [reflexivity|]. induction l; constructor; [reflexivity|assumption].
Qed.
Print Assumptions C63_container_condition_partial.

(** The claim as made is false. A step with a string `run` and an ill-typed container is no command: rejected, or silently an action if it also has `uses`; *)
Theorem C63_ill_typed_field_refuted : forall same_yaml,
  (exists m, In (VStr "run", VStr "ls") m /\ NoDup (map fst m) /\ (forall k x, In (k, x) m -> exists s, k = VStr s) /\ read_user_step same_yaml (VMap m) = None) /\
  (exists m a, In (VStr "run", VStr "ls") m /\ NoDup (map fst m) /\ (forall k x, In (k, x) m -> exists s, k = VStr s) /\ read_user_step same_yaml (VMap m) = Some (UAction a)).
Proof.
  intros sy. split.
  - exists [(VStr "run", VStr "ls"); (VStr "container", VInt 5)]. split; [left; reflexivity|]. split; [nodup|]. split; [|reflexivity]. intros k x [[= <- _]|[[= <- _]|[]]]; eauto.
  - exists [(VStr "run", VStr "ls"); (VStr "container", VInt 5); (VStr "uses", VStr "cache")]. eexists. split; [left; reflexivity|]. split; [nodup|]. split; [|reflexivity].
    intros k x [[= <- _]|[[= <- _]|[[= <- _]|[]]]]; eauto.
Qed.
Print Assumptions C63_ill_typed_field_refuted.
(** ... a list can be a condition config, and a list or a mapping with number keys can be a step. *)
Theorem C63_odd_shapes_refuted : forall same_yaml,
  read_condition (VSeq [VNull; VNull]) = Some (CConfig (ConditionConfig None None)) /\
  read_user_step same_yaml (VMap [(VInt 2, VStr "ls")]) = Some (UCommand (UserCommandStep None None "ls" None None None None None)) /\
  read_user_step same_yaml (VSeq [VNull; VNull; VStr "ls"; VNull; VNull; VNull; VNull; VNull]) = Some (UCommand (UserCommandStep None None "ls" None None None None None)).
Proof. intros sy. repeat split. Qed.
Print Assumptions C63_odd_shapes_refuted.

Definition sample_command := VMap [(VStr "run", VStr "ls"); (VStr "environments", VMap [(VStr "A", VInt 3)]); (VStr "secrets", VSeq [VStr "k"]); (VStr "extra", VNull)].
Example C63_C76_nonvacuous : exists c, command_shape sample_command c /\ uc_secrets c = Some ["k"].
Proof. destruct (read_user_command sample_command) as [c|] eqn:E; [|discriminate]. exists c. split; [apply read_command_iff, E|]. cbv in E. injection E as <-. reflexivity. Qed.
Example C76_action_nonvacuous : forall sy, read_user_step sy (VMap [(VStr "uses", VStr "cache"); (VStr "with", VMap [(VStr "k", VInt 1)])]) =
  Some (UAction (UserActionStep None "cache" (Some (YMap [(YString "k", YInt 1)])) None None None None None)).
Proof. reflexivity. Qed.

(** C77: [UserWorkflow::try_from] accepts a text iff it composes to a tree of the shape of a workflow whose jobs are acceptable (C15), and then returns that workflow. *)
Theorem C77_try_from : forall number same_yaml compose message text w,
  try_from number same_yaml compose message text = Ok w <->
  exists n, compose text = Some n /\ workflow_shape same_yaml number n w /\ acceptable (uw_jobs w).
Proof.
  intros nb sy compose message text w. unfold try_from, decode_config. destruct (compose text) as [n|]; cbn [bind_opt].
  - destruct (node_workflow nb sy n) as [w'|] eqn:E.
    + apply node_workflow_iff in E. split.
      * destruct (validate w') as [[]|e] eqn:V; cbn; [|discriminate]. intros [= <-]. exists n. split; [reflexivity|]. split; [exact E|]. apply validate_spec, V.
      * intros (n' & [= <-] & S & A). apply node_workflow_iff in S. apply node_workflow_iff in E. rewrite S in E. injection E as <-. apply validate_spec in A. rewrite A. reflexivity.
    + split; [discriminate|]. intros (n' & [= <-] & S & _). apply node_workflow_iff in S. congruence.
  - split; [discriminate|]. intros (n' & E & _). discriminate.
Qed.
Print Assumptions C77_try_from.
(** A text is rejected as unparsable, with the parser's message, iff it has not that shape. *)
Theorem C77_parse_error : forall number same_yaml compose message text,
  try_from number same_yaml compose message text = Err (WorkflowConfigError ("Failed to parse workflow: " +++ message text)) <->
  ~ exists n w, compose text = Some n /\ workflow_shape same_yaml number n w.
Proof.
  intros nb sy compose message text. unfold try_from, decode_config.
  assert (X : (let! n := compose text in node_workflow nb sy n) = None <-> ~ exists n w, compose text = Some n /\ workflow_shape sy nb n w).
  { destruct (compose text) as [n|]; cbn [bind_opt].
    - split; [intros E (n' & w & [= <-] & S); apply node_workflow_iff in S; congruence|]. intros H. destruct (node_workflow nb sy n) as [w|] eqn:E; [|reflexivity]. destruct H. exists n, w. split; [reflexivity|]. apply node_workflow_iff, E.
    - split; [intros _ (n & w & E & _); discriminate|reflexivity]. }
  rewrite <- X. destruct (let! n := compose text in node_workflow nb sy n) as [w|] eqn:E.
  - split; [|discriminate]. intros H. exfalso. destruct (validate w) as [[]|e] eqn:V; cbn in H; [discriminate|]. injection H as ->.
    apply C15_rejection_reason in V. destruct V as [[_ V]|[(k & j & d & _ & _ & _ & V)|[(k & j & _ & _ & V)|[_ V]]]]; discriminate.
  - split; reflexivity.
Qed.
Print Assumptions C77_parse_error.
(** The builder, from the text: [build] returns a workflow iff it is what the specification says of the config that the text gives. *)
Theorem C77_build : forall pd number same_yaml compose message env id config uuid bw,
  build pd (decode_config number same_yaml compose message) env id config uuid = Ok bw <->
  exists t n w, config = Some t /\ compose t = Some n /\ workflow_shape same_yaml number n w /\ acceptable (uw_jobs w) /\
     wf_id bw = WorkflowId (match id with Some i => i | None => uuid end) /\ wf_name bw = uw_name w /\ wf_on bw = uw_on w /\
     Forall2 (fun '(k, j) '(k', jb) => k' = k /\ built_job pd env (match id with Some i => i | None => uuid end) k j jb) (uw_jobs w) (wf_jobs bw).
Proof.
  intros pd nb sy compose message env id config uuid bw.
  assert (D : forall t w, decode_config nb sy compose message t = inl w <-> exists n, compose t = Some n /\ workflow_shape sy nb n w).
  { intros t w. unfold decode_config. destruct (compose t) as [n|]; cbn [bind_opt].
    - destruct (node_workflow nb sy n) as [w'|] eqn:E.
      + split; [intros [= <-]; exists n; split; [reflexivity|apply node_workflow_iff, E]|]. intros (n' & [= <-] & S). apply node_workflow_iff in S. congruence.
      + split; [discriminate|]. intros (n' & [= <-] & S). apply node_workflow_iff in S. congruence.
    - split; [discriminate|]. intros (n & E & _). discriminate. }
  rewrite C15_C19_build.
  - split.
    + intros (t & w & E & H & R). apply D in H as (n & H1 & H2). exists t, n, w. auto.
    + intros (t & n & w & E & H1 & H2 & R). exists t, w. split; [exact E|]. split; [apply D; eauto|exact R].
  - intros t w H. apply D in H as (n & _ & S). eapply workflow_shape_NoDup, S.
Qed.
Print Assumptions C77_build.

(** A small config: `jobs: {test: {steps: [{run: ls, timeout: 10m}], name: 5}}`. The job's name is the string "5"; in a step it would be rejected. *)
Definition no_numbers (s : string) : number_text := if eqb s "5" then IntText 5 else NotNumber.
Definition pl (s : string) := NScalar true s.
Definition sample_node (step_name : string) : node :=
  NMap [(pl "jobs", NMap [(pl "test", NMap [(pl "steps", NSeq [NMap [(pl "run", pl "ls"); (pl "timeout", pl "10m"); (pl "name", pl step_name)]]); (pl "name", pl "5")])])].
Definition sample_workflow := UserWorkflow None None [("test", UserJob (Some "5") None None [UCommand (UserCommandStep (Some "x") None "ls" None None None None (Some "10m"))] None None)].
Example C77_nonvacuous : forall sy msg,
  try_from no_numbers sy (fun _ => Some (sample_node "x")) msg "..." = Ok sample_workflow /\
  node_workflow no_numbers sy (sample_node "5") = None /\
  (** `jobs:` and `steps:` without value; integers beyond 64 bits *)
  try_from no_numbers sy (fun _ => Some (NMap [(pl "jobs", pl "")])) msg "jobs:" = Err (WorkflowConfigError "Workflow must have at least one job") /\
  node_workflow (fun _ => IntText (2 ^ 64)) sy (NMap [(pl "jobs", NMap [(pl "a", NMap [(pl "steps", NSeq [NMap [(NScalar false "run", NScalar false "ls"); (NScalar false "x", pl "18446744073709551616")]])])])]) = None.
Proof. intros sy msg. repeat split. Qed.

(** C78: fields that are not known are ignored, wherever they are. *)
Lemma slots_ignore fields a k x b : (forall i, ~ stands_for fields i k \/ length fields <= i) -> is_identifier k = true -> NoDup fields ->
  slots fields (VMap (a ++ (k, x) :: b)) = slots fields (VMap (a ++ b)).
Proof.
  intros H Hk N. cbn [slots]. rewrite !forallb_app. cbn [forallb fst]. rewrite Hk. cbn [andb].
  destruct (_ && _); [|reflexivity]. apply map_all_ext. intros i Hi. apply in_seq in Hi. unfold slot. rewrite !filter_app. cbn [filter fst].
  destruct (names_field fields i k) eqn:E; [|reflexivity]. apply names_field_iff in E; [|exact N]. destruct (H i) as [H'|H']; [contradiction|lia].
Qed.
Theorem C78_unknown_step_field : forall same_yaml a s x b,
  ~ In s ["name"; "container"; "run"; "uses"; "with"; "on"; "continue-on-error"; "environments"; "secrets"; "timeout"] ->
  read_user_step same_yaml (VMap (a ++ (VStr s, x) :: b)) = read_user_step same_yaml (VMap (a ++ b)).
Proof.
  intros sy a s x b H. assert (G : forall fields, (forall f, In f fields -> In f ["name"; "container"; "run"; "uses"; "with"; "on"; "continue-on-error"; "environments"; "secrets"; "timeout"]) ->
    forall i, ~ stands_for fields i (VStr s) \/ length fields <= i).
  { intros fields F i. left. intros [E|(s' & [= <-] & E)]; [discriminate|]. apply H, F. eapply nth_error_In, E. }
  unfold read_user_step, read_user_command, read_user_action. rewrite !slots_ignore; try reflexivity; try nodup; apply G; intros f Hf; cbn in Hf |- *; intuition.
Qed.
Print Assumptions C78_unknown_step_field.
Lemma node_slots_ignore fields a p s x b : ~ In s fields -> node_slots fields (NMap (a ++ (NScalar p s, x) :: b)) = node_slots fields (NMap (a ++ b)).
Proof.
  intros H. cbn [node_slots]. rewrite !forallb_app. cbn [forallb fst is_scalar andb]. destruct (_ && _); [|reflexivity]. apply map_all_ext. intros f Hf. unfold node_slot. rewrite !filter_app. cbn [filter fst node_string].
  replace (eqb (Some s) (Some f)) with false; [reflexivity|]. symmetry. apply eqb_false. intros [= ->]. contradiction.
Qed.
Theorem C78_unknown_job_field : forall number same_yaml a p s x b,
  ~ In s ["name"; "container"; "working-directories"; "steps"; "on"; "depends-on"] ->
  node_job number same_yaml (NMap (a ++ (NScalar p s, x) :: b)) = node_job number same_yaml (NMap (a ++ b)).
Proof. intros nb sy a p s x b H. unfold node_job. rewrite node_slots_ignore by exact H. reflexivity. Qed.
Print Assumptions C78_unknown_job_field.
Theorem C78_unknown_workflow_field : forall number same_yaml a p s x b,
  ~ In s ["name"; "on"; "jobs"] ->
  node_workflow number same_yaml (NMap (a ++ (NScalar p s, x) :: b)) = node_workflow number same_yaml (NMap (a ++ b)).
Proof. intros nb sy a p s x b H. unfold node_workflow. rewrite node_slots_ignore by exact H. reflexivity. Qed.
Print Assumptions C78_unknown_workflow_field.
Example C78_misspelt_timeout : forall sy, read_user_step sy (VMap [(VStr "run", VStr "ls"); (VStr "time-out", VStr "1s")]) = Some (UCommand (UserCommandStep None None "ls" None None None None None)).
Proof. reflexivity. Qed.

(** The order of the fields does not matter, nor that of the jobs. *)
Lemma filter_permutation {A} (p : A -> bool) l l' : Permutation l l' -> Permutation (filter p l) (filter p l').
Proof.
  induction 1; cbn [filter]; [constructor|destruct (p x); [constructor|]; assumption| |eapply perm_trans; eassumption].
  destruct (p x), (p y); try (constructor; fail); try reflexivity; try (constructor; reflexivity); apply perm_swap.
Qed.
Lemma forallb_permutation {A} (p : A -> bool) l l' : Permutation l l' -> forallb p l = forallb p l'.
Proof. induction 1; cbn [forallb]; [reflexivity|rewrite IHPermutation; reflexivity|destruct (p x), (p y); reflexivity|congruence]. Qed.
Lemma pick_permutation {K A} (l l' : list (K * A)) : Permutation l l' ->
  match l with [] => Some None | [(_, v)] => Some (Some v) | _ => None end = match l' with [] => Some None | [(_, v)] => Some (Some v) | _ => None end.
Proof.
  intros P. destruct l as [|[k v] [|e l]].
  - apply Permutation_nil in P as ->. reflexivity.
  - apply Permutation_length_1_inv in P as ->. reflexivity.
  - apply Permutation_length in P. destruct l' as [|[k' v'] [|e' l']]; try discriminate. reflexivity.
Qed.
Lemma slots_permutation fields m m' : Permutation m m' -> slots fields (VMap m) = slots fields (VMap m').
Proof.
  intros P. cbn [slots]. rewrite (forallb_permutation _ _ _ P). destruct (forallb _ m'); [|reflexivity]. apply map_all_ext. intros i _. unfold slot. apply pick_permutation, filter_permutation, P.
Qed.
Lemma node_slots_permutation fields m m' : Permutation m m' -> node_slots fields (NMap m) = node_slots fields (NMap m').
Proof.
  intros P. cbn [node_slots]. rewrite (forallb_permutation _ _ _ P). destruct (forallb _ m'); [|reflexivity]. apply map_all_ext. intros i _. unfold node_slot. apply pick_permutation, filter_permutation, P.
Qed.
Theorem C78_field_order : forall number same_yaml,
  (forall m m', Permutation m m' -> read_user_step same_yaml (VMap m) = read_user_step same_yaml (VMap m')) /\
  (forall m m', Permutation m m' -> read_container (VMap m) = read_container (VMap m')) /\
  (forall m m', Permutation m m' -> read_condition (VMap m) = read_condition (VMap m')) /\
  (forall m m', Permutation m m' -> node_job number same_yaml (NMap m) = node_job number same_yaml (NMap m')) /\
  (forall m m', Permutation m m' -> node_workflow number same_yaml (NMap m) = node_workflow number same_yaml (NMap m')).
Proof.
  intros nb sy. repeat split; intros m m' P.
  - unfold read_user_step, read_user_command, read_user_action. rewrite !(slots_permutation _ _ _ P). reflexivity.
  - unfold read_container, read_container_options. rewrite (slots_permutation _ _ _ P). reflexivity.
  - unfold read_condition, read_condition_config. rewrite (slots_permutation _ _ _ P). reflexivity.
  - unfold node_job. rewrite (node_slots_permutation _ _ _ P). reflexivity.
  - unfold node_workflow. rewrite (node_slots_permutation _ _ _ P). reflexivity.
Qed.
Print Assumptions C78_field_order.

(** C79: of several jobs with one key the last one counts, without an error; a field given twice is an error. *)
Lemma fold_insert_lookup {A} (es : list (string * A)) : forall h k, lookup k (fold_left (fun h e => insert (fst e) (snd e) h) es h) =
  match find (fun e => eqb (fst e) k) (rev es) with Some e => Some (snd e) | None => lookup k h end.
Proof.
  induction es as [|e es IH]; intros h k; cbn [fold_left rev]; [reflexivity|]. rewrite IH.
  assert (F : forall l : list (string * A), find (fun e => eqb (fst e) k) (l ++ [e]) = match find (fun e => eqb (fst e) k) l with Some x => Some x | None => if eqb (fst e) k then Some e else None end).
  { induction l as [|x l IHl]; cbn [app find]; [reflexivity|]. destruct (eqb (fst x) k); [reflexivity|exact IHl]. }
  rewrite F. destruct (find _ (rev es)); [reflexivity|]. rewrite lookup_insert. destruct (eq_dec k (fst e)) as [->|Ne].
  - rewrite eqb_refl. reflexivity.
  - replace (eqb (fst e) k) with false; [reflexivity|]. symmetry. apply eqb_false. congruence.
Qed.
Lemma find_none_iff {A} (l : list (string * A)) k : ~ In k (map fst l) -> find (fun e => eqb (fst e) k) l = None.
Proof. induction l as [|x l IH]; intros H; cbn [find]; [reflexivity|]. replace (eqb (fst x) k) with false; [apply IH; intros X; apply H; right; exact X|]. symmetry. apply eqb_false. intros E. apply H. left. exact E. Qed.
Theorem C79_last_job_wins : forall number same_yaml m p0 a p k n b w,
  In (NScalar p0 "jobs", NMap (a ++ (NScalar p k, n) :: b)) m -> (forall p' n', ~ In (NScalar p' k, n') b) ->
  node_workflow number same_yaml (NMap m) = Some w ->
  exists j, job_shape same_yaml number n j /\ lookup k (uw_jobs w) = Some j.
Proof.
  intros nb sy m p0 a p k n b w Hm Nb H. apply node_workflow_iff in H as (o1 & o2 & o3 & G & _ & _ & (x & -> & H)). inv G.
  match goal with H : Forall2 _ ["name"; "on"; "jobs"] _ |- _ => inv H end. match goal with H : Forall2 _ ["on"; "jobs"] _ |- _ => inv H end. match goal with H : Forall2 _ ["jobs"] _ |- _ => inv H end.
  match goal with H : ex _ |- _ => destruct H as (a0 & p1 & b0 & Em & U) end.
  assert (x = NMap (a ++ (NScalar p k, n) :: b)) as ->.
  { rewrite Em in Hm. apply in_app_or in Hm as [Hm|[[= _ E]|Hm]]; [destruct (U p0 (NMap (a ++ (NScalar p k, n) :: b))); apply in_or_app; left; exact Hm|exact E|destruct (U p0 (NMap (a ++ (NScalar p k, n) :: b))); apply in_or_app; right; exact Hm]. }
  apply node_jobs_iff in H. cbn [node_map] in H. apply bind_iff in H as (es & He & H). injection H as <-. apply map_all_iff in He.
  apply Forall2_app_inv_l in He as (ea & eb & _ & He & ->). inv He. match goal with H : Forall2 _ b ?l |- _ => rename H into Hb; rename l into eb' end.
  match goal with H : node_entry _ _ = Some ?y |- _ => unfold node_entry in H; cbn [fst snd node_string bind_opt] in H; apply bind_iff in H as (j & Hj & [= <-]) end.
  exists j. split; [apply node_job_iff, Hj|]. rewrite fold_insert_lookup, rev_app_distr. cbn [rev]. rewrite <- app_assoc.
  assert (Nk : ~ In k (map fst (rev eb'))).
  { intros Hk. rewrite map_rev, <- in_rev in Hk. apply in_map_iff in Hk as ([k' j'] & Ek & Hk). cbn in Ek. subst k'. clear -Hb Nb Hk. induction Hb as [|[kn nn] e b eb E Hb IH]; [destruct Hk|]. destruct Hk as [->|Hk].
    - unfold node_entry in E. apply bind_iff in E as (k' & Ek & E). apply bind_iff in E as (x & _ & [= -> _]). cbn [fst] in Ek. apply node_string_iff in Ek as (p' & ->). apply (Nb p' nn). left. reflexivity.
    - apply IH; [intros p' n' X; apply (Nb p' n'); right; exact X|exact Hk]. }
  assert (F : forall (l r : list (string * user_job)), ~ In k (map fst l) -> find (fun e => eqb (fst e) k) (l ++ r) = find (fun e => eqb (fst e) k) r).
  { induction l as [|x l IHl]; intros r Hl; cbn [app find]; [reflexivity|]. replace (eqb (fst x) k) with false; [apply IHl; intros X; apply Hl; right; exact X|]. symmetry. apply eqb_false. intros E. apply Hl. left. exact E. }
  rewrite (F _ _ Nk). cbn [app find fst]. rewrite eqb_refl. reflexivity.
Qed.
Print Assumptions C79_last_job_wins.
Lemma filter_two {A} (q : A -> bool) a x b y c : q x = true -> q y = true -> 2 <= length (filter q (a ++ x :: b ++ y :: c)).
Proof.
  intros Hx Hy. rewrite filter_app, app_length. simpl. rewrite Hx. simpl. rewrite filter_app, app_length. simpl. rewrite Hy. simpl. lia.
Qed.
Theorem C79_field_twice : forall number same_yaml f,
  (forall a p x b p' y c, In f ["name"; "container"; "working-directories"; "steps"; "on"; "depends-on"] -> node_job number same_yaml (NMap (a ++ (NScalar p f, x) :: b ++ (NScalar p' f, y) :: c)) = None) /\
  (forall a p x b p' y c, In f ["name"; "on"; "jobs"] -> node_workflow number same_yaml (NMap (a ++ (NScalar p f, x) :: b ++ (NScalar p' f, y) :: c)) = None) /\
  (forall a x b y c, In f ["name"; "on"; "continue-on-error"; "environments"; "secrets"; "timeout"] -> read_user_step same_yaml (VMap (a ++ (VStr f, x) :: b ++ (VStr f, y) :: c)) = None).
Proof.
  intros nb sy f.
  assert (NG : forall fields a p x b p' y c vs, In f fields -> ~ node_gives fields (NMap (a ++ (NScalar p f, x) :: b ++ (NScalar p' f, y) :: c)) vs).
  { intros fields a p x b p' y c vs Hf G. inv G. match goal with H : Forall2 _ fields vs |- _ => rename H into F2 end.
    assert (exists o, match o with Some z => exists a0 p0 b0, a ++ (NScalar p f, x) :: b ++ (NScalar p' f, y) :: c = a0 ++ (NScalar p0 f, z) :: b0 /\ (forall p' x', ~ In (NScalar p' f, x') (a0 ++ b0))
                          | None => forall p0 x0, ~ In (NScalar p0 f, x0) (a ++ (NScalar p f, x) :: b ++ (NScalar p' f, y) :: c) end) as ([z|] & Ho).
    { clear -F2 Hf. induction F2 as [|g o fields vs Hg F2 IH]; [destruct Hf|]. destruct Hf as [->|Hf]; [exists o; exact Hg|exact (IH Hf)]. }
    - destruct Ho as (a0 & p0 & b0 & E & F). assert (L : forall q : node * node -> bool, length (filter q (a ++ (NScalar p f, x) :: b ++ (NScalar p' f, y) :: c)) = length (filter q (a0 ++ (NScalar p0 f, z) :: b0))) by (intros q; rewrite E; reflexivity).
      specialize (L (fun e => eqb (node_string (fst e)) (Some f))). pose proof (filter_two (fun e : node * node => eqb (node_string (fst e)) (Some f)) a (NScalar p f, x) b (NScalar p' f, y) c (eqb_refl _) (eqb_refl _)) as T2. rewrite L in T2. rewrite filter_app, app_length in T2.
      assert (Z0 : filter (fun e => eqb (node_string (fst e)) (Some f)) (a0 ++ b0) = []).
      { apply filter_none. intros [k w] Hk. apply eqb_false. cbn [fst]. intros Ek. apply node_string_iff in Ek as (q & ->). apply (F q w Hk). }
      rewrite filter_app in Z0. apply app_eq_nil in Z0 as [Z1 Z2]. rewrite Z1 in T2. cbn [filter fst node_string length] in T2. rewrite eqb_refl, Z2 in T2. cbn in T2. lia.
    - apply (Ho p x). apply in_or_app. right. left. reflexivity. }
  assert (VG : forall fields a x b y c vs, NoDup fields -> In f fields -> ~ gives fields (VMap (a ++ (VStr f, x) :: b ++ (VStr f, y) :: c)) vs).
  { intros fields a x b y c vs N Hf G. apply In_nth_error in Hf as (i & Hi). pose proof G as G0. apply slots_iff in G0; [|exact N].
    inv G. destruct (nth_error vs i) as [[z|]|] eqn:Ev.
    - match goal with H : forall i x, nth_error vs i = Some (Some x) -> _ |- _ => destruct (H i z Ev) as (a0 & k0 & b0 & E & S0 & F) end.
      assert (L : length (filter (fun e => names_field fields i (fst e)) (a ++ (VStr f, x) :: b ++ (VStr f, y) :: c)) = length (filter (fun e => names_field fields i (fst e)) (a0 ++ (k0, z) :: b0))) by (rewrite E; reflexivity).
      rewrite (proj2 (filter_one _ (a0 ++ (k0, z) :: b0) (k0, z))) in L.
      + assert (T : names_field fields i (VStr f) = true) by (apply names_field_iff; [exact N|right; eauto]).
        pose proof (filter_two (fun e : value * value => names_field fields i (fst e)) a (VStr f, x) b (VStr f, y) c T T) as T2. cbn beta in T2, L. rewrite L in T2. cbn in T2. lia.
      + exists a0, b0. split; [reflexivity|]. split; [apply names_field_iff; assumption|]. intros [k' x'] Hk. destruct (names_field fields i (fst (k', x'))) eqn:T; [|reflexivity]. apply names_field_iff in T; [|exact N]. destruct (F _ _ Hk T).
    - match goal with H : forall i, nth_error vs i = Some None -> _ |- _ => apply (H i Ev (VStr f) x) end; [apply in_or_app; right; left; reflexivity|right; eauto].
    - apply nth_error_None in Ev. assert (i < length fields) by (apply nth_error_Some; congruence). lia. }
  split; [|split].
  - intros a p x b p' y c Hf. destruct (node_job _ _ _) as [j|] eqn:E; [|reflexivity]. exfalso. apply node_job_iff in E as (n1 & n2 & n3 & n4 & n5 & n6 & G & _). eapply NG; eassumption.
  - intros a p x b p' y c Hf. destruct (node_workflow _ _ _) as [j|] eqn:E; [|reflexivity]. exfalso. apply node_workflow_iff in E as (n1 & n2 & n3 & G & _). eapply NG; eassumption.
  - intros a x b y c Hf. destruct (read_user_step _ _) as [[s|s]|] eqn:E; [| |reflexivity]; exfalso; apply read_step_iff in E; cbn [step_shape] in E; [|destruct E as [_ E]].
    + destruct E as (n1 & n2 & n3 & n4 & n5 & n6 & n7 & n8 & G & _). eapply VG; [|..|exact G]; [nodup|]. cbn in *. intuition.
    + destruct E as (n1 & n2 & n3 & n4 & n5 & n6 & n7 & n8 & G & _). eapply VG; [|..|exact G]; [nodup|]. cbn in *. intuition.
Qed.
Print Assumptions C79_field_twice.
(** But a second `run` or `container` only makes the step no command. *)
Example C79_second_run : forall sy, read_user_step sy (VMap [(VStr "run", VStr "a"); (VStr "run", VStr "b"); (VStr "uses", VStr "c")]) = Some (UAction (UserActionStep None "c" None None None None None None)).
Proof. reflexivity. Qed.
Example C79_nonvacuous : forall sy, option_map uw_jobs (node_workflow no_numbers sy (NMap [(pl "jobs", NMap [
    (pl "a", NMap [(pl "steps", NSeq [NMap [(pl "run", pl "one")]])]); (pl "a", NMap [(pl "steps", NSeq [NMap [(pl "run", pl "two")]])])])])) =
  Some [("a", UserJob None None None [UCommand (UserCommandStep None None "two" None None None None None)] None None)].
Proof. reflexivity. Qed.
