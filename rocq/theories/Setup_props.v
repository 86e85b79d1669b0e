(** Properties C80-C85 (errors, builders, logger, payload cloning). *)
From Verif Require Import Base Types Ids_model Ids_spec Ids_proof Cond_model Cond_spec Cond_proof Config_model Plugins_model Paths_model Sched_model Serde_model Serde_spec Json_model Json_spec Json_proof Json_limit Json_msg Json_props Setup_model Setup_spec Setup_proof.

(** C80 *)
Theorem C80_equal_iff_same : forall a b, proper_error a -> proper_error b -> (error_eq a b = true <-> same_error a b).
Proof. exact error_eq_spec. Qed.
Print Assumptions C80_equal_iff_same.
Theorem C80_equivalence :
  (forall a, proper_error a -> error_eq a a = true) /\ (forall a b, proper_error a -> proper_error b -> error_eq a b = true -> error_eq b a = true) /\
  (forall a b c, proper_error a -> proper_error b -> proper_error c -> error_eq a b = true -> error_eq b c = true -> error_eq a c = true).
Proof.
  split; [|split].
  - intros a Ha. apply error_eq_spec; try assumption. destruct a as [k t|e]; [left; eauto 6|right; eauto].
  - intros a b Ha Hb H. apply error_eq_spec in H; try assumption. apply error_eq_spec; try assumption. destruct H as [(k & t & t' & -> & ->)|(e & -> & ->)]; [left; eauto 6|right; eauto].
  - intros a b c Ha Hb Hc H H'. apply error_eq_spec in H; try assumption. apply error_eq_spec in H'; try assumption. apply error_eq_spec; try assumption.
    destruct H as [(k & t & t' & -> & ->)|(e & -> & ->)], H' as [(k2 & t2 & t2' & E & ->)|(e2 & E & ->)]; inv E; [left; eauto 6|right; eauto].
Qed.
Print Assumptions C80_equivalence.
(** The printed text tells which error it is: for an IO error its text, for the others everything. *)
Theorem C80_text_identifies : forall a b, proper_error a -> proper_error b -> show_error a = show_error b ->
  (exists k k' t, a = EvIo k t /\ b = EvIo k' t) \/ (exists e, a = EvOther e /\ b = EvOther e).
Proof. intros a b Ha Hb E. assert (H := show_error_inj a b Ha Hb E). destruct a, b; try contradiction; subst; eauto 6. Qed.
Print Assumptions C80_text_identifies.
Example C80_nonvacuous : error_eq (EvIo 1 "a") (EvIo 1 "b") = true /\ error_eq (EvIo 1 "a") (EvIo 2 "a") = false /\ error_eq (EvOther (FailedError 1)) (EvOther (FailedError 1)) = true /\
  error_eq (EvOther (InitError "x")) (EvOther (OtherError "x")) = false /\ show_error (EvOther (FailedError 17)) = "Failed with exit code: 17" /\ proper_error (EvOther (FailedError 1)).
Proof. repeat split. discriminate. Qed.

(** C81 *)
Theorem C81_build : forall (R P A : Type) (calls : list (run_call R P A)) fresh,
  (last_given gives_runner calls None -> build_astro_run calls fresh = None) /\
  (forall r, last_given gives_runner calls (Some r) -> exists a, build_astro_run calls fresh = Some a /\
     ar_runner a = r /\ last_given gives_auth calls (ar_auth a) /\ ar_plugins a = all_given gives_plugin calls /\
     (forall name, last_given (gives_action name) calls (lookup name (ar_actions a))) /\ ar_signals a = fresh).
Proof. exact build_astro_run_spec. Qed.
Print Assumptions C81_build.
(** Contexts made by an AstroRun: never a panic; the parts not set by the caller are those of the AstroRun. *)
Theorem C81_context : forall (R P A : Type) (a : astro_run R P A) calls, exists c, make_context a calls = Some c /\
  (forall v, last_given sets_runner calls v -> xt_runner c = or_else v (ar_runner a)) /\
  (forall v, last_given sets_plugins calls v -> xt_plugins c = or_else v (ar_plugins a)) /\
  (forall v, last_given sets_signals calls v -> xt_signals c = or_else v (ar_signals a)) /\
  (forall v, last_given sets_auth calls v -> xt_auth c = match v with Some x => Some x | None => ar_auth a end) /\
  (forall v, last_given sets_event calls v -> xt_event c = v) /\
  (forall v, last_given sets_payload calls v -> xt_payload c = v).
Proof. exact make_context_spec. Qed.
Print Assumptions C81_context.
(** A context built on its own panics unless runner, plugins and signals were all given. *)
Theorem C81_context_alone : forall (R P : Type) (calls : list (ctx_call R P)), (exists c, build_context (fold_left ctx_call_step calls (ctx_builder_new R P)) = Some c) <->
  ~ last_given sets_runner calls None /\ ~ last_given sets_plugins calls None /\ ~ last_given sets_signals calls None.
Proof. exact build_context_panics. Qed.
Print Assumptions C81_context_alone.
Theorem C81_last_given_defined : forall (C X : Type) (g : C -> option X) calls, exists v, last_given g calls v /\ forall v', last_given g calls v' -> v' = v.
Proof. intros. destruct (last_given_exists g calls) as [v H]. exists v. split; [exact H|]. intros v' H'. eapply last_given_unique; eauto. Qed.
Print Assumptions C81_last_given_defined.
(** What the parts of a context mean for conditions: a workflow, job or step is skipped exactly if it has a condition, the context has credentials -
    given to it, or else to the AstroRun - and a trigger event, and the condition does not hold of the payload at hand or, if there is none yet,
    of the one obtained from GitHub. *)
Theorem C81_conditions : forall (R P A : Type) (a : astro_run R P A) calls auth event, last_given sets_auth calls auth -> last_given sets_event calls event ->
  exists c, make_context a calls = Some c /\ forall glob gh cache on,
  (snd (should_skip glob (context_matcher c) gh cache on) = true <->
   exists k ev p, on = Some k /\ (auth <> None \/ ar_auth a <> None) /\ event = Some ev /\
    (cache = Some p \/ (cache = None /\ exists files, files_fetched gh ev files /\ p = ConditionPayload (te_event ev) (te_branch ev) files)) /\ ~ condition_holds glob k p).
Proof.
  intros R P A a calls auth event Ha He. destruct (make_context_spec R P A a calls) as (c & Hc & _ & _ & _ & H4 & H5 & _). exists c. split; [exact Hc|]. intros glob gh cache on.
  rewrite should_skip_spec. cbn [context_matcher cm_auth cm_event]. rewrite (H4 _ Ha), (H5 _ He).
  assert (Q : is_some (match auth with Some x => Some x | None => ar_auth a end) = true <-> (auth <> None \/ ar_auth a <> None)).
  { destruct auth as [x|]; cbn; [split; [intros _; left; discriminate|reflexivity]|]. destruct (ar_auth a); cbn; split; try discriminate; auto; [intros _; right; discriminate|intros [C|C]; destruct (C eq_refl)]. }
  split; intros (k & ev & p & H1 & H2 & H3 & H6 & H7); exists k, ev, p; (split; [exact H1|]); (split; [apply Q, H2|]); auto.
Qed.
Print Assumptions C81_conditions.
Example C81_conditions_nonvacuous : last_given (sets_event (R := nat) (P := nat)) [XcEvent (TriggerEvent "push" "o" "r" None "s" "main" "m")] (Some (TriggerEvent "push" "o" "r" None "s" "main" "m")) /\
  last_given (sets_auth (R := nat) (P := nat)) [XcEvent (TriggerEvent "push" "o" "r" None "s" "main" "m")] None.
Proof. split; [apply (last_given_some _ [] _ _ []); [reflexivity|intros c []]|constructor; intros c [<-|[]]; reflexivity]. Qed.
Example C81_nonvacuous : exists a, build_astro_run [RcPlugin 1; RcRunner 10; RcAction "a" 5; RcToken "t"; RcRunner 11; RcPlugin 2; RcAction "a" 6; RcApp 3 "k"] 99 = Some a /\
  ar_runner a = 11 /\ ar_plugins a = [1; 2] /\ lookup "a" (ar_actions a) = Some 6 /\ ar_auth a = Some (GithubApp 3 "k") /\
  make_context a [XcRunner 12; XcPayload "p"] = Some (MkContext 12 [1; 2] 99 None (Some (GithubApp 3 "k")) (Some "p")) /\ build_astro_run (R := nat) (A := nat) [RcPlugin 1] 0 = None.
Proof. eexists. split; [reflexivity|]. repeat split. Qed.

(** C82 *)
Theorem C82_plugin : forall (W : Type) (calls : list (hook_call W)), exists r resolve, build_plugin calls = (r, resolve) /\
  behaves hook_run_workflow calls (fun _ => tt) (on_run_workflow r) /\ behaves hook_run_job calls (fun _ => tt) (on_run_job r) /\
  behaves hook_run_step calls (fun _ => tt) (on_run_step r) /\ behaves hook_state calls (fun _ => tt) (on_state_change r) /\
  behaves hook_log calls (fun _ => tt) (on_log r) /\ behaves hook_step_completed calls (fun _ => tt) (Plugins_model.on_step_completed r) /\
  behaves hook_job_completed calls (fun _ => tt) (Plugins_model.on_job_completed r) /\ behaves hook_workflow_completed calls (fun _ => tt) (on_workflow_completed r) /\
  behaves hook_before calls (fun st => st) (on_before_run_step r) /\ behaves hook_resolve calls (fun _ => None) resolve.
Proof. exact build_plugin_spec. Qed.
Print Assumptions C82_plugin.
Example C82_nonvacuous : let f (n : nat) (_ : workflow_log) (w : list nat) := (n :: w, @Ok unit tt) in
  let '(r, _) := build_plugin [HcLog (f 1); HcLog (f 2)] in on_log r (WorkflowLog (StepId "w" "j" 0) LError "m" 0%N) [] = ([2], Ok tt) /\
  on_state_change r (WorkflowStateUpdated (WorkflowId "w") Queued) [7] = ([7], Ok tt).
Proof. repeat split. Qed.

(** C83 *)
Theorem C83_server : forall (R P : Type) (calls : list (server_call R P)) probe os arch version,
  (last_given server_runner calls None -> build_server calls probe os arch version = Err (InitError "Runner is not set")) /\
  (forall r, last_given server_runner calls (Some r) -> last_given server_id calls None -> build_server calls probe os arch version = Err (InitError "Id is not set")) /\
  (forall r i, last_given server_runner calls (Some r) -> last_given server_id calls (Some i) -> forall n d h,
     last_given server_max_runs calls n -> last_given server_docker calls d -> last_given server_host calls h ->
     build_server calls probe os arch version = Ok (BuiltServer r (all_given server_plugin calls) (RunnerMeta i os arch (or_else d probe) (or_else h true) version (or_else n 5%Z)))).
Proof. exact build_server_spec. Qed.
Print Assumptions C83_server.
Theorem C83_directory : forall given home,
  (forall before d, given = before ++ [d] -> runner_directory given home = Ok d) /\
  (given = [] -> runner_directory given home = match home with Some h => Ok (path_join h "astro-run") | None => Err (InitError "AstroRunnerBuilder: working_directory is required") end).
Proof. exact runner_directory_spec. Qed.
Print Assumptions C83_directory.
Example C83_nonvacuous : build_server [ScId "a"; ScRunner 1; ScPlugin 7; ScMaxRuns 9; ScId "b"; ScPlugin 8] true "linux" "x" "1" = Ok (BuiltServer 1 [7; 8] (RunnerMeta "b" "linux" "x" true true "1" 9)) /\
  build_server (P := nat) [ScRunner 1] true "l" "x" "1" = Err (InitError "Id is not set") /\ build_server (R := nat) (P := nat) [] true "l" "x" "1" = Err (InitError "Runner is not set") /\
  runner_directory ["/a"; "/b"] None = Ok "/b" /\ runner_directory [] (Some "/home/u") = Ok "/home/u/astro-run".
Proof. repeat split. Qed.

(** C84 *)
(** Once a call of init_logger has returned, the records printed are those at least as severe as one level, asked for by a call made before; this never changes. *)
Theorem C84_level_fixed : forall ops s c, lrun ops s -> lookup c (ls_calls s) = Some LcReturned ->
  exists lv, asked_for ops lv /\ forall more s', lrun (ops ++ more) s' -> forall l, printed s' l = true <-> severe_as l lv.
Proof. exact logger_after_init. Qed.
Print Assumptions C84_level_fixed.
Theorem C84_first_print_fixes : forall ops s l, lrun ops s -> printed s l = true ->
  exists lv, asked_for ops lv /\ forall more s', lrun (ops ++ more) s' -> forall l', printed s' l' = true <-> severe_as l' lv.
Proof. exact logger_before_init. Qed.
Print Assumptions C84_first_print_fixes.
(** Calls panic only if other code has installed a logger. *)
Theorem C84_panics : forall ops s c, lrun ops s -> lookup c (ls_calls s) = Some LcPanicked -> In LoForeign ops.
Proof. intros ops s c Hr Hc. apply (foreign_op _ _ Hr). eapply (once_inv_run _ _ Hr). exact Hc. Qed.
Print Assumptions C84_panics.
(** Every call ends: each takes at most four steps, and as long as one is not over, one of them can go on. *)
Theorem C84_calls_end : forall ops s, lrun ops s -> (forall c, steps_of c ops <= 4) /\
  ((forall c var, lstep s (LoNext c var) = None) -> forall c k, lookup c (ls_calls s) = Some k -> call_over s c).
Proof.
  intros ops s Hr. split; [|exact (no_step_all_over _ _ Hr)]. intros c. assert (H := steps_bound _ _ c Hr). destruct (lookup c (ls_calls s)) as [[]|]; cbn in H; lia.
Qed.
Print Assumptions C84_calls_end.
Theorem C84_rust_log : forall var,
  (forall s l, var = Some s -> same_letters s (level_name l) -> env_level var = l) /\
  ((forall s l, var = Some s -> ~ same_letters s (level_name l)) -> env_level var = LvInfo).
Proof.
  intros var. unfold env_level. split.
  - intros s l -> H. apply level_of_string_spec in H. cbn [option_default]. rewrite H. reflexivity.
  - intros H. destruct var as [s|]; [|reflexivity]. cbn [option_default]. destruct (level_of_string s) as [l|] eqn:E; [|reflexivity]. apply level_of_string_spec in E. exfalso. eapply H; eauto.
Qed.
Print Assumptions C84_rust_log.
Definition some_ops : list lop := [LoCall 0 None; LoCall 1 (Some LvError); LoNext 0 None; LoNext 1 None; LoNext 0 (Some "DEBUG"); LoNext 0 None; LoNext 0 None; LoNext 1 None].
Fixpoint lruns (s : lstate) (ops : list lop) : option lstate := match ops with [] => Some s | o :: r => match lstep s o with Some s' => lruns s' r | None => None end end.
Lemma lruns_run ops : forall pre s s', lrun pre s -> lruns s ops = Some s' -> lrun (pre ++ ops) s'.
Proof.
  induction ops as [|o ops IH]; intros pre s s' Hr E; cbn in E; [inv E; rewrite app_nil_r; exact Hr|]. destruct (lstep s o) as [t|] eqn:Et; [|discriminate].
  change (o :: ops) with ([o] ++ ops). rewrite app_assoc. eapply IH; [|exact E]. econstructor; eauto.
Qed.
Example C84_nonvacuous : exists s, lrun some_ops s /\ lookup 0 (ls_calls s) = Some LcReturned /\ lookup 1 (ls_calls s) = Some LcReturned /\ printed s LvDebug = true /\ printed s LvTrace = false.
Proof. eexists. split; [apply (lruns_run some_ops [] linit); [constructor|vm_compute; reflexivity]|]. repeat split. Qed.
Example C84_rust_log_cases : env_level (Some "Trace") = LvTrace /\ env_level (Some "off") = LvInfo /\ env_level None = LvInfo.
Proof. repeat split. Qed.

(** C85 *)
Section C85.
Variable show_f64 : spec_float -> string.
Variable read_f64_text : string -> option spec_float.
Variable rf : spec_float -> spec_float.
Variable D : Type.
Variable put_data : string -> D -> value.
Variable read_data : string -> value -> option D.
(** What the type [tag] writes is a JSON document from which it reads the same data back. *)
Definition faithful (tag : string) (d : D) : Prop := is_text tag /\ document (put_data tag d) /\ read_data tag (wire rf (put_data tag d)) = Some d.
Notation clone := (clone_payload show_f64 read_f64_text D put_data read_data).
(** The clone is equal to the original exactly when the data is nested at most 126 deep; otherwise cloning panics. *)
Theorem C85_clone : float_codec show_f64 read_f64_text rf -> forall tag d, faithful tag d ->
  (nesting (put_data tag d) <= 126 -> clone (Object D tag d) = Some (Object D tag d)) /\ (126 < nesting (put_data tag d) -> clone (Object D tag d) = None).
Proof.
  intros codec tag d (Ht & Hd & Hr). rewrite (clone_exact _ _ _ codec) by assumption. cbn [ob_tag ob_data]. rewrite Hr. split; intros H; destruct (Nat.leb_spec (nesting (put_data tag d)) 126); try lia; reflexivity.
Qed.
(** The payload is given back as the type it was made of, and as no other; also from the clone. *)
Theorem C85_payload_type : float_codec show_f64 read_f64_text rf -> forall tag d p, faithful tag d -> (p = Object D tag d \/ clone (Object D tag d) = Some p) ->
  payload_as D tag p = Some d /\ forall tag', tag' <> tag -> payload_as D tag' p = None.
Proof.
  intros codec tag d p F H. assert (E : p = Object D tag d).
  { destruct H as [H|H]; [exact H|]. destruct (C85_clone codec tag d F) as [H1 H2]. destruct (Nat.le_gt_cases (nesting (put_data tag d)) 126); [rewrite H1 in H by assumption|rewrite H2 in H by assumption]; congruence. }
  subst p. unfold payload_as. cbn [ob_tag ob_data]. split; [rewrite (proj2 (eqb_true _ _) eq_refl); reflexivity|]. intros tag' N. destruct (eqb tag tag') eqn:E; [apply (proj1 (eqb_true _ _)) in E; congruence|reflexivity].
Qed.
End C85.
Print Assumptions C85_clone.
Print Assumptions C85_payload_type.
Fixpoint nested (n : nat) : value := match n with 0 => VNull | S n => VSeq [nested n] end.
Lemma nested_ok n : document (nested n) /\ nesting (nested n) = n /\ wire (fun f => f) (nested n) = nested n.
Proof. induction n as [|n (H1 & H2 & H3)]; [repeat constructor|]. cbn [nested nesting wire map max_list fold_right]. rewrite H2, H3, Nat.max_0_r. repeat split. constructor. constructor; [exact H1|constructor]. Qed.
Example C85_nonvacuous : let clone := clone_payload float_text_of float_of_text value (fun _ v => v) (fun _ v => Some v) in
  clone (Object value "P" (nested 126)) = Some (Object value "P" (nested 126)) /\ clone (Object value "P" (nested 127)) = None.
Proof.
  destruct (nested_ok 126) as (D1 & N1 & W1). destruct (nested_ok 127) as (D2 & N2 & W2).
  split; [apply (C85_clone _ _ (fun f => f) value (fun _ v => v) (fun _ v => Some v) some_float_codec "P" (nested 126)); [split; [apply lit_text; reflexivity|split; [exact D1|rewrite W1; reflexivity]]|rewrite N1; lia]|].
  apply (C85_clone _ _ (fun f => f) value (fun _ v => v) (fun _ v => Some v) some_float_codec "P" (nested 127)); [split; [apply lit_text; reflexivity|split; [exact D2|rewrite W2; reflexivity]]|rewrite N2; lia].
Qed.
