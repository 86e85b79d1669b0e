(** C117: from the text of the config to the result of the run; C116 and C117 on the built-in runner, on remote runners, and on remote runners with the built-in runner. *)
From Verif Require Import Base Types Signals_model Signals_proof Stream_model Stream_spec Stream_proof Cond_model Config_model Config_spec Config_proof Config_props Serde_model Yaml_model Yaml_spec Yaml_proof Yaml_props
  Plugins_model Plugins_spec Plugins_proof Exec_model Exec_spec Step_proof Job_proof Timing_proof Step_props Job_props Workflow_model Workflow_spec Workflow_proof Workflow_inv Workflow_term Workflow_props
  Paths_model Docker_model Runner_model Runner_spec Runner_proof Sched_model Local_model Local_spec Local_proof Local_props Remote_model Remote_spec Distant_model Distant_spec Distant_proof Distant_props
  System_model System_spec System_proof System_flow System_inst System_props Finish_spec Finish_proof Finish_step Finish_cycle Finish_props Rest_props
  Worker_model Worker_spec Worker_proof Worker_live Worker_props Chain_model Chain_spec Chain_proof Chain_props Outcome_spec Outcome_proof Outcome_props Whole_spec.

(** *** C116 for whole systems *)
Theorem C116_systems : forall wf matches res, NoDup (keys (wf_jobs wf)) ->
  (forall glob cx rhooks conf sh0 ops s tr r, sysrun (builtin cx rhooks conf) glob cx wf sh0 ops s tr -> ws_main (sy_w s) = WpDone r ->
     came_out matches res (flow_of (builtin cx rhooks conf) tr) -> outcome matches res wf r) /\
  (forall glob cx cl sh0 ops s tr r, sysrun (distant cx cl) glob cx wf sh0 ops s tr -> ws_main (sy_w s) = WpDone r ->
     came_out matches res (flow_of (distant cx cl) tr) -> outcome matches res wf r) /\
  (forall glob cx cl sv rhooks conf sh0 ops s tr r, sysrun (chained cx cl sv rhooks conf) glob cx wf sh0 ops s tr -> ws_main (sy_w s) = WpDone r ->
     came_out matches res (flow_of (chained cx cl sv rhooks conf) tr) -> outcome matches res wf r).
Proof.
  intros wf matches res Hnd. repeat split; intros.
  - destruct (C105_engine _ _ _ _ _ _ _ _ _ H) as (wls & W & _). eapply C116_outcome; eassumption.
  - destruct (C107_engine _ _ _ _ _ _ _ _ H) as (wls & W & _). eapply C116_outcome; eassumption.
  - destruct (C113_engine _ _ _ _ _ _ _ _ _ _ _ H) as (wls & W & _). eapply C116_outcome; eassumption.
Qed.
Print Assumptions C116_systems.

(** *** C117 *)
Lemma carried_outcomes matches res k pd jc us sts : Forall2 (carries pd jc) us sts -> forall n f c,
  step_outcomes matches res k n f c sts = command_outcomes matches res k n f c us.
Proof.
  induction 1 as [|u st us sts (uc & -> & _ & Ho & _ & Hc & _) _ IH]; intros n f c; [reflexivity|]. cbn [step_outcomes command_outcomes]. rewrite Ho, Hc, IH. reflexivity.
Qed.
Lemma outcomes_length matches res k sts : forall n f c, length (step_outcomes matches res k n f c sts) = length sts.
Proof. induction sts as [|st sts IH]; intros; [reflexivity|]. cbn [step_outcomes length]. f_equal. apply IH. Qed.
Lemma forall2_length {A B} (P : A -> B -> Prop) l l' : Forall2 P l l' -> length l = length l'.
Proof. induction 1; cbn; congruence. Qed.
Lemma built_jobs pd env id (l : map_ string user_job) (l' : map_ string job) :
  Forall2 (fun '(k, j) '(k', jb) => k' = k /\ built_job pd env id k j jb) l l' ->
  keys l' = keys l /\ (forall k uj, In (k, uj) l -> exists j, In (k, j) l' /\ built_job pd env id k uj j) /\
  (forall k j, In (k, j) l' -> exists uj, In (k, uj) l /\ built_job pd env id k uj j).
Proof.
  induction 1 as [|[k uj] [k' j] l l' [-> B] _ (IH1 & IH2 & IH3)]; [split; [reflexivity|split; intros ? ? []]|].
  split; [unfold keys in *; cbn; congruence|]. split; intros k1 x [E|H].
  - injection E as <- <-. exists j. split; [left; reflexivity|exact B].
  - destruct (IH2 _ _ H) as (j1 & H1 & B1). exists j1. split; [right; exact H1|exact B1].
  - injection E as <- <-. exists uj. split; [left; reflexivity|exact B].
  - destruct (IH3 _ _ H) as (j1 & H1 & B1). exists j1. split; [right; exact H1|exact B1].
Qed.

(** What a user writes determines, with what the steps and the conditions come to, what a finished run says. *)
Theorem C117_config_to_result : forall pd number same_yaml compose message env id config uuid wf,
  build pd (decode_config number same_yaml compose message) env id config uuid = Ok wf ->
  exists text n w, config = Some text /\ compose text = Some n /\ workflow_shape same_yaml number n w /\ acceptable (uw_jobs w) /\
    forall glob cx ls s tr r matches res, wrun glob cx wf ls s tr -> ws_main s = WpDone r -> came_out matches res tr ->
      user_outcome matches res env (match id with Some i => i | None => uuid end) w r.
Proof.
  intros pd number same_yaml compose message env id config uuid wf HB. apply C77_build in HB as (t & n & w & Hc & Hn & Hw & Ha & Hi & _ & Ho & HJ).
  exists t, n, w. repeat (split; [assumption|]). intros glob cx ls s tr r matches res R Em CO.
  destruct (built_jobs _ _ _ _ _ HJ) as (Hkeys & Hj & Hj').
  assert (Hnd : NoDup (keys (wf_jobs wf))) by (rewrite Hkeys; eapply workflow_shape_NoDup; exact Hw).
  assert (O := C116_outcome _ _ _ _ _ _ _ _ _ Hnd R Em CO). destruct (C36_final_state _ _ _ _ _ _ _ Hnd R Em) as [Hid F].
  split; [congruence|]. unfold outcome in O. rewrite Ho in O. destruct (allowed matches (uw_on w)); [|exact O]. destruct O as (K & J & S).
  split; [intros k; rewrite <- Hkeys; apply K|]. split.
  - intros k uj Hk. destruct (Hj _ _ Hk) as (j & Hin & B). destruct (J _ _ Hin) as (jr & Hl & E). exists jr. split; [exact Hl|].
    destruct B as (Bi & _ & Bo & _ & _ & _ & es & He & Hs). unfold user_job_outcome. split.
    + destruct F as [(_ & E0 & _)|(_ & _ & F)]; [rewrite E0 in Hl; discriminate Hl|]. apply F in Hl as (b & a & Er & _).
      assert (Hr : In (k, jr) (received tr)) by (rewrite Er; apply in_or_app; right; left; reflexivity).
      destruct (Outcome_props.received_ran _ _ _ Hnd _ _ _ _ _ R Hr) as (i & j' & _ & Hj0 & St).
      assert (j' = j) by (apply (In_lookup _ _ _ Hnd) in Hj0, Hin; congruence). subst j'. rewrite <- Bi. destruct St; reflexivity.
    + unfold job_outcome in E. rewrite Bo in E. destruct (allowed matches (uj_on uj)).
      * injection E as Es El. exists es. split; [exact He|]. split; [rewrite El; eapply carried_outcomes; exact Hs|]. split; [|rewrite Es, El; reflexivity].
        rewrite <- (map_length sr_state), El, outcomes_length, <- (forall2_length _ _ _ Hs), !app_length, rev_length. reflexivity.
      * injection E as Es El. split; [exact Es|]. destruct (jr_steps jr); [reflexivity|discriminate El].
  - destruct S as [[N E]|[B (k & j & Hin & E)]]; [left|right]; (split; [|try exact E]).
    + intros k jr Hl Hb. assert (Hk : In k (keys (wf_jobs wf))) by (apply K; apply lookup_is_Some; exists jr; exact Hl).
      apply in_map_iff in Hk as ([k' j] & Ek & Hin). cbn [fst] in Ek. subst k'. destruct (J _ _ Hin) as (jr' & Hl' & E'). assert (jr' = jr) by congruence. subst jr'.
      apply (N _ _ Hin). rewrite <- E'. exact Hb.
    + exact B.
    + destruct (J _ _ Hin) as (jr & Hl & E'). exists k, jr. split; [exact Hl|]. rewrite <- E, <- E'. reflexivity.
Qed.
Print Assumptions C117_config_to_result.

(** The same from the text of the config on each kind of runner, and the run can always be brought to its end when no dependency cycle was written (C109; here on the built-in
    runner). *)
Theorem C117_systems : forall pd number same_yaml compose message env id config uuid wf,
  build pd (decode_config number same_yaml compose message) env id config uuid = Ok wf ->
  exists text n w, config = Some text /\ compose text = Some n /\ workflow_shape same_yaml number n w /\ acceptable (uw_jobs w) /\
    forall matches res,
    (forall glob cx rhooks conf sh0 ops s tr r, sysrun (builtin cx rhooks conf) glob cx wf sh0 ops s tr -> ws_main (sy_w s) = WpDone r ->
       came_out matches res (flow_of (builtin cx rhooks conf) tr) -> user_outcome matches res env (match id with Some i => i | None => uuid end) w r) /\
    (forall glob cx cl sh0 ops s tr r, sysrun (distant cx cl) glob cx wf sh0 ops s tr -> ws_main (sy_w s) = WpDone r ->
       came_out matches res (flow_of (distant cx cl) tr) -> user_outcome matches res env (match id with Some i => i | None => uuid end) w r) /\
    (forall glob cx cl sv rhooks conf sh0 ops s tr r, sysrun (chained cx cl sv rhooks conf) glob cx wf sh0 ops s tr -> ws_main (sy_w s) = WpDone r ->
       came_out matches res (flow_of (chained cx cl sv rhooks conf) tr) -> user_outcome matches res env (match id with Some i => i | None => uuid end) w r).
Proof.
  intros pd number same_yaml compose message env id config uuid wf HB.
  destruct (C117_config_to_result _ _ _ _ _ _ _ _ _ _ HB) as (t & n & w & H1 & H2 & H3 & H4 & H). exists t, n, w. repeat (split; [assumption|]).
  intros matches res. split; [|split]; intros.
  - destruct (C105_engine _ _ _ _ _ _ _ _ _ H0) as (wls & W & _). eapply H; eassumption.
  - destruct (C107_engine _ _ _ _ _ _ _ _ H0) as (wls & W & _). eapply H; eassumption.
  - destruct (C113_engine _ _ _ _ _ _ _ _ _ _ _ H0) as (wls & W & _). eapply H; eassumption.
Qed.
Print Assumptions C117_systems.

(** The repository's own integration tests (crates/astro-run/tests/test.rs), from the YAML tree to the result, for every schedule. The runner of those tests makes a step fail or be
    cancelled according to its container. *)
Definition t_step (fields : list (string * string)) : node := NMap (map (fun '(k, v) => (pl k, pl v)) fields).
Definition t_doc (jobs : list (string * list (node * node))) : node := NMap [(pl "jobs", NMap (map (fun '(k, fs) => (pl k, NMap fs)) jobs))].
Definition t_build (doc : node) : result workflow :=
  build ex_pd (decode_config (fun _ => NotNumber) (fun _ _ => false) (fun _ => Some doc) (fun _ => "")) (BuildEnv [] []) (Some "id") (Some "text") "uuid".
(** In every finished run of the workflow built from [doc], [k] comes to state [js] with steps in states [ss] and the workflow to [ws]. *)
Definition always_gives (doc : node) (res : string -> nat -> wf_state) (jobs : list (string * wf_state * list wf_state)) (ws : wf_state) : Prop :=
  exists wf, t_build doc = Ok wf /\
    forall glob cx ls s tr r, wrun glob cx wf ls s tr -> ws_main s = WpDone r -> came_out (fun _ => true) res tr ->
      wr_state r = ws /\ forall k js ss, In (k, js, ss) jobs -> exists jr, lookup k (wr_jobs r) = Some jr /\ jr_state jr = js /\ map sr_state (jr_steps jr) = ss.

Definition by_container (doc : list (string * list (option string))) (k : string) (n : nat) : wf_state :=
  match lookup k doc with
  | Some l => match nth_error l n with Some (Some "failed") => Failed | Some (Some "cancel") => Cancelled | _ => Succeeded end
  | None => Succeeded
  end.

Ltac by_outcome :=
  eexists; split; [vm_compute; reflexivity|]; intros glob cx ls s tr r R Em CO;
  match type of R with wrun _ _ ?wf _ _ _ =>
    assert (Hnd : NoDup (keys (wf_jobs wf))) by (change (keys (wf_jobs wf)) with (nodup string_dec (keys (wf_jobs wf))); apply NoDup_nodup);
    generalize (C116_outcome _ _ _ _ _ _ _ _ _ Hnd R Em CO); clear; intros [_ [J S]]; split;
    [destruct S as [[N ->]|[B (k & j & Hin & E)]];
     [first [reflexivity|exfalso; eapply N; [left; reflexivity|cbn; (left; reflexivity) || (right; reflexivity)]]
     |rewrite <- E; repeat (destruct Hin as [Hin|Hin]); try (exfalso; exact Hin); injection Hin as <- <-; 
      first [reflexivity|exfalso; rewrite <- E in B; vm_compute in B; destruct B as [B|B]; discriminate B]]
    |intros k js ss Hin; repeat (destruct Hin as [Hin|Hin]); try (exfalso; exact Hin); injection Hin as <- <- <-;
     match goal with |- exists jr, lookup ?k _ = _ /\ _ =>
       eassert (HJ := J k _ ltac:(cbn; repeat (first [left; reflexivity|right]))); destruct HJ as (jr & Hl & HE); exists jr; split; [exact Hl|];
       match type of HE with _ = ?rhs => let v := eval vm_compute in rhs in change rhs with v in HE end; injection HE as -> ->; split; reflexivity end]
  end.

Example C117_test_failed_step : always_gives
  (t_doc [("test", [(pl "steps", NSeq [t_step [("container", "failed"); ("run", "Failed step")]; t_step [("run", "Skipped step")]])])])
  (by_container [("test", [Some "failed"; None])])
  [("test", Failed, [Failed; Skipped])] Failed.
Proof. by_outcome. Qed.
Example C117_test_continue_on_error : always_gives
  (t_doc [("test", [(pl "steps", NSeq [t_step [("container", "failed"); ("run", "Failed step")]; t_step [("continue-on-error", "true"); ("run", "Hello World")]; t_step [("run", "Skipped step")]])])])
  (by_container [("test", [Some "failed"; None; None])])
  [("test", Failed, [Failed; Succeeded; Skipped])] Failed.
Proof. by_outcome. Qed.
Example C117_test_cancel_step : always_gives
  (t_doc [("test", [(pl "steps", NSeq [t_step [("container", "cancel"); ("run", "Cancel step")]; t_step [("continue-on-error", "true"); ("run", "Skipped step")]; t_step [("run", "Skipped step")]])])])
  (by_container [("test", [Some "cancel"; None; None])])
  [("test", Cancelled, [Cancelled; Skipped; Skipped])] Cancelled.
Proof. by_outcome. Qed.
Example C117_test_depends_on : always_gives
  (t_doc [("test", [(pl "name", pl "Test Job"); (pl "steps", NSeq [t_step [("run", "Hello World1")]])]);
          ("depends_test", [(pl "name", pl "Depends Test Job"); (pl "depends-on", NSeq [pl "test"]); (pl "steps", NSeq [t_step [("run", "Hello World2")]])]);
          ("depends_test2", [(pl "name", pl "Depends Test Job"); (pl "depends-on", NSeq [pl "test"; pl "depends_test"]); (pl "steps", NSeq [t_step [("run", "Hello World3")]])])])
  (by_container [])
  [("test", Succeeded, [Succeeded]); ("depends_test", Succeeded, [Succeeded]); ("depends_test2", Succeeded, [Succeeded])] Succeeded.
Proof. by_outcome. Qed.

(** Such a run of the first of these exists (hypotheses of C116 and C117). *)
Definition c117_doc := t_doc [("test", [(pl "steps", NSeq [t_step [("container", "failed"); ("run", "Failed step")]; t_step [("run", "Skipped step")]])])].
Definition c117_run : list wop := repeat WMain 6 ++ map (WTaskOp 0) (job_begin ++ job_open ++
  [JStep (OpRunner (REndCheck 1 (RFailed 1))); JStep (OpRunner (REndCommit 1)); JStep OpStream] ++ repeat (JStep OpNext) 4 ++ repeat JNext 7) ++ WSend 0 :: repeat WMain 4.
Example C117_nonvacuous : exists wf s tr r, t_build c117_doc = Ok wf /\ wrun (fun _ => None) c26_cx wf c117_run s tr /\ ws_main s = WpDone r /\
  came_out (fun _ => true) (by_container [("test", [Some "failed"; None])]) tr /\ wr_state r = Failed.
Proof.
  do 4 eexists. split; [vm_compute; reflexivity|].
  split; [match goal with |- wrun _ _ ?wf _ _ _ => eapply (wexec_run (fun _ => None) c26_cx wf c117_run [] (winit c33_sh) []); [constructor|vm_compute; reflexivity] end|].
  split; [reflexivity|]. split; [|reflexivity]. split.
  - intros w c b Hin. exfalso. vm_compute in Hin. repeat (destruct Hin as [Hin|Hin]; [discriminate Hin|]). exact Hin.
  - intros k r n x Hin; vm_compute in Hin; destruct Hin as [E|[]]; injection E as <- <-; destruct n as [|[|[|n]]]; cbn; intros Hx Hs; try discriminate Hx; injection Hx as <-; [reflexivity|].
    exfalso. apply Hs. reflexivity.
Qed.
