(** The repository's integration tests of conditions (crates/astro-run/tests/on.rs) on the model, for every schedule: the YAML trees of the tests, a runner whose steps succeed, and
    conditions decided by [Condition::is_match] on what GitHub answers for the commits the tests name (branch [main], the files listed in the test), with the glob library's answers
    on those files. *)
From Verif Require Import Base Types Signals_model Cond_model Config_model Config_props Serde_model Yaml_model Yaml_props Exec_model Exec_spec Workflow_model Workflow_spec Workflow_props
  Outcome_spec Outcome_props Conform_config.

Definition on_files := [".cargo/config.toml"; ".github/workflows/test.yml"; "Cargo.toml"; "crates/astro-run-remote-runner/tests/protocol.rs"; "crates/astro-run-remote-runner/tests/test.rs";
  "crates/astro-run-server/tests/protocol.rs"; "crates/astro-run-server/tests/test.rs"; "crates/astro-runner/src/lib.rs"].
Definition on_glob : glob_oracle := fun p =>
  if eqb p "crates/astro-run-server/**/*.rs" then Some (fun v => memb v ["crates/astro-run-server/tests/protocol.rs"; "crates/astro-run-server/tests/test.rs"])
  else if eqb p "crates/astro-run/**/*.rs" then Some (fun _ => false)
  else Some (fun v => eqb v p).
Definition on_push (c : condition) : bool := cond_is_match on_glob c (ConditionPayload "push" "main" on_files).
Definition on_pull_request (c : condition) : bool := cond_is_match on_glob c (ConditionPayload "pull_request" "main" on_files).
Definition on_build (doc : node) : result workflow :=
  build t_time (decode_config t_number (fun _ _ => false) (fun _ => Some doc) (fun _ => "")) no_actions (Some "id") (Some "text") "uuid".
Definition succeeds : string -> nat -> wf_state := fun _ _ => Succeeded.
(** In every finished run of the workflow built from [doc] whose conditions are answered by [matches], the result has state [ws] and exactly the jobs [jobs], in these states. *)
Definition on_gives (doc : node) (matches : condition -> bool) (jobs : list (string * wf_state * list wf_state)) (ws : wf_state) : Prop :=
  exists wf, on_build doc = Ok wf /\
    forall glob cx ls s tr r, wrun glob cx wf ls s tr -> ws_main s = WpDone r -> came_out matches succeeds tr ->
      wr_state r = ws /\ (forall k, In k (keys (wr_jobs r)) <-> In k (map (fun e => fst (fst e)) jobs)) /\
      forall k js ss, In (k, js, ss) jobs -> exists jr, lookup k (wr_jobs r) = Some jr /\ jr_state jr = js /\ map sr_state (jr_steps jr) = ss.

Definition on_cond (c : string) (fields : list (string * list string)) : string * node := (c, t_fields (map (fun '(f, l) => (f, t_strs l)) fields)).
Definition on_step (run : string) (on : list (string * node)) : node := t_fields (("run", t_pl run) :: match on with [] => [] | _ => [("on", t_fields on)] end).
Definition on_doc (on : list (string * node)) (jobs : list (string * list (string * node))) : node :=
  t_fields [("on", t_fields on); ("jobs", t_fields (map (fun '(k, fs) => (k, t_fields fs)) jobs))].

Ltac by_on :=
  eexists; split; [vm_compute; reflexivity|]; intros glob cx ls s tr r R Em CO;
  match type of R with wrun _ _ ?wf _ _ _ =>
    assert (Hnd : NoDup (keys (wf_jobs wf))) by (change (keys (wf_jobs wf)) with (nodup string_dec (keys (wf_jobs wf))); apply NoDup_nodup);
    generalize (C116_outcome _ _ _ _ _ _ _ _ _ Hnd R Em CO); clear; unfold outcome;
    match goal with |- (if ?b then _ else _) -> _ => let v := eval vm_compute in b in change b with v end; cbv iota
  end.
Ltac by_skip := by_on; intros [-> ->]; (split; [reflexivity|]); split; [reflexivity|intros ? ? ? []].
Ltac by_jobs := by_on; intros [K [J S]];
    split; [destruct S as [[N ->]|[B (k & j & Hin & E)]];
     [reflexivity|exfalso; repeat (destruct Hin as [Hin|Hin]); try (exact Hin); injection Hin as <- <-; rewrite <- E in B; vm_compute in B; destruct B as [B|B]; discriminate B]
    |]; split; [intros k; rewrite K; reflexivity|];
    intros k js ss Hin; repeat (destruct Hin as [Hin|Hin]); try (exfalso; exact Hin); injection Hin as <- <- <-;
     match goal with |- exists jr, lookup ?k _ = _ /\ _ =>
       eassert (HJ := J k _ ltac:(cbn; repeat (first [left; reflexivity|right]))); destruct HJ as (jr & Hl & HE); exists jr; split; [exact Hl|];
       match type of HE with _ = ?rhs => let v := eval vm_compute in rhs in change rhs with v in HE end; injection HE as -> ->; split; reflexivity end.

(** on.rs:78-115 *)
Example test_workflow_skipped : on_gives (on_doc [on_cond "push" [("branches", ["master"])]] [("test", [("steps", NSeq [on_step "Hello World" []])])]) on_push [] Skipped.
Proof. by_skip. Qed.
(** on.rs:117-276: the same workflow with the credentials of an app and of a person. *)
Definition push_doc := on_doc [on_cond "push" [("branches", ["main"])]]
  [("test", [("steps", NSeq [on_step "Skipped" [on_cond "push" [("branches", ["not-main"])]; on_cond "pull_request" [("paths", ["crates/astro-run-server/**/*.rs"])]];
                             on_step "Hello World" []; on_step "Skipped" [on_cond "pull_request" [("paths", ["crates/astro-run-server/**/*.rs"])]]])]);
   ("skip", [("on", t_fields [on_cond "push" [("paths", ["crates/astro-run/**/*.rs"])]]); ("steps", NSeq [on_step "Skipped" []])])].
Example test_push_event : on_gives push_doc on_push [("test", Succeeded, [Skipped; Succeeded; Skipped]); ("skip", Skipped, [])] Succeeded.
Proof. by_jobs. Qed.
(** on.rs:278-353 *)
Definition pull_request_doc := on_doc [on_cond "pull_request" [("branches", ["main"])]]
  [("test", [("steps", NSeq [on_step "Skipped" [on_cond "push" [("branches", ["main"])]; on_cond "pull_request" [("paths", ["crates/astro-run/**/*.rs"])]];
                             on_step "Hello World" []; on_step "Skipped" [on_cond "push" [("branches", ["main"])]]])]);
   ("skip", [("on", t_fields [on_cond "push" [("paths", ["crates/astro-run-server/**/*.rs"])]]); ("steps", NSeq [on_step "Skipped" []])])].
Example test_pull_request_event : on_gives pull_request_doc on_pull_request [("test", Succeeded, [Skipped; Succeeded; Skipped]); ("skip", Skipped, [])] Succeeded.
Proof. by_jobs. Qed.
(** on.rs:355-427 *)
Definition one_doc (ev : string) := on_doc [on_cond ev [("branches", ["main"])]] [("test", [("steps", NSeq [on_step "Skipped" []])])].
Example test_only_pull_request_event : on_gives (one_doc "pull_request") on_push [] Skipped.
Proof. by_skip. Qed.
Example test_only_push_event : on_gives (one_doc "push") on_pull_request [] Skipped.
Proof. by_skip. Qed.
