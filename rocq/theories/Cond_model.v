(** Model of crates/astro-run/src/types/condition.rs and execution_context/condition_matcher.rs. *)
From Verif Require Import Base Types.

(** The glob crate: [glob::Pattern::new(p)] is an error ([None]) or a compiled pattern, which is
    represented by what [Pattern::matches] answers. Arbitrary. *)
Definition glob_oracle := string -> option (string -> bool).

Section Cond.
Variable glob : glob_oracle.

(** condition.rs:104-116, the inner loop for one value: [Some b] means "return b", [None] "next value". *)
Fixpoint match_one (value : string) (patterns : list string) : option bool :=
  match patterns with
  | [] => None
  | p :: ps =>
      match glob p with
      | Some matches => if matches value then Some true else match_one value ps
      | None => Some false
      end
  end.

(** condition.rs:102-120 *)
Fixpoint is_match_patterns (values patterns : list string) : bool :=
  match values with
  | [] => false
  | v :: vs => match match_one v patterns with
               | Some b => b
               | None => is_match_patterns vs patterns
               end
  end.

(** condition.rs:40-56 *)
Definition push_is_match (c : push_condition) (p : condition_payload) : bool :=
  if (match pc_branches c with
      | Some branches => negb (is_match_patterns [cp_branch p] branches)
      | None => false end) then false
  else if (match pc_paths c with
           | Some paths => negb (is_match_patterns (cp_paths p) paths)
           | None => false end) then false
  else true.

(** condition.rs:58-74 *)
Definition pull_request_is_match (c : pull_request_condition) (p : condition_payload) : bool :=
  if (match prc_branches c with
      | Some branches => negb (is_match_patterns [cp_branch p] branches)
      | None => false end) then false
  else if (match prc_paths c with
           | Some paths => negb (is_match_patterns (cp_paths p) paths)
           | None => false end) then false
  else true.

(** condition.rs:76-100 *)
Definition cond_is_match (c : condition) (p : condition_payload) : bool :=
  match c with
  | CEvent events => memb (cp_event p) events
  | CConfig cfg =>
      if eqb (cp_event p) "push" then
        match cc_push cfg with Some s => push_is_match s p | None => false end
      else if eqb (cp_event p) "pull_request" then
        match cc_pull_request cfg with Some s => pull_request_is_match s p | None => false end
      else false
  end.

(** What GitHub answers during one [condition_payload] call (condition_matcher.rs:81-180): obtaining the
    api object (personal token: always Ok; app: installation and token requests), the commit's files,
    the pull request's files. Arbitrary, and may differ from call to call. *)
Record github := GitHub {
  gh_api : result unit;
  gh_commit : result (option (list string));
  gh_pull_files : Z -> result (list string) }.

(** condition_matcher.rs:81-103 *)
Definition get_push_changed_files (gh : github) : result (list string) :=
  let? _ := gh_api gh in
  let? files := gh_commit gh in
  Ok (option_default [] files).

(** condition_matcher.rs:105-128 *)
Definition get_pull_request_changed_files (gh : github) (ev : trigger_event) : result (list string) :=
  let? _ := gh_api gh in
  match te_pr_number ev with
  | None => Err (WorkflowConfigError "pr_number is not provided")
  | Some n => gh_pull_files gh n
  end.

(** condition_matcher.rs:68-79 *)
Definition get_changed_files (gh : github) (ev : trigger_event) : result (list string) :=
  if eqb (te_event ev) "push" then get_push_changed_files gh
  else if eqb (te_event ev) "pull_request" then get_pull_request_changed_files gh ev
  else Err (UnsupportedFeature ("Event " +++ te_event ev +++ " is not supported")).

(** condition_matcher.rs:53-66 *)
Definition fetch_payload (gh : github) (ev : trigger_event) : result condition_payload :=
  let? files := get_changed_files gh ev in
  Ok (ConditionPayload (te_event ev) (te_branch ev) files).

(** [ConditionMatcher] configuration: is GitHub authorization present, the trigger event.
    condition_matcher.rs:6-20; the cache [payload] is a separate argument below. *)
Record matcher := Matcher { cm_auth : bool; cm_event : option trigger_event }.

(** condition_matcher.rs:22-36, up to releasing the cache lock:
    decided, or a fetch is needed (for this event). *)
Inductive first_half := Decided (b : bool) | NeedFetch (ev : trigger_event).
Definition is_match_first (m : matcher) (cache : option condition_payload) (c : condition) : first_half :=
  if negb (cm_auth m) then Decided true
  else match cm_event m with
       | None => Decided true
       | Some ev => match cache with
                    | Some p => Decided (cond_is_match c p)
                    | None => NeedFetch ev
                    end
       end.

(** condition_matcher.rs:38-50, after the fetch: new cache and the answer. *)
Definition is_match_second (fetched : result condition_payload) (cache : option condition_payload) (c : condition)
  : option condition_payload * bool :=
  match fetched with
  | Ok p => (Some p, cond_is_match c p)
  | Err _ => (cache, true)
  end.

(** The whole call when nothing else touches the cache meanwhile. *)
Definition is_match (m : matcher) (gh : github) (cache : option condition_payload) (c : condition)
  : option condition_payload * bool :=
  match is_match_first m cache c with
  | Decided b => (cache, b)
  | NeedFetch ev => is_match_second (fetch_payload gh ev) cache c
  end.

(** workflow/step.rs:19-25, workflow/job.rs:124-130, workflow/mod.rs:163-169 [should_skip] *)
Definition should_skip (m : matcher) (gh : github) (cache : option condition_payload) (on : option condition)
  : option condition_payload * bool :=
  match on with
  | None => (cache, false)
  | Some c => let '(cache', b) := is_match m gh cache c in (cache', negb b)
  end.

(** ** The matcher shared by concurrently running jobs: calls are split at the await point. *)
Record cm_state := CmState {
  cms_cache : option condition_payload;
  cms_inflight : map_ nat (condition * trigger_event) }.
Inductive cm_op :=
| CmStart (call : nat) (c : condition)     (* first half of call number [call] *)
| CmFinish (call : nat) (gh : github).     (* GitHub has answered; second half *)
Inductive cm_out := CmAnswer (b : bool) | CmFetching | CmNone.

Definition cm_step (m : matcher) (s : cm_state) (o : cm_op) : cm_state * cm_out :=
  match o with
  | CmStart call c =>
      match is_match_first m (cms_cache s) c with
      | Decided b => (s, CmAnswer b)
      | NeedFetch ev => (CmState (cms_cache s) (insert call (c, ev) (cms_inflight s)), CmFetching)
      end
  | CmFinish call gh =>
      match lookup call (cms_inflight s) with
      | None => (s, CmNone)
      | Some (c, ev) =>
          let '(cache', b) := is_match_second (fetch_payload gh ev) (cms_cache s) c in
          (CmState cache' (remove call (cms_inflight s)), CmAnswer b)
      end
  end.
Definition cm_init : cm_state := CmState None [].
Definition cm_after (m : matcher) (ops : list cm_op) : cm_state :=
  fold_left (fun s o => fst (cm_step m s o)) ops cm_init.
Definition cm_output (m : matcher) (ops : list cm_op) (o : cm_op) : cm_out :=
  snd (cm_step m (cm_after m ops) o).
End Cond.
