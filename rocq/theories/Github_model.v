(** Model of the requests made to GitHub to judge a condition: condition_matcher.rs:22-205, with the requests themselves as effects.
    [Cond_model] takes what comes back as given; here the exchange is modelled, and [Github_props] shows the two agree. *)
From Verif Require Import Base Types Ids_model Cond_model Setup_model.

(** The credential a [GitHubAPI] object is built with (condition_matcher.rs:176-204): a personal token, the application's id and key
    (octocrate turns them into a signed token for each request), or an installation token received from GitHub. *)
Inductive credential := CrPersonal (token : string) | CrApp (app_id private_key : string) | CrInstallation (token : string).

(** The four requests (condition_matcher.rs:90-95, :114-122, :152-155, :164-167). None of them carries a query parameter: in particular
    [list_files] asks for no page, [RqPullFiles] is the first page of GitHub's default size. *)
Inductive gh_request :=
| RqCommit (owner repo sha : string)
| RqPullFiles (owner repo : string) (number : Z)
| RqInstallation (owner repo : string)
| RqAccessToken (installation : N).

(** A request's answer: a value or the text of octocrate's error. *)
Definition answer (A : Type) : Type := (A + string)%type.
(** GitHub during one call. Each request is sent at most once in a call, so a function of request and credential is the most general
    behaviour; it may change from call to call. *)
Record gh_server := GhServer {
  sv_commit : credential -> string -> string -> string -> answer (option (list string));
  sv_pull_files : credential -> string -> string -> Z -> answer (list string);
  sv_installation : credential -> string -> string -> answer N;
  sv_access_token : credential -> N -> answer string }.

(** A computation that sends requests: its result and what it sent, in order, with which credential. *)
Definition asked := list (credential * gh_request).
Definition io (A : Type) : Type := (result A * asked)%type.
Definition io_bind {A B} (x : io A) (f : A -> io B) : io B :=
  match fst x with
  | Ok a => let '(r, l) := f a in (r, snd x ++ l)
  | Err e => (Err e, snd x)
  end.
Notation "'let!' a := x 'in' f" := (io_bind x (fun a => f)) (at level 200, a pattern, x at level 100, f at level 200, right associativity).
(** [.send().await.map_err(|e| Error::internal_runtime_error(format!("{what}: {}", e)))] *)
Definition send {A} (cr : credential) (rq : gh_request) (a : answer A) (what : string) : io A :=
  (match a with inl v => Ok v | inr e => Err (InternalRuntimeError (what +++ ": " +++ e)) end, [(cr, rq)]).
Definition pure {A} (r : result A) : io A := (r, []).

(** types/mod.rs:30-32 *)
Definition is_personal_access_token (a : github_auth) : bool := match a with PersonalAccessToken _ => true | GithubApp _ _ => false end.

(** condition_matcher.rs:182-204 *)
Definition create_github_api (a : github_auth) : credential :=
  match a with
  | PersonalAccessToken token => CrPersonal token
  | GithubApp app_id private_key => CrApp (show_usize app_id) private_key
  end.

(** condition_matcher.rs:145-180 *)
Definition create_github_api_by_app_authorization (sv : gh_server) (a : github_auth) (owner repo : string) : io credential :=
  let github_api := create_github_api a in
  let! installation := send github_api (RqInstallation owner repo) (sv_installation sv github_api owner repo) "Failed to get installation for repository" in
  let! token := send github_api (RqAccessToken installation) (sv_access_token sv github_api installation) "Failed to create installation access token" in
  pure (Ok (CrInstallation token)).

(** condition_matcher.rs:130-143 *)
Definition get_github_api_by_repo (sv : gh_server) (a : github_auth) (owner repo : string) : io credential :=
  if is_personal_access_token a then pure (Ok (create_github_api a))
  else create_github_api_by_app_authorization sv a owner repo.

(** condition_matcher.rs:81-103 *)
Definition get_push_changed_files_io (sv : gh_server) (a : github_auth) (ev : trigger_event) : io (list string) :=
  let! github_api := get_github_api_by_repo sv a (te_repo_owner ev) (te_repo_name ev) in
  let! commit_files := send github_api (RqCommit (te_repo_owner ev) (te_repo_name ev) (te_sha ev))
      (sv_commit sv github_api (te_repo_owner ev) (te_repo_name ev) (te_sha ev)) "Failed to get commit" in
  pure (Ok (option_default [] commit_files)).

(** condition_matcher.rs:105-128 *)
Definition get_pull_request_changed_files_io (sv : gh_server) (a : github_auth) (ev : trigger_event) : io (list string) :=
  let! github_api := get_github_api_by_repo sv a (te_repo_owner ev) (te_repo_name ev) in
  let! number := pure (match te_pr_number ev with Some n => Ok n | None => Err (WorkflowConfigError "pr_number is not provided") end) in
  send github_api (RqPullFiles (te_repo_owner ev) (te_repo_name ev) number)
    (sv_pull_files sv github_api (te_repo_owner ev) (te_repo_name ev) number) "Failed to get pull request files".

(** condition_matcher.rs:68-79 *)
Definition get_changed_files_io (sv : gh_server) (a : github_auth) (ev : trigger_event) : io (list string) :=
  if eqb (te_event ev) "push" then get_push_changed_files_io sv a ev
  else if eqb (te_event ev) "pull_request" then get_pull_request_changed_files_io sv a ev
  else pure (Err (UnsupportedFeature ("Event " +++ te_event ev +++ " is not supported"))).

(** condition_matcher.rs:53-66 *)
Definition condition_payload_io (sv : gh_server) (a : github_auth) (ev : trigger_event) : io condition_payload :=
  let! files := get_changed_files_io sv a ev in
  pure (Ok (ConditionPayload (te_event ev) (te_branch ev) files)).

(** condition_matcher.rs:22-51, as one call: the new cache, the answer, and the requests sent. *)
Definition is_match_io (glob : glob_oracle) (auth : option github_auth) (event : option trigger_event) (sv : gh_server)
    (cache : option condition_payload) (c : condition) : option condition_payload * bool * asked :=
  match auth with
  | None => (cache, true, [])
  | Some a =>
      match event with
      | None => (cache, true, [])
      | Some ev =>
          match cache with
          | Some p => (cache, cond_is_match glob c p, [])
          | None =>
              match condition_payload_io sv a ev with
              | (Ok p, l) => (Some p, cond_is_match glob c p, l)
              | (Err _, l) => (cache, true, l)
              end
          end
      end
  end.

(** A run's condition checks one after the other, sharing the cache: the answers and all requests. GitHub may answer each call differently. *)
Fixpoint checks_io (glob : glob_oracle) (auth : option github_auth) (event : option trigger_event)
    (cache : option condition_payload) (calls : list (gh_server * condition)) : list bool * asked :=
  match calls with
  | [] => ([], [])
  | (sv, c) :: rest =>
      let '(cache', b, l) := is_match_io glob auth event sv cache c in
      let '(bs, l') := checks_io glob auth event cache' rest in
      (b :: bs, l ++ l')
  end.
