(** The exchange with GitHub for a condition, as a small relation: which requests are sent, with which credential, and how it ends. *)
From Verif Require Import Base Types Ids_model Setup_model Github_model.

(** How the right to read a repository is obtained. A personal token is used as it is. A GitHub App asks, in its own name, for the
    installation in the repository and then for a token of that installation; it stops at the first refusal. *)
Inductive admitted (sv : gh_server) (owner repo : string) : github_auth -> asked -> credential + string -> Prop :=
| ad_personal token : admitted sv owner repo (PersonalAccessToken token) [] (inl (CrPersonal token))
| ad_no_installation id key e :
    sv_installation sv (CrApp (show_usize id) key) owner repo = inr e ->
    admitted sv owner repo (GithubApp id key) [(CrApp (show_usize id) key, RqInstallation owner repo)]
      (inr ("Failed to get installation for repository: " +++ e))
| ad_no_token id key i e :
    sv_installation sv (CrApp (show_usize id) key) owner repo = inl i ->
    sv_access_token sv (CrApp (show_usize id) key) i = inr e ->
    admitted sv owner repo (GithubApp id key)
      [(CrApp (show_usize id) key, RqInstallation owner repo); (CrApp (show_usize id) key, RqAccessToken i)]
      (inr ("Failed to create installation access token: " +++ e))
| ad_installation id key i token :
    sv_installation sv (CrApp (show_usize id) key) owner repo = inl i ->
    sv_access_token sv (CrApp (show_usize id) key) i = inl token ->
    admitted sv owner repo (GithubApp id key)
      [(CrApp (show_usize id) key, RqInstallation owner repo); (CrApp (show_usize id) key, RqAccessToken i)]
      (inl (CrInstallation token)).

(** The whole exchange for an event: what was sent, and the changed files or the error. *)
Inductive exchange (sv : gh_server) (a : github_auth) (ev : trigger_event) : asked -> result (list string) -> Prop :=
| ex_unsupported : te_event ev <> "push" -> te_event ev <> "pull_request" ->
    exchange sv a ev [] (Err (UnsupportedFeature ("Event " +++ te_event ev +++ " is not supported")))
| ex_not_admitted l e : (te_event ev = "push" \/ te_event ev = "pull_request") ->
    admitted sv (te_repo_owner ev) (te_repo_name ev) a l (inr e) ->
    exchange sv a ev l (Err (InternalRuntimeError e))
| ex_push l cr files : te_event ev = "push" ->
    admitted sv (te_repo_owner ev) (te_repo_name ev) a l (inl cr) ->
    (sv_commit sv cr (te_repo_owner ev) (te_repo_name ev) (te_sha ev) = inl (Some files) \/
     sv_commit sv cr (te_repo_owner ev) (te_repo_name ev) (te_sha ev) = inl None /\ files = []) ->
    exchange sv a ev (l ++ [(cr, RqCommit (te_repo_owner ev) (te_repo_name ev) (te_sha ev))]) (Ok files)
| ex_push_failed l cr e : te_event ev = "push" ->
    admitted sv (te_repo_owner ev) (te_repo_name ev) a l (inl cr) ->
    sv_commit sv cr (te_repo_owner ev) (te_repo_name ev) (te_sha ev) = inr e ->
    exchange sv a ev (l ++ [(cr, RqCommit (te_repo_owner ev) (te_repo_name ev) (te_sha ev))])
      (Err (InternalRuntimeError ("Failed to get commit: " +++ e)))
| ex_no_number l cr : te_event ev = "pull_request" -> te_pr_number ev = None ->
    admitted sv (te_repo_owner ev) (te_repo_name ev) a l (inl cr) ->
    exchange sv a ev l (Err (WorkflowConfigError "pr_number is not provided"))
| ex_pull l cr n files : te_event ev = "pull_request" -> te_pr_number ev = Some n ->
    admitted sv (te_repo_owner ev) (te_repo_name ev) a l (inl cr) ->
    sv_pull_files sv cr (te_repo_owner ev) (te_repo_name ev) n = inl files ->
    exchange sv a ev (l ++ [(cr, RqPullFiles (te_repo_owner ev) (te_repo_name ev) n)]) (Ok files)
| ex_pull_failed l cr n e : te_event ev = "pull_request" -> te_pr_number ev = Some n ->
    admitted sv (te_repo_owner ev) (te_repo_name ev) a l (inl cr) ->
    sv_pull_files sv cr (te_repo_owner ev) (te_repo_name ev) n = inr e ->
    exchange sv a ev (l ++ [(cr, RqPullFiles (te_repo_owner ev) (te_repo_name ev) n)])
      (Err (InternalRuntimeError ("Failed to get pull request files: " +++ e))).

(** A request that reads changed files, as opposed to one that obtains a credential. *)
Definition reads_files (rq : gh_request) : Prop := match rq with RqCommit _ _ _ | RqPullFiles _ _ _ => True | _ => False end.

(** What a request is about: the event's own repository, commit or pull request. *)
Definition about (ev : trigger_event) (rq : gh_request) : Prop :=
  match rq with
  | RqCommit o r s => o = te_repo_owner ev /\ r = te_repo_name ev /\ s = te_sha ev /\ te_event ev = "push"
  | RqPullFiles o r n => o = te_repo_owner ev /\ r = te_repo_name ev /\ te_pr_number ev = Some n /\ te_event ev = "pull_request"
  | RqInstallation o r => o = te_repo_owner ev /\ r = te_repo_name ev
  | RqAccessToken _ => True
  end.
