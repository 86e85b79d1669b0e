(** Specification of filters and conditions. *)
From Verif Require Import Base Types Cond_model.

Definition valid (glob : glob_oracle) (p : string) : Prop := glob p <> None.
Definition hits (glob : glob_oracle) (p v : string) : Prop := exists m, glob p = Some m /\ m v = true.

(** A pattern list accepts a value list:
    - all patterns valid: some pattern hits some value;
    - otherwise: a pattern before the first invalid one hits the first value. *)
Inductive filter_accepts (glob : glob_oracle) (values patterns : list string) : Prop :=
| fa_valid : (forall p, In p patterns -> valid glob p) ->
    (exists v p, In v values /\ In p patterns /\ hits glob p v) -> filter_accepts glob values patterns
| fa_invalid pre bad post v vs :
    patterns = pre ++ bad :: post -> (forall p, In p pre -> valid glob p) -> ~ valid glob bad ->
    values = v :: vs -> (exists p, In p pre /\ hits glob p v) -> filter_accepts glob values patterns.

(** An optional filter: absent means no restriction. *)
Definition filter_ok (glob : glob_oracle) (values : list string) (f : option (list string)) : Prop :=
  match f with None => True | Some patterns => filter_accepts glob values patterns end.

(** The decision table of conditions. *)
Definition condition_holds (glob : glob_oracle) (c : condition) (p : condition_payload) : Prop :=
  match c with
  | CEvent events => In (cp_event p) events
  | CConfig cfg =>
      (cp_event p = "push" /\ exists s, cc_push cfg = Some s /\
         filter_ok glob [cp_branch p] (pc_branches s) /\ filter_ok glob (cp_paths p) (pc_paths s)) \/
      (cp_event p = "pull_request" /\ exists s, cc_pull_request cfg = Some s /\
         filter_ok glob [cp_branch p] (prc_branches s) /\ filter_ok glob (cp_paths p) (prc_paths s))
  end.

(** GitHub delivered the list of changed files for a supported event. *)
Definition files_fetched (gh : github) (ev : trigger_event) (files : list string) : Prop :=
  gh_api gh = Ok tt /\
  ((te_event ev = "push" /\
     (gh_commit gh = Ok (Some files) \/ (gh_commit gh = Ok None /\ files = []))) \/
   (te_event ev = "pull_request" /\ exists n, te_pr_number ev = Some n /\ gh_pull_files gh n = Ok files)).

(** Some call of the history got its answer [gh] while a fetch for it was outstanding, and it delivered [files]. *)
Definition fetched_in (glob : glob_oracle) (m : matcher) (ops : list cm_op) (files : list string) : Prop :=
  exists pre call gh post ev, ops = pre ++ CmFinish call gh :: post /\ cm_event m = Some ev /\
    files_fetched gh ev files /\ contains_key call (cms_inflight (cm_after glob m pre)) = true.
