(** Model of crates/runner/src/metadata.rs and of the workflow clean-up in astro_runner.rs. Paths are Unix path strings. *)
From Verif Require Import Base Types Ids_model.

(** std [Path::is_absolute] on Unix *)
Definition path_is_absolute (p : string) : bool := match p with String c _ => Ascii.eqb c slash | EmptyString => false end.
Fixpoint last_char (s : string) : option ascii :=
  match s with EmptyString => None | String c EmptyString => Some c | String _ s' => last_char s' end.
(** std [PathBuf::push] / [Path::join] on Unix: an absolute path replaces, otherwise a separator is put in between when the
    left side is non-empty and does not end with one. *)
Definition path_join (p q : string) : string :=
  if path_is_absolute q then q
  else match last_char p with
       | Some c => if Ascii.eqb c slash then p +++ q else p +++ String slash q
       | None => q
       end.

(** metadata.rs:19-32 *)
Record metadata := Metadata {
  md_step_dir : string; md_data_dir : string; md_cache_dir : string; md_entrypoint : string;
  md_docker_name : string; md_docker_workdir : string }.

(** metadata.rs:73-77; the repository is (owner, name). *)
Definition repo_dir (base : string) (repo : option (string * string)) : string :=
  match repo with Some (owner, name) => path_join (path_join base owner) name | None => base end.
(** metadata.rs:94 *)
Definition docker_name (id : step_id) : string := sid_0 id +++ "-" +++ sid_1 id +++ "-" +++ show_usize (sid_2 id).
(** metadata.rs:68-107 [build] *)
Definition build_metadata (base : string) (repo : option (string * string)) (id : step_id) : metadata :=
  let r := repo_dir base repo in
  let step := path_join (path_join (path_join r (sid_0 id)) (sid_1 id)) (show_usize (sid_2 id)) in
  Metadata step (path_join (path_join (path_join r (sid_0 id)) (sid_1 id)) "data") (path_join r "caches")
    (path_join step "entrypoint") (docker_name id) "/home/runner/work".

(** executors/docker.rs:29-37, executors/host.rs:19-27: the metadata of a step run with trigger event [ev]. *)
Definition event_repo (ev : option trigger_event) : option (string * string) :=
  match ev with Some e => Some (te_repo_owner e, te_repo_name e) | None => None end.
Definition step_metadata (base : string) (ev : option trigger_event) (id : step_id) : metadata := build_metadata base (event_repo ev) id.

(** astro_runner.rs:12-14, 46-52: [run] remembers the event of the workflow. *)
Definition runner_events := map_ workflow_id trigger_event.
Definition note_run (m : runner_events) (id : step_id) (ev : option trigger_event) : runner_events :=
  match ev with Some e => insert (step_id_workflow_id id) e m | None => m end.
(** astro_runner.rs:100-117: the directory to remove. *)
Definition cleanup_dir (base : string) (m : runner_events) (w : workflow_id) : string :=
  path_join (repo_dir base (event_repo (lookup w m))) (wid_0 w).
(** A history of calls of [run] (step id and event) on one runner. *)
Definition events_after (runs : list (step_id * option trigger_event)) : runner_events :=
  fold_left (fun m r => note_run m (fst r) (snd r)) runs [].
