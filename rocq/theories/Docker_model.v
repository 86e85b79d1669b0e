(** Model of crates/runner/src/docker.rs, of [into_command] in executors/docker.rs and executors/host.rs, of utils.rs and
    of [create_executor] in astro_runner.rs. *)
From Verif Require Import Base Types Ids_model Paths_model.

(** docker.rs:4-14 *)
Record docker := Docker {
  dk_image : string; dk_name : option string; dk_envs : map_ string string; dk_workdir : option string;
  dk_entrypoint : option string; dk_volumes : list string; dk_auto_remove : bool; dk_security_opts : list string }.
(** docker.rs:17-28 *)
Definition docker_new (image : string) : docker := Docker image None [] None None [] true [].
(** docker.rs:30-67 *)
Definition with_name (n : string) (d : docker) : docker :=
  Docker (dk_image d) (Some n) (dk_envs d) (dk_workdir d) (dk_entrypoint d) (dk_volumes d) (dk_auto_remove d) (dk_security_opts d).
Definition with_auto_remove (b : bool) (d : docker) : docker :=
  Docker (dk_image d) (dk_name d) (dk_envs d) (dk_workdir d) (dk_entrypoint d) (dk_volumes d) b (dk_security_opts d).
Definition with_env (k v : string) (d : docker) : docker :=
  Docker (dk_image d) (dk_name d) (insert k v (dk_envs d)) (dk_workdir d) (dk_entrypoint d) (dk_volumes d) (dk_auto_remove d) (dk_security_opts d).
Definition with_workdir (w : string) (d : docker) : docker :=
  Docker (dk_image d) (dk_name d) (dk_envs d) (Some w) (dk_entrypoint d) (dk_volumes d) (dk_auto_remove d) (dk_security_opts d).
Definition with_entrypoint (e : string) (d : docker) : docker :=
  Docker (dk_image d) (dk_name d) (dk_envs d) (dk_workdir d) (Some e) (dk_volumes d) (dk_auto_remove d) (dk_security_opts d).
Definition with_security_opt (o : string) (d : docker) : docker :=
  Docker (dk_image d) (dk_name d) (dk_envs d) (dk_workdir d) (dk_entrypoint d) (dk_volumes d) (dk_auto_remove d) (dk_security_opts d ++ [o]).
Definition dquote : ascii := """"%char.
Definition colon : ascii := ":"%char.
(** docker.rs:62-67: the double quotes are part of what is stored. *)
Definition quoted_volume (from to : string) : string := String dquote (from +++ String colon to +++ String dquote "").
Definition with_volume (from to : string) (d : docker) : docker :=
  Docker (dk_image d) (dk_name d) (dk_envs d) (dk_workdir d) (dk_entrypoint d) (dk_volumes d ++ [quoted_volume from to]) (dk_auto_remove d) (dk_security_opts d).

(** docker.rs:69-112 *)
Definition docker_pieces (d : docker) : list string :=
  ["docker"; "run"; "--tty"] ++ (if dk_auto_remove d then ["--rm"] else []) ++
  flat_map (fun o => ["--security-opt"; o]) (dk_security_opts d) ++
  flat_map (fun v => ["-v"; v]) (dk_volumes d) ++
  flat_map (fun kv => ["-e"; fst kv +++ "=" +++ String dquote (snd kv +++ String dquote "")]) (dk_envs d) ++
  match dk_workdir d with Some w => ["-w"; w] | None => [] end ++
  match dk_entrypoint d with Some e => ["--entrypoint"; e] | None => [] end ++
  match dk_name d with Some n => ["--name"; n] | None => [] end ++
  [dk_image d].
Definition generate_docker_command (d : docker) : string := String.concat " " (docker_pieces d).

Section Env.
(** types/envs.rs:12-20: Display; how Rust prints an f64 is left open. *)
Variable show_f64 : spec_float -> string.
Definition show_env (v : env_value) : string :=
  match v with EnvString s => s | EnvNumber f => show_f64 f | EnvBool b => if b then "true" else "false" end.

(** executors/docker.rs:78-126 [into_command]: a user volume is used iff it has exactly one ':'. Paths are taken to be UTF-8. *)
Definition docker_of_command (cmd : command) (m : metadata) : docker :=
  let image := match cmd_container cmd with Some c => co_name c | None => "ubuntu" end in
  let d := with_auto_remove true (with_entrypoint "/home/work/runner/entrypoint"
    (with_volume (md_cache_dir m) "/home/work/caches" (with_volume (md_data_dir m) (md_docker_workdir m)
    (with_volume (md_entrypoint m) "/home/work/runner/entrypoint" (with_workdir (md_docker_workdir m) (with_name (md_docker_name m) (docker_new image))))))) in
  let d := fold_left (fun d kv => with_env (fst kv) (show_env (snd kv)) d) (cmd_environments cmd) d in
  let d := match cmd_container cmd with
           | Some c => match co_volumes c with
                       | Some vs => fold_left (fun d v => match split colon v with [h; p] => with_volume h p d | _ => d end) vs d
                       | None => d
                       end
           | None => d
           end in
  match cmd_container cmd with
  | Some c => match co_security_opts c with
              | Some os => fold_left (fun d o => with_security_opt o d) os d
              | None => d
              end
  | None => d
  end.
Definition docker_command_line (cmd : command) (m : metadata) : string := generate_docker_command (docker_of_command cmd m).

End Env.

(** utils.rs:5-33: the content of the entrypoint file. *)
Definition newline : string := String (ascii_of_nat 10) "".
Definition entrypoint_content (run : string) : string :=
  if String.prefix "#!" run then run else "#!/bin/sh" +++ newline +++ run.

(** astro_runner.rs:72-97 *)
Definition uses_host (os arch : string) (container : option container_options) : bool :=
  match container with
  | Some c => eqb (co_name c) ("host/" +++ os +++ "-" +++ arch) || eqb (co_name c) ("host/" +++ os)
  | None => false
  end.
