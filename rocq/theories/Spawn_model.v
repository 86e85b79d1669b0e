(** What the executors of the built-in runner give to the operating system: executors/docker.rs, executors/host.rs, docker.rs, command.rs. *)
From Verif Require Import Base Types Signals_model Stream_model Cond_model Plugins_model Exec_model Paths_model Docker_model Runner_model Text_model Local_model.

Section Spawn.
Variable show_f64 : spec_float -> string.
(** executors/host.rs:66-78 [into_command] *)
Definition host_into_command (cmd : command) (m : metadata) : rcommand :=
  fold_left (fun c kv => rc_env (fst kv) (show_env show_f64 (snd kv)) c) (cmd_environments cmd) (rc_set_dir (md_data_dir m) (rc_new (Types.cmd_run cmd))).
(** executors/docker.rs:82-127 [into_command] with docker.rs:115-121 *)
Definition docker_into_command (cmd : command) (m : metadata) : rcommand := rc_new (docker_command_line show_f64 cmd m).
(** astro_runner.rs:72-97, executors/docker.rs:29-40, executors/host.rs:19-30 and command.rs:59-63: the process that is spawned for a context. *)
Definition executor_spawn (os arch base : string) (rc : run_context) : spawn_spec :=
  let cmd := rx_command rc in
  let m := step_metadata base (rx_event rc) (cmd_id cmd) in
  build_command (if uses_host os arch (cmd_container cmd) then host_into_command cmd m else docker_into_command cmd m).
(** docker.rs:88: the environments are in a [HashMap], whose order of iteration is any; [docker_command_line] takes the one of the command. *)
Definition with_envs (envs : map_ string string) (d : docker) : docker :=
  Docker (dk_image d) (dk_name d) envs (dk_workdir d) (dk_entrypoint d) (dk_volumes d) (dk_auto_remove d) (dk_security_opts d).
End Spawn.
(** executors/docker.rs:56: the process that kills a container. *)
Definition kill_spawn (name : string) : spawn_spec := build_command (rc_new ("docker kill " +++ name)).
