(** Text: UTF-8 as [String::from_utf8] and [read_line] check it, [str::trim]; the [Command] type of the runner
    (crates/runner/src/command.rs) except [run], which is in Runner_model.v and Pipe_model.v. A [string] is a list of bytes. *)
From Verif Require Import Base Types Runner_model.

Definition byte (a : ascii) : N := N_of_ascii a.
Definition in_range (lo hi : N) (a : ascii) : bool := ((lo <=? byte a) && (byte a <=? hi))%N.
(** Continuation bytes. *)
Definition cont (a : ascii) : bool := in_range 128 191 a.
(** core::str::validations::run_utf8_validation (used by command.rs:49,54 through [String::from_utf8] and by
    command.rs:84,98 through tokio's [read_line]): the code points of a byte sequence, [None] if it is not UTF-8. *)
Fixpoint decode (s : string) : option (list N) :=
  match s with
  | EmptyString => Some []
  | String a r =>
      let x := byte a in
      if (x <? 128)%N then option_map (cons x) (decode r)
      else match r with
      | EmptyString => None
      | String b r =>
          let y := byte b in
          if in_range 194 223 a then
            if cont b then option_map (cons ((x - 192) * 64 + (y - 128)))%N (decode r) else None
          else match r with
          | EmptyString => None
          | String c r =>
              let z := byte c in
              if in_range 224 239 a then
                if in_range (if (x =? 224)%N then 160 else 128) (if (x =? 237)%N then 159 else 191) b && cont c
                then option_map (cons ((x - 224) * 4096 + (y - 128) * 64 + (z - 128)))%N (decode r) else None
              else match r with
              | EmptyString => None
              | String d r =>
                  if in_range 240 244 a && in_range (if (x =? 240)%N then 144 else 128) (if (x =? 244)%N then 143 else 191) b && cont c && cont d
                  then option_map (cons ((x - 240) * 262144 + (y - 128) * 4096 + (z - 128) * 64 + (byte d - 128)))%N (decode r) else None
              end
          end
      end
  end.
Definition utf8_ok (s : string) : bool := match decode s with Some _ => true | None => false end.

(** char::encode_utf8 *)
Definition chr (n : N) : ascii := ascii_of_N n.
Definition encode1 (c : N) : string :=
  (if c <? 128 then String (chr c) ""
   else if c <? 2048 then String (chr (192 + c / 64)) (String (chr (128 + c mod 64)) "")
   else if c <? 65536 then String (chr (224 + c / 4096)) (String (chr (128 + c / 64 mod 64)) (String (chr (128 + c mod 64)) ""))
   else String (chr (240 + c / 262144)) (String (chr (128 + c / 4096 mod 64)) (String (chr (128 + c / 64 mod 64)) (String (chr (128 + c mod 64)) ""))))%N.
Fixpoint encode (cs : list N) : string := match cs with [] => "" | c :: cs => encode1 c +++ encode cs end.

(** char::is_whitespace: the White_Space property. *)
Definition white (c : N) : bool :=
  (((9 <=? c) && (c <=? 13)) || (c =? 32) || (c =? 133) || (c =? 160) || (c =? 5760) || ((8192 <=? c) && (c <=? 8202))
   || (c =? 8232) || (c =? 8233) || (c =? 8239) || (c =? 8287) || (c =? 12288))%N.
Fixpoint drop_white (cs : list N) : list N := match cs with c :: r => if white c then drop_white r else cs | [] => [] end.
(** str::trim (used by command.rs:51) *)
Definition trim (cs : list N) : list N := rev (drop_white (rev (drop_white cs))).

(** ** [Command]: command.rs:13-42 *)
Record rcommand := RCommand { rc_command : string; rc_dir : option string; rc_envs : list (string * string) }.
(** :21-27 *)
Definition rc_new (c : string) : rcommand := RCommand c None [].
(** :29-33 *)
Definition rc_env (k v : string) (c : rcommand) : rcommand := RCommand (rc_command c) (rc_dir c) (rc_envs c ++ [(k, v)]).
(** :35-39 *)
Definition rc_set_dir (d : string) (c : rcommand) : rcommand := RCommand (rc_command c) (Some d) (rc_envs c).
(** :136-166, not on windows. What is spawned: program, arguments, directory ([None]: the parent's) and the environment
    changes, a map ([std::process::Command::env] replaces the value of a variable given twice). *)
Record spawn_spec := SpawnSpec { sp_program : string; sp_args : list string; sp_dir : option string; sp_env : map_ string string }.
Definition build_command (c : rcommand) : spawn_spec :=
  SpawnSpec "sh" ["-c"; rc_command c] (rc_dir c) (fold_left (fun m kv => insert (fst kv) (snd kv) m) (rc_envs c) []).
(** :138-146, on windows. *)
Definition build_command_windows (c : rcommand) : spawn_spec :=
  SpawnSpec "powershell.exe" ["-NoProfile"; "-NonInteractive"; "-Command"; rc_command c] (rc_dir c) (fold_left (fun m kv => insert (fst kv) (snd kv) m) (rc_envs c) []).

(** ** [Command::exec]: command.rs:41-57. What the operating system answers: *)
Inductive os_answer :=
| OsNoSpawn (msg : string)
| OsOutput (code : option Z) (out err : string).   (* exit code, None: killed by a signal; all that was printed *)
Section Exec.
(** The text of a [FromUtf8Error] for these bytes. *)
Variable utf8_error : string -> string.
Definition exec (a : os_answer) : result string :=
  match a with
  | OsNoSpawn m => Err (InternalRuntimeError ("Failed to spawn child process: " +++ m))
  | OsOutput code out err =>
      if match code with Some c => (c =? 0)%Z | None => false end then
        match decode out with
        | Some cs => Ok (encode (trim cs))
        | None => Err (InternalRuntimeError ("Failed to parse stdout: " +++ utf8_error out))
        end
      else
        match decode err with
        | Some cs => Err (InternalRuntimeError err)
        | None => Err (InternalRuntimeError ("Failed to parse stderr: " +++ utf8_error err))
        end
  end.
End Exec.
