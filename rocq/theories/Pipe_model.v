(** Model of [Command::run] (crates/runner/src/command.rs:59-134) down to the bytes: the two pipes to the child process, the
    buffered line readers, and the child. It refines [cmd_step] of Runner_model.v. *)
From Verif Require Import Base Types Stream_model Runner_model Text_model.

Inductive fd := Out | Errs.
Definition fd_eqb (a b : fd) : bool := match a, b with Out, Out | Errs, Errs => true | _, _ => false end.
(** A pipe: the bytes in it, and whether somebody still holds its writing end. *)
Record pipe := Pipe { pp_buf : string; pp_open : bool }.
(** [ps_carry]: the bytes a line reader (command.rs:76-80) has taken from its pipe and not yet returned: the contents of its
    [BufReader] and of the line under construction; [next_line] is cancel safe, so they survive [select!]. *)
Record pstate := PState { ps_pipe : fd -> pipe; ps_carry : fd -> string; ps_exit : option (option Z); ps_phase : cphase }.
Definition upd {A} (f : fd -> A) (e : fd) (x : A) : fd -> A := fun e' => if fd_eqb e' e then x else f e'.

Definition nl : ascii := ascii_of_nat 10.
Definition cr : ascii := ascii_of_nat 13.
(** The bytes up to the first newline and those after it. *)
Fixpoint cut_line (s : string) : option (string * string) :=
  match s with
  | EmptyString => None
  | String a r => if Ascii.eqb a nl then Some ("", r) else match cut_line r with Some (l, t) => Some (String a l, t) | None => None end
  end.
(** tokio's [Lines::poll_next_line]: one trailing carriage return is dropped from a line that ends with a newline. *)
Fixpoint drop_cr (s : string) : string :=
  match s with EmptyString => "" | String a EmptyString => if Ascii.eqb a cr then "" else s | String a r => String a (drop_cr r) end.
Definition utf8_message : string := "stream did not contain valid UTF-8".
(** A complete line, or what is left before the end of the pipe. *)
Definition line_read (raw shown : string) : read := if utf8_ok raw then RdLine shown else RdFail utf8_message.
(** What [next_line] returns when it is ready: the result and the bytes that remain. [eof]: the pipe is empty and closed. *)
Definition next_line (carry : string) (eof : bool) : option (read * string) :=
  match cut_line carry with
  | Some (l, rest) => Some (line_read l (drop_cr l), rest)
  | None => if eof then Some (match carry with EmptyString => RdEof | _ => line_read carry carry end, "") else None
  end.
Definition take (n : nat) (s : string) : string := String.substring 0 n s.
Fixpoint drop (n : nat) (s : string) : string := match n, s with S n, String _ r => drop n r | _, _ => s end.

(** Capacity of a [BufReader] (std and tokio: 8 KiB): no single read returns more. *)
Definition bufreader_capacity : nat := 8 * 1024.
Inductive pinput :=
| PISpawn (ok : bool)
(* the child process and its descendants: *)
| PIWrite (e : fd) (c : ascii)       (* a byte is written; a write of many bytes is many of these, blocking when the pipe is full *)
| PIClose (e : fd)                   (* the last holder of the writing end closes it (or exits) *)
| PIExit (code : option Z)           (* the child exits; descendants may still hold the pipes *)
(* [run]: *)
| PIFill (e : fd) (n : nat)          (* a reader whose buffer holds no complete line reads [n] bytes *)
| PILine (e : fd)                    (* [select!] takes the branch of reader [e], which is ready *)
| PIReap.                            (* [child.wait] returns; its failure is in Runner_model.v *)

Section Pipes.
(** How many bytes a pipe can hold. *)
Variable cap : nat.
(** The child can act once it has been spawned and as long as [run] keeps the pipes (until it returns). *)
Definition alive (p : cphase) : bool := match p with CRead | CWait => true | _ => false end.
Definition pcmd (s : pstate) (carry : fd -> string) (i : cinput) : option (pstate * list seff) :=
  match cmd_step (ps_phase s) i with
  | Some (p', o) => Some (PState (ps_pipe s) carry (ps_exit s) p', o)
  | None => None
  end.
Definition pstep (s : pstate) (i : pinput) : option (pstate * list seff) :=
  match i with
  | PISpawn ok => pcmd s (ps_carry s) (CISpawn ok)
  | PIWrite e c =>
      let p := ps_pipe s e in
      if alive (ps_phase s) && pp_open p && Nat.ltb (String.length (pp_buf p)) cap
      then Some (PState (upd (ps_pipe s) e (Pipe (pp_buf p +++ String c "") true)) (ps_carry s) (ps_exit s) (ps_phase s), []) else None
  | PIClose e =>
      if alive (ps_phase s) && pp_open (ps_pipe s e)
      then Some (PState (upd (ps_pipe s) e (Pipe (pp_buf (ps_pipe s e)) false)) (ps_carry s) (ps_exit s) (ps_phase s), []) else None
  | PIExit code =>
      match ps_exit s with
      | None => if alive (ps_phase s) then Some (PState (ps_pipe s) (ps_carry s) (Some code) (ps_phase s), []) else None
      | Some _ => None
      end
  | PIFill e n =>
      let p := ps_pipe s e in
      match ps_phase s, cut_line (ps_carry s e) with
      | CRead, None =>
          if Nat.ltb 0 n && Nat.leb n (String.length (pp_buf p)) && Nat.leb n bufreader_capacity
          then Some (PState (upd (ps_pipe s) e (Pipe (drop n (pp_buf p)) (pp_open p))) (upd (ps_carry s) e (ps_carry s e +++ take n (pp_buf p)))
                            (ps_exit s) CRead, [])
          else None
      | _, _ => None
      end
  | PILine e =>
      let p := ps_pipe s e in
      match ps_phase s, next_line (ps_carry s e) (Nat.eqb (String.length (pp_buf p)) 0 && negb (pp_open p)) with
      | CRead, Some (r, rest) => pcmd s (upd (ps_carry s) e rest) (match e with Out => CIOut r | Errs => CIErr r end)
      | _, _ => None
      end
  | PIReap => match ps_exit s with Some code => pcmd s (ps_carry s) (CIExit code) | None => None end
  end.
Definition pinit : pstate := PState (fun _ => Pipe "" true) (fun _ => "") None CSpawn.
Inductive prun : list pinput -> pstate -> list seff -> Prop :=
| prun_init : prun [] pinit []
| prun_step ins s tr i s' o : prun ins s tr -> pstep s i = Some (s', o) -> prun (ins ++ [i]) s' (tr ++ o).
Fixpoint pexec (s : pstate) (ins : list pinput) : option (pstate * list seff) :=
  match ins with
  | [] => Some (s, [])
  | i :: ins' => match pstep s i with None => None | Some (s', o) => match pexec s' ins' with None => None | Some (s2, o2) => Some (s2, o ++ o2) end end
  end.
End Pipes.
