(** Specification vocabulary for the byte-level behaviour of [Command::run]. *)
From Verif Require Import Base Types Ids_spec Runner_model Text_model Text_spec Pipe_model.

(** The bytes written to a pipe in a history. *)
Fixpoint written (e : fd) (ins : list pinput) : string :=
  match ins with
  | [] => ""
  | PIWrite e' c :: r => (if fd_eqb e' e then String c "" else "") +++ written e r
  | _ :: r => written e r
  end.
Definition lf : string := String (ascii_of_nat 10) "".
Definition crs : string := String (ascii_of_nat 13) "".
(** The text of a line: a carriage return before the newline is not part of it. *)
Definition line_text (raw text : string) : Prop := raw = text +++ crs \/ (raw = text /\ ~ exists x, raw = x +++ crs).
(** The lines of an output, with and without the carriage returns. A last line without newline counts, and keeps its
    carriage return. *)
Inductive lines : string -> list (string * string) -> Prop :=
| lines_nil : lines "" []
| lines_last s : s <> "" -> free_of (ascii_of_nat 10) s -> lines s [(s, s)]
| lines_cons raw text rest ls : free_of (ascii_of_nat 10) raw -> line_text raw text -> lines rest ls -> lines (raw +++ lf +++ rest) ((raw, text) :: ls).
Definition is_utf8 (s : string) : Prop := exists cs, utf8 s cs.

(** The messages of a kind in a history, in order. *)
Definition messages (t : log_type) (tr : list seff) : list string :=
  flat_map (fun x => match x with SeLog (Log t' m) => match t, t' with LLog, LLog | LError, LError => [m] | _, _ => [] end | _ => [] end) tr.
Definition closed (e : fd) (ins : list pinput) : Prop := In (PIClose e) ins.

(** ** The child as a program: the actions it performs, one byte at a time, in this order. *)
Definition child_action (i : pinput) : bool := match i with PIWrite _ _ | PIClose _ | PIExit _ => true | _ => false end.
Definition actions (ins : list pinput) : list pinput := filter child_action ins.
(** The history is one in which the child performs the program [prog] (so far). *)
Definition performs (prog : list pinput) (ins : list pinput) : Prop := exists rest, prog = actions ins ++ rest.
(** A program that keeps both outputs open until it exits: it writes, and then its exit closes both outputs, in any order. *)
Definition ordinary_program (prog : list pinput) : Prop :=
  exists bytes code, (forall i, In i bytes -> exists e c, i = PIWrite e c) /\
    (prog = bytes ++ [PIExit code; PIClose Out; PIClose Errs] \/ prog = bytes ++ [PIClose Out; PIClose Errs; PIExit code] \/
     prog = bytes ++ [PIExit code; PIClose Errs; PIClose Out] \/ prog = bytes ++ [PIClose Errs; PIClose Out; PIExit code]).
(** Writing a text, byte by byte. *)
Definition writes (e : fd) (s : string) : list pinput := map (PIWrite e) (list_ascii_of_string s).
(** [run] has stopped reading the outputs; it waits for the child's exit or has returned. *)
Definition stopped_reading (s : pstate) : Prop := ps_phase s = CWait \/ ps_phase s = CDone true.
(** The program's output on [e] is UTF-8, line by line. *)
Definition text_output (prog : list pinput) : Prop := forall e ls x, lines (written e prog) ls -> In x ls -> is_utf8 (fst x).
(** The command [prog], once started, can get into a situation from which no way to go on leads to a result. *)
Definition hangs (cap : nat) (prog : list pinput) : Prop :=
  exists ins s tr, prun cap ins s tr /\ performs prog ins /\ In (PISpawn true) ins /\
    forall ins' s' o, pexec cap s ins' = Some (s', o) -> performs prog (ins ++ ins') -> forall r, ~ In (SeEnd r) (tr ++ o).
