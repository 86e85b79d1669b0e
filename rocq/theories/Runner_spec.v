(** Specification of command runs and executor runs. *)
From Verif Require Import Base Types Runner_model.

(** [l] is an interleaving of [a] and [b]. *)
Inductive merge {A} : list A -> list A -> list A -> Prop :=
| merge_nil : merge [] [] []
| merge_l x a b l : merge a b l -> merge (x :: a) b (x :: l)
| merge_r x a b l : merge a b l -> merge a (x :: b) (x :: l).
Definition prefix_of {A} (a b : list A) : Prop := exists rest, b = a ++ rest.

(** How a pipe ends: at end of file or with a read error. *)
Inductive pipe_end := PEof | PError (msg : string).
Definition end_read (e : pipe_end) : read := match e with PEof => RdEof | PError m => RdFail m end.
Definition end_log (e : pipe_end) : list log := match e with PEof => [] | PError m => [log_error m] end.
(** Everything the child prints, and how its pipes end. *)
Record child := Child { ch_out : list string; ch_out_end : pipe_end; ch_err : list string; ch_err_end : pipe_end }.
Definition out_reads (ins : list cinput) : list read := flat_map (fun i => match i with CIOut r => [r] | _ => [] end) ins.
Definition err_reads (ins : list cinput) : list read := flat_map (fun i => match i with CIErr r => [r] | _ => [] end) ins.
(** The reads made so far are what the child printed. *)
Definition of_child (ch : child) (ins : list cinput) : Prop :=
  prefix_of (out_reads ins) (map RdLine (ch_out ch) ++ [end_read (ch_out_end ch)]) /\
  prefix_of (err_reads ins) (map RdLine (ch_err ch) ++ [end_read (ch_err_end ch)]).
Definition logged (tr : list seff) : list log := flat_map (fun e => match e with SeLog l => [l] | _ => [] end) tr.

(** Nothing more happens unless a signal is raised. *)
Definition settled (c : xconf) (x : xstate) : Prop := forall i, (forall s, i <> XISignal s) -> xstep c x i = None.
Definition fs_failed (ins : list xinput) : Prop := In (XIFs false) ins.
Definition command_exited (ins : list xinput) : Prop := exists code, In (XICmd (CIExit code)) ins.
Definition command_broke (ins : list xinput) : Prop := In (XICmd (CISpawn false)) ins \/ In (XICmd CIWaitErr) ins.
Definition ends (tr : list xeff) : list run_result := flat_map (fun e => match e with EfEnd r => [r] | _ => [] end) tr.
(** The directory [p] was created and not removed since. *)
Definition left_behind (p : string) (tr : list xeff) : Prop := exists a b, tr = a ++ EfMkdir p :: b /\ ~ In (EfRmdir p) b.

(** What a finished command run may have sent to the log stream. *)
Definition outcome (ch : child) (code : option Z) (tr : list seff) : Prop :=
  exists lo le ls cut, tr = map SeLog (ls ++ cut) ++ [SeEnd (exit_result code)] /\
    merge (map log_log lo) (map log_error le) ls /\ prefix_of lo (ch_out ch) /\ prefix_of le (ch_err ch) /\
    ((lo = ch_out ch /\ cut = end_log (ch_out_end ch)) \/ (le = ch_err ch /\ cut = end_log (ch_err_end ch))).
(** The inputs that are neither a raised signal nor a line printed by the command. *)
Definition is_line (i : xinput) : bool := match i with XICmd (CIOut (RdLine _)) | XICmd (CIErr (RdLine _)) => true | _ => false end.
Definition is_signal (i : xinput) : bool := match i with XISignal _ => true | _ => false end.
Definition raised (ins : list xinput) : list signal := flat_map (fun i => match i with XISignal s => [s] | _ => [] end) ins.
(** Nothing but signals interferes: no file system operation fails, the command could be started and has not exited. *)
Definition undisturbed (ins : list xinput) : Prop := ~ fs_failed ins /\ ~ command_exited ins /\ ~ command_broke ins.
(** The result a run reports is settled by the first decisive event: the task's check at its start finds a signal raised already (Failed 1), an operation on
    the file system fails or the command cannot be started or waited for (Failed 1), the command exits (its exit status), or the raised signal is noticed. *)
Fixpoint verdict (sig : option signal) (started : bool) (ins : list xinput) : option run_result :=
  match ins with
  | [] => None
  | XISignal s :: rest => verdict (match sig with Some _ => sig | None => Some s end) started rest
  | XIGo :: rest => match started, sig with false, Some _ => Some (RFailed 1) | _, _ => verdict sig true rest end
  | XIFs false :: _ | XICmd (CISpawn false) :: _ | XICmd CIWaitErr :: _ => Some (RFailed 1)
  | XICmd (CIExit code) :: _ => Some (exit_result code)
  | XITake :: rest => match sig with Some s => Some (signal_result s) | None => verdict sig started rest end
  | _ :: rest => verdict sig started rest
  end.
