(** Model of crates/astro-run/src/stream.rs. *)
From Verif Require Import Base Types Signals_model.

(** stream.rs:6-15: the shared state plus the receiver's [current_index];
    [ss_enders] are the sender threads that are inside [end], between the [is_ended] check (first lock)
    and the write (second lock), with the result they are going to write. *)
Record stream_state := StreamState {
  ss_logs : list log;
  ss_result : option run_result;
  ss_waker : option task;
  ss_index : nat;
  ss_enders : map_ nat run_result }.

(** stream.rs:125-136 *)
Definition stream_init : stream_state := StreamState [] None None 0 [].

Inductive poll_out := PItem (l : log) | PEnd | PPending.

(** stream.rs:33-58 [poll_next]; the flag says whether [wake_by_ref] was called on the polling task. *)
Definition stream_poll (t : task) (s : stream_state) : stream_state * poll_out * option task :=
  match nth_error (ss_logs s) (ss_index s) with
  | Some l => (StreamState (ss_logs s) (ss_result s) (Some t) (S (ss_index s)) (ss_enders s), PItem l, Some t)
  | None =>
      let s' := StreamState (ss_logs s) (ss_result s) (Some t) (ss_index s) (ss_enders s) in
      match ss_result s with
      | Some _ => (s', PEnd, None)
      | None => (s', PPending, None)
      end
  end.

(** stream.rs:71-78 [log] *)
Definition stream_log (m : string) (s : stream_state) : stream_state * option task :=
  (StreamState (ss_logs s ++ [log_log m]) (ss_result s) None (ss_index s) (ss_enders s), ss_waker s).
(** stream.rs:80-87 [error] *)
Definition stream_error (m : string) (s : stream_state) : stream_state * option task :=
  (StreamState (ss_logs s ++ [log_error m]) (ss_result s) None (ss_index s) (ss_enders s), ss_waker s).

(** stream.rs:106-110 first half of [end]: the [is_ended] check. *)
Definition stream_end_check (c : nat) (r : run_result) (s : stream_state) : stream_state :=
  match ss_result s with
  | Some _ => s
  | None => StreamState (ss_logs s) (ss_result s) (ss_waker s) (ss_index s) (insert c r (ss_enders s))
  end.
(** stream.rs:112-117 second half of [end]: the write. Nothing happens if the check made the call return. *)
Definition stream_end_commit (c : nat) (s : stream_state) : stream_state * option task :=
  match lookup c (ss_enders s) with
  | None => (s, None)
  | Some r => (StreamState (ss_logs s) (Some r) None (ss_index s) (remove c (ss_enders s)), ss_waker s)
  end.

(** stream.rs:89-104 *)
Definition succeeded_result : run_result := RSucceeded.
Definition cancelled_result : run_result := RCancelled.
Definition failed_result (code : Z) : run_result := RFailed code.
Definition timeout_result : run_result := RFailed 123.

Inductive stream_op :=
| SLog (m : string) | SError (m : string)
| SEndCheck (c : nat) (r : run_result) | SEndCommit (c : nat)
| SPoll (t : task)
| SIsEnded        (* stream.rs:120-122 *)
| SResult.        (* stream.rs:25-27 *)

Inductive stream_out :=
| SOWoke (w : option task)          (* sender operations: which task was woken *)
| SOPolled (p : poll_out)
| SOEnded (b : bool)
| SOResult (r : option run_result).

Definition stream_step (s : stream_state) (o : stream_op) : stream_state * stream_out :=
  match o with
  | SLog m => let '(s', w) := stream_log m s in (s', SOWoke w)
  | SError m => let '(s', w) := stream_error m s in (s', SOWoke w)
  | SEndCheck c r => (stream_end_check c r s, SOWoke None)
  | SEndCommit c => let '(s', w) := stream_end_commit c s in (s', SOWoke w)
  | SPoll t => let '(s', p, _) := stream_poll t s in (s', SOPolled p)
  | SIsEnded => (s, SOEnded (is_some (ss_result s)))
  | SResult => (s, SOResult (ss_result s))
  end.

Definition stream_after (ops : list stream_op) : stream_state :=
  fold_left (fun s o => fst (stream_step s o)) ops stream_init.
Definition stream_output (ops : list stream_op) (o : stream_op) : stream_out :=
  snd (stream_step (stream_after ops) o).

(** A complete, uninterrupted [end(r)] call (and [succeeded], [failed], [cancelled], [timeout]). *)
Definition end_call (c : nat) (r : run_result) : list stream_op := [SEndCheck c r; SEndCommit c].

(** The outputs produced along a history. *)
Fixpoint stream_outputs (s : stream_state) (ops : list stream_op) : list stream_out :=
  match ops with
  | [] => []
  | o :: ops' => snd (stream_step s o) :: stream_outputs (fst (stream_step s o)) ops'
  end.
