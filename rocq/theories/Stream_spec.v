(** Specification vocabulary for streams. *)
From Verif Require Import Base Types Signals_model Stream_model.

(** The logs sent in a history, in order. *)
Fixpoint sent (ops : list stream_op) : list log :=
  match ops with
  | [] => []
  | SLog m :: o => Log LLog m :: sent o
  | SError m :: o => Log LError m :: sent o
  | _ :: o => sent o
  end.

(** The logs the reader obtained, from the outputs. *)
Fixpoint obtained (outs : list stream_out) : list log :=
  match outs with
  | [] => []
  | SOPolled (PItem l) :: o => l :: obtained o
  | _ :: o => obtained o
  end.

(** Logs obtained by the reader in a history of operations on a fresh stream. *)
Definition got (ops : list stream_op) : list log := obtained (stream_outputs stream_init ops).

Definition is_spoll (o : stream_op) : Prop := exists t, o = SPoll t.

(** A history in which every [end] call runs without another thread's operation in between
    (all end calls atomic); [ends] lists their arguments in order. *)
Inductive atomic_ends : list stream_op -> list run_result -> Prop :=
| ae_nil : atomic_ends [] []
| ae_end ops rs c r : atomic_ends ops rs -> atomic_ends (ops ++ [SEndCheck c r; SEndCommit c]) (rs ++ [r])
| ae_other ops rs o : atomic_ends ops rs ->
    (forall c r, o <> SEndCheck c r) -> (forall c, o <> SEndCommit c) -> atomic_ends (ops ++ [o]) rs.

(** Task [t] is asleep: its last poll (the last poll of all) was pending and no sender operation
    has woken it since. *)
Definition asleep (ops : list stream_op) (t : task) : Prop :=
  exists pre post, ops = pre ++ SPoll t :: post /\
    stream_output pre (SPoll t) = SOPolled PPending /\
    (forall o, In o post -> ~ is_spoll o) /\
    (forall p1 o p2, post = p1 ++ o :: p2 -> stream_output (pre ++ SPoll t :: p1) o <> SOWoke (Some t)).

(** Some end call has written its result. *)
Definition ended (ops : list stream_op) : Prop := exists r, stream_output ops SResult = SOResult (Some r).
