(** Specification vocabulary for signals: statements about histories (lists of operations). *)
From Verif Require Import Base Types Signals_model.

Definition raises (o : sig_op) : option signal :=
  match o with OCancel => Some SigCancel | OTimeout => Some SigTimeout | _ => None end.
Definition is_raise (o : sig_op) : Prop := raises o <> None.
Definition is_poll (o : sig_op) : Prop := exists t, o = OPoll t.

(** No cancel/timeout call occurs in the history. *)
Definition never_raised (ops : list sig_op) : Prop := forall o, In o ops -> ~ is_raise o.

(** [s] is what the first cancel/timeout call of the history asked for. *)
Definition first_raised (ops : list sig_op) (s : signal) : Prop :=
  exists pre o post, ops = pre ++ o :: post /\ never_raised pre /\ raises o = Some s.

(** The first raise happened, it asked for [s], and nobody polled since. *)
Definition undelivered (ops : list sig_op) (s : signal) : Prop :=
  exists pre o post, ops = pre ++ o :: post /\ never_raised pre /\ raises o = Some s /\
                     (forall p, In p post -> ~ is_poll p).

(** [t] made the last poll of the history. *)
Definition last_poller (ops : list sig_op) (t : task) : Prop :=
  exists pre post, ops = pre ++ OPoll t :: post /\ (forall p, In p post -> ~ is_poll p).

(** Job [j] is registered after the history, with the signal created by registration number [a]. *)
Fixpoint registrations (ops : list sm_op) : nat :=
  match ops with [] => 0 | MRegister _ :: o => S (registrations o) | _ :: o => registrations o end.
Definition registered (ops : list sm_op) (j : job_id) (a : nat) : Prop :=
  exists pre post, ops = pre ++ MRegister j :: post /\ a = registrations pre /\
    (forall o, In o post -> o <> MRegister j /\ o <> MUnregister j).

(** The signal currently raised on the [a]-th signal object, if any. *)
Definition signal_at (m : sigman) (a : nat) : option signal :=
  match nth_error (sm_heap m) a with Some st => sg_signal st | None => None end.

