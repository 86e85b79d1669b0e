(** Model of crates/astro-run/src/signals/signal.rs and signals/mod.rs. *)
From Verif Require Import Base Types Ids_model.

(** A task that polls; its identity stands for the [Waker] it passes in [Context]. *)
Definition task := nat.

(** signal.rs:16-21 *)
Record sig_state := SigState { sg_notified : bool; sg_signal : option signal; sg_waker : option task }.
(** signal.rs:120-130 *)
Definition sig_init : sig_state := SigState false None None.

Definition already_raised : error := OtherError "Signal has been cancelled or timeout.".

(** signal.rs:41-54 [cancel]. The third component is the task whose waker is woken.
    The whole body runs under the one lock. *)
Definition sig_cancel (st : sig_state) : sig_state * result unit * option task :=
  match sg_signal st with
  | Some _ => (st, Err already_raised, None)
  | None => (SigState (sg_notified st) (Some SigCancel) None, Ok tt, sg_waker st)
  end.

(** signal.rs:56-70 [timeout] *)
Definition sig_timeout (st : sig_state) : sig_state * result unit * option task :=
  match sg_signal st with
  | Some _ => (st, Err already_raised, None)
  | None => (SigState (sg_notified st) (Some SigTimeout) None, Ok tt, sg_waker st)
  end.

(** Either of the two; used by callers that choose by signal kind. *)
Definition sig_raise (s : signal) (st : sig_state) : sig_state * result unit * option task :=
  match s with SigCancel => sig_cancel st | SigTimeout => sig_timeout st end.

(** signal.rs:72-74 *)
Definition sig_is_cancelled (st : sig_state) : bool := eqb (sg_signal st) (Some SigCancel).
(** signal.rs:76-78 *)
Definition sig_is_timeout (st : sig_state) : bool := eqb (sg_signal st) (Some SigTimeout).

(** signal.rs:81-99 [Receiver::poll]; [None] is [Poll::Pending]. *)
Definition sig_poll (t : task) (st : sig_state) : sig_state * option signal :=
  if sg_notified st then (st, None)
  else match sg_signal st with
       | Some s => (SigState true (Some s) (sg_waker st), Some s)
       | None => (SigState (sg_notified st) None (Some t), None)
       end.

(** Operations any holder of a clone may perform on one signal, each one lock section. *)
Inductive sig_op := OCancel | OTimeout | OIsCancelled | OIsTimeout | OPoll (t : task).
Inductive sig_out :=
| ORaise (r : result unit) (woken : option task)
| OBool (b : bool)
| OPolled (r : option signal).

Definition sig_step (st : sig_state) (o : sig_op) : sig_state * sig_out :=
  match o with
  | OCancel => let '(st', r, w) := sig_cancel st in (st', ORaise r w)
  | OTimeout => let '(st', r, w) := sig_timeout st in (st', ORaise r w)
  | OIsCancelled => (st, OBool (sig_is_cancelled st))
  | OIsTimeout => (st, OBool (sig_is_timeout st))
  | OPoll t => let '(st', r) := sig_poll t st in (st', OPolled r)
  end.

(** State after a history of operations on a fresh signal, and the output of one more operation. *)
Definition sig_after (ops : list sig_op) : sig_state :=
  fold_left (fun st o => fst (sig_step st o)) ops sig_init.
Definition sig_output (ops : list sig_op) (o : sig_op) : sig_out := snd (sig_step (sig_after ops) o).

(** signal.rs:101-108 Display for Signal *)
Definition show_signal (s : signal) : string :=
  match s with SigCancel => "cancel" | SigTimeout => "timeout" end.
(** signal.rs:110-118 From<&str>; [None] is the panic. *)
Definition signal_of_string (s : string) : option signal :=
  if eqb s "cancel" then Some SigCancel else if eqb s "timeout" then Some SigTimeout else None.

(** types/mod.rs:46-63 Display / From<String> for WorkflowLogType *)
Definition show_log_type (t : log_type) : string := match t with LError => "error" | LLog => "log" end.
Definition log_type_of_string (s : string) : log_type :=
  if eqb s "error" then LError else if eqb s "log" then LLog else LLog.

(** ** The registry of running jobs: signals/mod.rs:10-40.
    [Arc<Mutex<SignalState>>] is an address in [sm_heap]; [sm_pending] holds, per calling thread, the
    signal found by the first half of [cancel_job] (the map lock is released before the signal's lock
    is taken). *)
Record sigman := SigMan {
  sm_reg : map_ job_id nat;
  sm_heap : list sig_state;
  sm_pending : map_ nat nat }.
Definition sm_init : sigman := SigMan [] [] [].

Fixpoint list_set {A} (n : nat) (x : A) (l : list A) : list A :=
  match l, n with
  | [], _ => []
  | _ :: l', O => x :: l'
  | a :: l', S n' => a :: list_set n' x l'
  end.

Inductive sm_op :=
| MRegister (j : job_id)              (* execution_context/mod.rs:219-221: register a fresh signal *)
| MUnregister (j : job_id)            (* execution_context/mod.rs:244 *)
| MCancelGet (caller : nat) (j : job_id)   (* cancel_job, first lock: get_signal *)
| MCancelFire (caller : nat)               (* cancel_job, second lock: signal.cancel()? *)
| MSignal (addr : nat) (o : sig_op).       (* any operation by a holder of a clone of a job's signal *)

Inductive sm_out := MUnit | MRes (r : result unit) | MFound | MSig (o : sig_out) | MNothing.

Definition job_not_found (j : job_id) : error := OtherError ("Job " +++ show_job_id j +++ " not found").

(** signals/mod.rs:19-40 *)
Definition sm_step (s : sigman) (o : sm_op) : sigman * sm_out :=
  match o with
  | MRegister j =>
      (SigMan (insert j (length (sm_heap s)) (sm_reg s)) (sm_heap s ++ [sig_init]) (sm_pending s), MUnit)
  | MUnregister j => (SigMan (remove j (sm_reg s)) (sm_heap s) (sm_pending s), MUnit)
  | MCancelGet c j =>
      match lookup j (sm_reg s) with
      | None => (s, MRes (Err (job_not_found j)))
      | Some a => (SigMan (sm_reg s) (sm_heap s) (insert c a (sm_pending s)), MFound)
      end
  | MCancelFire c =>
      match lookup c (sm_pending s) with
      | None => (s, MNothing)
      | Some a =>
          match nth_error (sm_heap s) a with
          | None => (s, MNothing)
          | Some st =>
              let '(st', r, _) := sig_cancel st in
              (SigMan (sm_reg s) (list_set a st' (sm_heap s)) (remove c (sm_pending s)), MRes r)
          end
      end
  | MSignal a o =>
      match nth_error (sm_heap s) a with
      | None => (s, MNothing)
      | Some st => let '(st', r) := sig_step st o in
                   (SigMan (sm_reg s) (list_set a st' (sm_heap s)) (sm_pending s), MSig r)
      end
  end.

Definition sm_after (ops : list sm_op) : sigman := fold_left (fun st o => fst (sm_step st o)) ops sm_init.
Definition sm_output (ops : list sm_op) (o : sm_op) : sm_out := snd (sm_step (sm_after ops) o).

(** [SignalManager::cancel_job] run without interruption by caller [c]: mod.rs:31-39. *)
Definition cancel_job (c : nat) (j : job_id) (ops : list sm_op) : result unit * sigman :=
  match sm_output ops (MCancelGet c j) with
  | MRes r => (r, sm_after ops)
  | _ => match sm_output (ops ++ [MCancelGet c j]) (MCancelFire c) with
         | MRes r => (r, sm_after (ops ++ [MCancelGet c j; MCancelFire c]))
         | _ => (Ok tt, sm_after ops)
         end
  end.
