(** Specification vocabulary: how much happens in a run, and what has to happen. *)
From Verif Require Import Base Types Signals_model Stream_model Cond_model Plugins_model Exec_model Workflow_model Workflow_spec Runner_model
  Remote_model Local_model Distant_model Worker_model System_model Chain_model Finish_spec.

(** [Move]: work is done. [Idle]: none is - the engine, waiting for the runner, looks at what there is and goes on waiting; a timer fires or a
    signal is raised or passed on (whether anything comes of it is up to the runner); the rest of the program does something. [Printed]: a step's
    command prints a line. *)
Inductive kind := Move | Idle | Printed.
Definition is_move (k : kind) : bool := match k with Move => true | _ => false end.
Definition is_printed (k : kind) : bool := match k with Printed => true | _ => false end.

(** The engine is waiting for the runner's next message. *)
Definition waits (p : step_phase) : bool := match p with SpLoop _ _ _ _ _ _ => true | _ => false end.
Definition engine_kind (op : step_op) (after : step_phase) : kind :=
  match op with
  | OpTimer | OpJobSignal => Idle
  | _ => if waits after then Idle else Move
  end.
Definition local_kind (_ : option ltask) (op : lop) (after : step_phase) (_ : option ltask) : kind :=
  match op with
  | LEngine o => engine_kind o after
  | LRunner (XICmd (CIOut (RdLine _))) | LRunner (XICmd (CIErr (RdLine _))) => Printed
  | _ => Move
  end.
Definition client_kind (op : dop) (after : step_phase) : kind :=
  match op with
  | DEngine o => engine_kind o after
  | DRemote (RiLog _) => Printed
  | DRemote (RiSignal _ None) => Idle
  | _ => Move
  end.
Definition distant_kind (_ : option dtask) (op : dop) (after : step_phase) (_ : option dtask) : kind := client_kind op after.
(** With the built-in runner at the server: the server's task looks at the runner's stream in the same way. *)
Definition listens (x : kside) : bool := match kd_w x with Some w => match wk_fwd w with FNext => true | _ => false end | None => false end.
Definition chained_kind (before : kside) (op : kop) (after : step_phase) (x : kside) : kind :=
  match op with
  | KFlow o => client_kind o after
  | KExec (XICmd (CIOut (RdLine _))) | KExec (XICmd (CIErr (RdLine _))) => Printed
  | KForward => if listens before && listens x then Idle else Move
  | KStray | KForget => Idle
  | _ => Move
  end.

(** The largest number of steps of a job, and how much a run of a workflow of this shape does by itself; [k] depends on the kind of runner
    only. *)
Definition most_steps (wf : workflow) : nat := fold_right (fun kj m => Nat.max (length (jb_steps (snd kj))) m) 0 (wf_jobs wf).
Definition work_bound (k : nat) (wf : workflow) : nat :=
  let n := length (wf_jobs wf) in (n + 8 + receive_bound n n n * (n + 2)) * ((17 + k) * most_steps wf + 12 + k).

Section S.
Context {T iop iobs : Type}.
Variable R : rside T iop iobs.
Variable glob : glob_oracle.
Variable cx : ectx.
Variable wf : workflow.
(** What an action inside a step was: the runner's side before it, the action, the step's phase and the runner's side after it. *)
Variable ikind : T -> iop -> step_phase -> T -> kind.

(** What an action that led from [s] to [s'] was. *)
Definition kind_of (s : @system T) (op : sysop (iop := iop)) (s' : @system T) : kind :=
  match op with
  | YFlow (WEnv _) => Idle
  | YFlow _ => Move
  | YStep i o => match nth_error (sy_cur s) i, nth_error (ws_tasks (sy_w s')) i, nth_error (sy_cur s') i with
                 | Some x, Some t, Some x' => match tk_phase t with JpStepRun _ _ _ p _ => ikind x o p x' | _ => Move end
                 | _, _, _ => Move
                 end
  | YPast k o => match nth_error (sy_past s) k, nth_error (sy_past s') k with Some (_, (_, _, x)), Some (_, (_, p, x')) => ikind x o p x' | _, _ => Move end
  end.
Fixpoint kinds (s : @system T) (ops : list (sysop (iop := iop))) : list kind :=
  match ops with
  | [] => []
  | op :: ops' => match sysstep R glob cx wf s op with Some (s', _) => kind_of s op s' :: kinds s' ops' | None => [] end
  end.
Definition start (sh0 : shared) : @system T := System (winit sh0) [] [].
Definition moves (s : @system T) (ops : list (sysop (iop := iop))) : nat := length (filter is_move (kinds s ops)).
Definition lines (s : @system T) (ops : list (sysop (iop := iop))) : nat := length (filter is_printed (kinds s ops)).

(** The run can go on by itself, in a way allowed by [allowed]: possibly after looking at what there is, some work can be done. *)
Definition can_move (allowed : sysop (iop := iop) -> Prop) (s : @system T) : Prop :=
  exists look op s1 o1 s2 o2, Forall allowed (look ++ [op]) /\ sysexec R glob cx wf s look = Some (s1, o1) /\ (forall k, In k (kinds s look) -> k = Idle) /\
    sysstep R glob cx wf s1 op = Some (s2, o2) /\ kind_of s1 op s2 = Move.

(** An unending execution: at time [n] the state is [st n] and the next action, if there is one, is [act n]. *)
Definition execution (sh0 : shared) (st : nat -> @system T) (act : nat -> option (sysop (iop := iop))) : Prop :=
  st 0 = start sh0 /\
  forall n, match act n with
            | Some op => exists tr, sysstep R glob cx wf (st n) op = Some (st (S n), tr)
            | None => st (S n) = st n
            end.
(** Whenever some work can be done, in an allowed way, then some work, not necessarily that, is done at some later time. *)
Definition not_abandoned (allowed : sysop (iop := iop) -> Prop) (st : nat -> @system T) (act : nat -> option (sysop (iop := iop))) : Prop :=
  forall n, can_move allowed (st n) -> exists m op, n <= m /\ act m = Some op /\ kind_of (st m) op (st (S m)) = Move.
(** From some time on nothing is printed. *)
Definition prints_finitely (st : nat -> @system T) (act : nat -> option (sysop (iop := iop))) : Prop :=
  exists n, forall m op, n <= m -> act m = Some op -> kind_of (st m) op (st (S m)) <> Printed.
End S.
