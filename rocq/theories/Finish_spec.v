(** Specification vocabulary: completing a run from wherever it is. *)
From Verif Require Import Base Types Signals_model Stream_model Cond_model Plugins_model Exec_model Workflow_model Workflow_spec Runner_model
  Remote_model Local_model Distant_model System_model.

(** Before-run-step hooks that leave a step in its job. *)
Definition keeps_steps (c : exec_context unit) : Prop :=
  forall st, step_id_job_id (st_id (snd (call_on_before_run_step unit c st tt))) = step_id_job_id (st_id st).

Section S.
Context {iop : Type}.
(** Nobody outside the run registers or unregisters its jobs (Workflow_spec.v), and the steps' hooks are [tame]. *)
Definition orderly (wf : workflow) (tame : iop -> Prop) (op : sysop (iop := iop)) : Prop :=
  match op with
  | YFlow o => well_behaved wf o
  | YStep _ o | YPast _ o => tame o
  end.
(** A way of going on in which nothing comes from outside the run except GitHub's answer [gh] and what [inner] allows inside steps. *)
Definition goes_on (gh : github) (inner : iop -> Prop) (op : sysop (iop := iop)) : Prop :=
  match op with
  | YFlow (WEnv _) | YFlow (WTaskOp _ (JStep _)) | YPast _ _ => False
  | YFlow (WGithub g) | YFlow (WTaskOp _ (JGithub g)) => g = gh
  | YFlow _ => True
  | YStep _ o => inner o
  end.
(** An action of the i-th job task, or of the runner executing its current step. *)
Definition by_job (i : nat) (op : sysop (iop := iop)) : bool := match op with YFlow (WTaskOp k _) | YStep k _ => Nat.eqb k i | _ => false end.
End S.

(** ** The built-in runner *)
Definition tame_local (op : lop) : Prop := match op with LEngine (OpBefore c) => keeps_steps c | _ => True end.
(** No timer fires, no job signal is looked at; hooks of steps that still start behave like [c]; the runner's own operations succeed and a
    command prints nothing more and exits with [code]. *)
Definition plain_local (c : exec_context unit) (code : option Z) (op : lop) : Prop :=
  match op with
  | LEngine (OpBefore c') => c' = c
  | LEngine OpTimer | LEngine OpJobSignal | LEngine (OpRunner _) | LWorld _ => False
  | LEngine _ | LSpawn | LSender => True
  | LRunner i => i = XIGo \/ i = XIFs true \/ i = XICmd (CISpawn true) \/ i = XICmd (CIOut RdEof) \/ i = XICmd (CIExit code)
  end.

(** ** Remote runners *)
Definition tame_distant (op : dop) : Prop := match op with DEngine (OpBefore c) => keeps_steps c | _ => True end.
(** The same; the scheduler answers [pick] with [clients] connected, the server accepts the call, its runner prints nothing more and ends with
    [rr], and the connection holds. *)
Definition plain_distant (c : exec_context unit) (clients : map_ string Sched_model.runner_meta) (pick : option Sched_model.runner_meta) (rr : run_result) (op : dop) : Prop :=
  match op with
  | DEngine (OpBefore c') => c' = c
  | DEngine OpTimer | DEngine OpJobSignal | DEngine (OpRunner _) | DWorld _ => False
  | DEngine _ | DSender => True
  | DPick cs p => cs = clients /\ p = pick
  | DRemote i => i = RiAnswer None \/ i = RiResult rr \/ i = RiDeliver \/ i = RiClosed
  end.

(** ** Any dependencies *)
(** A job whose dependencies, theirs, and so on, are jobs of the workflow and lead to jobs without dependencies. *)
Inductive grounded (wf : workflow) : string -> Prop :=
| grounded_job k j : In (k, j) (wf_jobs wf) -> (forall d, In d (jb_depends_on j) -> grounded wf d) -> grounded wf k.
