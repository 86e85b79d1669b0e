(** What a workflow run on remote runners with the built-in runner behind them does on the runners' machines. *)
From Verif Require Import Base Types Plugins_model Exec_model Exec_spec Workflow_model Workflow_spec Runner_model Sched_model Remote_model Local_model Local_spec Distant_model Worker_model System_model.

(** The scheduler sent a step of the [i]-th started job to [srv]: the runner that it answered, as the client has it in its table (client.rs:39-48). *)
Definition asked (all : list (sysop (iop := kop))) (i : nat) (srv : runner_meta) : Prop :=
  exists clients m, In (YStep i (KFlow (DPick clients (Some m)))) all /\ lookup (rm_id m) clients = Some srv.

(** Calls of the runner and starts of processes. *)
Definition start_or_call (e : obs + kobs) : Prop := match e with inr (KObs (ORun _)) | inr (KEff (EfSpawn _)) => True | _ => False end.
Section Permits.
Variables (rhooks : runner_meta -> run_context -> run_context) (conf : runner_meta -> run_context -> xconf).
Variable all : list (sysop (iop := kop)).
(** [permits tr l]: in the trace [tr] every start of a process for a job used up one earlier call of the runner by that job, for the command of that very call on a server that the
    scheduler had chosen; the calls in [l], each with its job, have not been used up. *)
Inductive permits : list (who * (obs + kobs)) -> list (nat * run_context) -> Prop :=
| permits_none : permits [] []
| permits_call tr l i rc : permits tr l -> permits (tr ++ [(Some i, inr (KObs (ORun rc)))]) (l ++ [(i, rc)])
| permits_start tr l1 l2 i rc srv t : permits tr (l1 ++ (i, rc) :: l2) -> asked all i srv -> t = xc_spawned (conf srv (rhooks srv rc)) ->
    permits (tr ++ [(Some i, inr (KEff (EfSpawn t)))]) (l1 ++ l2)
| permits_other tr l w e : permits tr l -> ~ start_or_call e -> permits (tr ++ [(w, e)]) l.
End Permits.

(** What the [i]-th started job gave to the runner, and the processes that were started for it, in order. *)
Definition given_by (i : nat) (tr : list (who * (obs + kobs))) : list run_context :=
  flat_map (fun x => match x with (Some j, inr (KObs (ORun rc))) => if Nat.eqb j i then [rc] else [] | _ => [] end) tr.
Definition started_for (i : nat) (tr : list (who * (obs + kobs))) : list string :=
  flat_map (fun x => match x with (Some j, inr (KEff (EfSpawn t))) => if Nat.eqb j i then [t] else [] | _ => [] end) tr.
