(** Specification vocabulary: workflow runs placed on runner servers. *)
From Verif Require Import Base Types Exec_model Workflow_model Sched_model Remote_model Distant_model System_model Fleet_model Dispatch_model Dispatch_spec
  Worker_model Chain_model Farm_model.

(** What is seen without looking into the servers: everything but the actions of their executors. *)
Definition client_view (tr : list qobs) : list pobs :=
  flat_map (fun e => match e with
                     | QSched x => [PSched x]
                     | QSeen k (w, inl x) => [PSeen k (w, inl x)]
                     | QSeen k (w, inr (KObs x)) => [PSeen k (w, inr x)]
                     | QSeen _ (_, inr (KEff _)) => []
                     end) tr.
(** The events of the runs and their servers. *)
Definition farm_seen (tr : list qobs) : list (nat * sysobs (iobs := kobs)) := flat_map (fun e => match e with QSeen k x => [(k, x)] | _ => [] end) tr.
(** The runners connected after the actions [ops]. *)
Definition farm_connected (ops : list qop) : map_ string runner_meta := connect_all (flat_map (fun op => match op with QConnect a => [a] | _ => [] end) ops) [].
(** What the runs and servers did, apart from what the scheduler decides. *)
Definition farm_ops (ops : list qop) : list (fop (iop := kop)) := flat_map (fun op => match op with QFleet o => [o] | _ => [] end) ops.
(** Which server each step was sent to: for which run and job, from which table, and the answer. *)
Definition sent_runners (fops : list (fop (iop := kop))) : list (nat * nat * map_ string runner_meta * option runner_meta) :=
  flat_map (fun op => match op with FRunOp k (YStep i (KFlow (DPick clients r))) => [(k, i, clients, r)] | _ => [] end) fops.

(** In the trace [tr], with the calls of the scheduler [asked]: the step that job task [i] of run [k] gave its runner as [rc] was placed by the scheduler with answer [res].
    Between its being given and the answer that job gave nothing else to its runner, and the call was about this step. *)
Definition placed (asked : list asking) (tr : list pobs) (k i : nat) (rc : run_context) (res : option runner_meta) : Prop :=
  exists c l a pre mid mid' post, tr = pre ++ gives k i rc :: mid ++ PSched (EvCalled c (asks_about l rc)) :: mid' ++ PSched (EvReturned c (asks_about l rc) res) :: post /\
    nth_error asked c = Some a /\ as_run a = k /\ as_job a = i /\ forall rc', ~ In (gives k i rc') (mid ++ mid').
