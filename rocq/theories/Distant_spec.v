(** Specification vocabulary for a step on a remote runner. *)
From Verif Require Import Base Types Signals_model Cond_model Exec_model Remote_model Remote_spec Distant_model.

(** What happened between the client and the server. *)
Definition remote_events (ops : list dop) : list rinput := flat_map (fun op => match op with DRemote i => [i] | _ => [] end) ops.
(** The signal the engine hands to the step with action [op] in state [s]: Timeout when its timer fires, the job's signal when
    it finds that raised and not delivered before. *)
Definition hands_on (s : dstate) (op : dop) : list signal :=
  match ds_step s, op with
  | SpLoop _ _ _ _ _ _, DEngine OpTimer => [SigTimeout]
  | SpLoop _ _ a _ _ _, DEngine OpJobSignal =>
      match nth_error (sm_heap (sh_sm (ds_sh s))) a with
      | Some c => if sg_notified c then [] else match sg_signal c with Some g => [g] | None => [] end
      | None => []
      end
  | _, _ => []
  end.
Section H.
Variables (cx : ectx) (me cl : task) (st0 : step).
(** All executions of the step, with the signals handed to it. *)
Inductive dhist : list dop -> dstate -> list obs -> list signal -> Prop :=
| dhist_init sh : dhist [] (DState sh (SpBefore st0) None) [] []
| dhist_step ops s tr gs op s' o : dhist ops s tr gs -> dstep cx me cl s op = Some (s', o) -> dhist (ops ++ [op]) s' (tr ++ o) (gs ++ hands_on s op).
End H.
(** The signals the client passed to the server, and those it tried to pass. *)
Definition attempts (ins : list rinput) : list signal := flat_map (fun i => match i with RiSignal g _ => [g] | _ => [] end) ins.
(** The result of a step whose remote run has [ins] for its history. *)
Definition remote_result (ins : list rinput) : run_result := match result_of (arrived ins) with Some r => r | None => RFailed 1 end.
(** What is needed to bring the step to its end: the engine reads, calls complete, and what is on the wire is delivered. *)
Definition plain (op : dop) : Prop :=
  op = DSender \/ op = DEngine OpNext \/ op = DEngine OpStream \/ op = DEngine (OpAnswer true) \/ op = DRemote RiDeliver \/ op = DRemote RiClosed.
