(** Specification vocabulary for a step on a remote runner whose server has the built-in runner. *)
From Verif Require Import Base Types Signals_model Stream_model Cond_model Plugins_model Exec_model Runner_model Runner_spec Sched_model Remote_model Remote_spec Local_model Local_spec Distant_model
  Distant_spec Worker_model.

(** What the engine emitted, and what the executor did. *)
Definition k_events (tr : list kobs) : list obs := flat_map (fun o => match o with KObs x => [x] | KEff _ => [] end) tr.
Definition k_effects (tr : list kobs) : list xeff := flat_map (fun o => match o with KEff x => [x] | KObs _ => [] end) tr.
(** What the executor's stream says: its log lines, then its result. *)
Definition says (effs : list xeff) : list response :=
  flat_map (fun e => match e with EfLog l => [RspLog l] | EfEnd r => [RspResult r] | _ => [] end) effs.

(** The run call of the step, if the scheduler gave it a runner. *)
Definition the_remote (d : dstate) : option remote := match ds_task d with Some t => dt_remote t | None => None end.
(** The runner that the call was sent to: the one the scheduler answered, as the client has it in its table (client.rs:39-48). *)
Definition sent_to (ops : list kop) (srv : runner_meta) : Prop :=
  exists clients r, In (KFlow (DPick clients (Some r))) ops /\ lookup (rm_id r) clients = Some srv.
(** What a transition means for the engine, the client and the transport. *)
Definition outward (s : kstate) (op : kop) : list dop :=
  match op with
  | KFlow o => [o]
  | KForward =>
      match k_w s, posting s with
      | Some w, Posted => match wk_fwd w with FSend l => [DRemote (RiLog l)] | FResult r => [DRemote (RiResult r)] | _ => [] end
      | _, _ => []
      end
  | _ => []
  end.
(** What it means for the executor. *)
Definition inward (s : kstate) (op : kop) : list xinput :=
  let hears g := match k_w s with Some w => if wk_listed w then [XISignal g] else [] | None => [] end in
  match op with
  | KExec i => [i]
  | KFlow (DRemote (RiSignal g None)) => hears g
  | KStray => match k_lost s with g :: _ => hears g | [] => [] end
  | _ => []
  end.
Section H.
Variables (cx : ectx) (me cl sv : task) (rhooks : runner_meta -> run_context -> run_context) (conf : runner_meta -> run_context -> xconf) (st0 : step).
(** All executions of the step, with the part of the engine, client and transport [dops], the signals [gs] handed to the step, and the history [ins] of the executor. *)
Inductive khist : list kop -> kstate -> list kobs -> list dop -> list signal -> list xinput -> Prop :=
| khist_init sh : khist [] (KState (DState sh (SpBefore st0) None) None None []) [] [] [] []
| khist_step ops s tr dops gs ins op s' o : khist ops s tr dops gs ins -> kstep cx me cl sv rhooks conf s op = Some (s', o) ->
    khist (ops ++ [op]) s' (tr ++ o) (dops ++ outward s op) (gs ++ flat_map (hands_on (k_d s)) (outward s op)) (ins ++ inward s op).
End H.

(** What brings a decided step to its end: calls on streams complete, the server's task reads and sends, the call is answered, what is on the wire is delivered. *)
Definition settling (op : kop) : Prop :=
  match op with
  | KSender | KForward => True
  | KFlow d => d = DRemote (RiAnswer None) \/ plain d
  | _ => False
  end.
(** Nothing comes from outside: no timer fires, no signal is looked at, hooks behave like [c]; the scheduler answers [pick] with [clients] connected, the call reaches the server
    and the connection holds; the server's runner succeeds in its own operations and the command prints nothing more and exits with [code]. *)
Definition plain_worker (c : exec_context unit) (clients : map_ string runner_meta) (pick : option runner_meta) (code : option Z) (op : kop) : Prop :=
  match op with
  | KFlow d =>
      match d with
      | DEngine (OpBefore c') => c' = c
      | DEngine OpTimer | DEngine OpJobSignal | DEngine (OpRunner _) | DWorld _ => False
      | DEngine _ | DSender => True
      | DPick cs p => cs = clients /\ p = pick
      | DRemote i => i = RiAnswer None \/ i = RiDeliver \/ i = RiClosed
      end
  | KArrive | KSender | KForward => True
  | KExec i => i = XIGo \/ i = XIFs true \/ i = XICmd (CISpawn true) \/ i = XICmd (CIOut RdEof) \/ i = XICmd (CIExit code)
  | KStray | KForget => False
  end.
