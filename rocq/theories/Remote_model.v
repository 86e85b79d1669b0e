(** Model of crates/remote-runner/src/client.rs and runner_server.rs. The transport is gRPC (tonic): calls may fail, a response stream delivers what the server
    sent, in order, until it ends or breaks. *)
From Verif Require Import Base Types Signals_model Stream_model Plugins_model Exec_model Runner_model Sched_model.

(** workflow/step.rs:43-57 [From<Command> for Step] *)
Definition step_of_command (c : command) : step :=
  Step (cmd_id c) (cmd_name c) None (cmd_container c) (Types.cmd_run c) (cmd_continue_on_error c) (cmd_environments c) (cmd_secrets c) (cmd_timeout c).

(** ** Running one step remotely *)
(** protocol/src/lib.rs:22-32; the step id it carries is not read by the client (client.rs:262,269). *)
Inductive response := RspLog (l : log) | RspResult (r : run_result).
(** The three ways a task of the client stands: the run call is out; in the loop of client.rs:252-298; finished. *)
Inductive rphase := RCall | RLoop | RDone.
Inductive cmsg :=
| CmAnswer (err : option string)                       (* client.rs:240: the run call returns *)
| CmItem (r : response) | CmBroken (e : string) | CmClosed   (* :254 [stream.next()] *)
| CmSignal (s : signal) (err : option string).         (* :284 the signal was raised; how sending the event went *)
(** client.rs:50-59 around :237-301. The effects are the calls made on the step's [StreamSender]. *)
Definition fail_with (e : string) : list seff := [SeLog (log_error e); SeEnd (RFailed 1)].
Definition after_run (ended : bool) : list seff := if ended then [] else [SeLog (log_error "Failed to run"); SeEnd (RFailed 1)].
Definition client_step (p : rphase) (ended : bool) (m : cmsg) : option (rphase * list seff) :=
  match p, m with
  | RCall, CmAnswer None => Some (RLoop, [])
  | RCall, CmAnswer (Some e) => Some (RDone, fail_with ("Failed to run: " +++ e))
  | RLoop, CmItem (RspLog l) => Some (RLoop, [SeLog (match l_type l with LError => log_error (l_message l) | LLog => log_log (l_message l) end)])
  | RLoop, CmItem (RspResult r) => Some (RLoop, [SeEnd r])
  | RLoop, CmBroken e => Some (RDone, fail_with ("Failed to run: " +++ e))
  | RLoop, CmClosed => Some (RDone, after_run ended)
  | RLoop, CmSignal s None => Some (RLoop, [])
  | RLoop, CmSignal s (Some e) => Some (RDone, after_run ended)
  | _, _ => None
  end.
Definition has_end (effs : list seff) : bool := existsb (fun e => match e with SeEnd _ => true | _ => false end) effs.

(** The client's task, the server's task (runner_server.rs:49-72) and what is under way between them. The channel's capacity of 30 (:84) only delays the server. *)
Inductive sphase := SvIdle | SvRunning | SvDone.
Record remote := Remote { r_client : rphase; r_server : sphase; r_wire : list response; r_effs : list seff; r_sent : list signal }.
Definition remote_init : remote := Remote RCall SvIdle [] [] [].
Inductive rinput :=
| RiAnswer (err : option string)
| RiLog (l : log)                  (* the server's runner logs: :52-56 *)
| RiResult (r : run_result)        (* its stream ends with a result: :58-69 *)
| RiRunnerFails                    (* [run] returns Err (:50) or its stream ends without a result (:58): the channel is dropped *)
| RiDeliver | RiClosed | RiBroken (e : string)
| RiSignal (s : signal) (err : option string).
Definition client_gets (st : remote) (m : cmsg) (wire : list response) (sent : list signal) (sv : sphase) : option remote :=
  match client_step (r_client st) (has_end (r_effs st)) m with
  | Some (p, o) => Some (Remote p sv wire (r_effs st ++ o) sent)
  | None => None
  end.
Definition remote_step (st : remote) (i : rinput) : option remote :=
  match i with
  | RiAnswer err => client_gets st (CmAnswer err) (r_wire st) (r_sent st) (match err with None => SvRunning | Some _ => r_server st end)
  | RiLog l => match r_server st with SvRunning => Some (Remote (r_client st) SvRunning (r_wire st ++ [RspLog l]) (r_effs st) (r_sent st)) | _ => None end
  | RiResult r => match r_server st with SvRunning => Some (Remote (r_client st) SvDone (r_wire st ++ [RspResult r]) (r_effs st) (r_sent st)) | _ => None end
  | RiRunnerFails => match r_server st with SvRunning => Some (Remote (r_client st) SvDone (r_wire st) (r_effs st) (r_sent st)) | _ => None end
  | RiDeliver => match r_wire st with m :: w => client_gets st (CmItem m) w (r_sent st) (r_server st) | [] => None end
  | RiClosed => match r_wire st, r_server st with [], SvDone => client_gets st CmClosed [] (r_sent st) SvDone | _, _ => None end
  | RiBroken e => client_gets st (CmBroken e) (r_wire st) (r_sent st) (r_server st)
  | RiSignal s err => client_gets st (CmSignal s err) (r_wire st) (match err with None => r_sent st ++ [s] | Some _ => r_sent st end) (r_server st)
  end.
Inductive remote_run : list rinput -> remote -> Prop :=
| remote_run_init : remote_run [] remote_init
| remote_run_step ins st i st' : remote_run ins st -> remote_step st i = Some st' -> remote_run (ins ++ [i]) st'.

(** The operations on the step's stream (Stream_model) these calls are; one task makes them, so each [end] is uninterrupted. *)
Definition op_of (e : seff) : list stream_op :=
  match e with SeLog l => [match l_type l with LError => SError (l_message l) | LLog => SLog (l_message l) end] | SeEnd r => end_call 0 r end.
Definition stream_of (effs : list seff) : stream_state := stream_after (flat_map op_of effs).

(** client.rs:30-62 before the task is spawned: [pick] is the scheduler's answer. [None]: the call panics (:48 [unwrap]). *)
Definition client_start (clients : map_ string runner_meta) (pick : option runner_meta) : option (list seff + runner_meta) :=
  match pick with
  | None => Some (inl (fail_with "No runner available"))
  | Some r => match lookup (rm_id r) clients with Some c => Some (inr c) | None => None end
  end.

(** ** The server's table of signals: runner_server.rs:88-91, 123-127, 169-185. A signal is named by the index of the run call that created it
    (the context's signal is not transmitted: types/context.rs:20 [serde(skip)], a fresh one is made). *)
Inductive smsg := SmRun (id : step_id) | SmStepCompleted (id : step_id) | SmSignal (id : step_id) (s : signal) | SmOther.
Record stable := STable { tb_signals : map_ step_id nat; tb_heap : list sig_state }.
Definition stable_init : stable := STable [] [].
Definition stable_step (t : stable) (m : smsg) : stable :=
  match m with
  | SmRun id => STable (insert id (length (tb_heap t)) (tb_signals t)) (tb_heap t ++ [sig_init])
  | SmStepCompleted id => STable (remove id (tb_signals t)) (tb_heap t)
  | SmSignal id s =>
      match lookup id (tb_signals t) with
      | Some a => match nth_error (tb_heap t) a with
                  | Some sg => STable (tb_signals t) (list_set a (fst (fst (sig_raise s sg))) (tb_heap t))
                  | None => t
                  end
      | None => t
      end
  | SmOther => t
  end.
Definition stable_after (h : list smsg) : stable := fold_left stable_step h stable_init.

(** ** Events *)
(** protocol/src/lib.rs:9-20 without [Signal], and runner_server.rs:106-168. *)
Definition server_dispatch {W} (remove_signal : step_id -> W -> W) (plugins : list (receiver W)) (runner : receiver W) (e : hook_event) (w : W) : W :=
  match e with
  | HWorkflowCompleted r => fst (Plugins_model.on_workflow_completed runner r (driver_on_workflow_completed W plugins r w))
  | HJobCompleted r => fst (Plugins_model.on_job_completed runner r (driver_on_job_completed W plugins r w))
  | HStepCompleted r => fst (Plugins_model.on_step_completed runner r (driver_on_step_completed W plugins r (remove_signal (sr_id r) w)))
  | HLog l => fst (on_log runner l (driver_on_log W plugins l w))
  | HState x => fst (on_state_change runner x (driver_on_state_change W plugins x w))
  | HRunStep x => fst (on_run_step runner x (driver_on_run_step W plugins x w))
  | HRunJob x => fst (on_run_job runner x (driver_on_run_job W plugins x w))
  | HRunWorkflow x => fst (on_run_workflow runner x (driver_on_run_workflow W plugins x w))
  end.

(** The broadcast channel between the client's hooks (client.rs:64-142) and the loop of [start] (:194-201), for one call of [start].
    tokio rounds the capacity of 30 (:327) up to a power of two; a receiver more than that many events behind gets [Lagged]. Events sent before
    [subscribe] (:174) are lost. The hooks send without waiting. *)
Definition capacity : nat := 32.
Inductive lphase := LBefore | LConnecting | LLoop | LSending (e : hook_event) (rest : list string) | LEnded.
Record fwd := Fwd { f_phase : lphase; f_queue : list hook_event; f_sent : list (string * hook_event); f_clients : list string }.
Inductive finput :=
| FiEvent (e : hook_event)          (* a hook of the client is called *)
| FiSubscribe | FiConnected (clients : list string)   (* :174; :176-192 *)
| FiRecv                            (* :194 *)
| FiSent (ok : bool).               (* :197 returns *)
Definition fwd_init : fwd := Fwd LBefore [] [] [].
Definition fwd_step (f : fwd) (i : finput) : option fwd :=
  match i, f_phase f with
  | FiEvent e, LBefore => Some f
  | FiEvent e, LEnded => Some f
  | FiEvent e, p => Some (Fwd p (f_queue f ++ [e]) (f_sent f) (f_clients f))
  | FiSubscribe, LBefore => Some (Fwd LConnecting [] (f_sent f) (f_clients f))
  | FiConnected cs, LConnecting => Some (Fwd LLoop (f_queue f) (f_sent f) cs)
  | FiRecv, LLoop =>
      if Nat.ltb capacity (length (f_queue f)) then Some (Fwd LEnded [] (f_sent f) (f_clients f))
      else match f_queue f with
           | e :: q => Some (Fwd (match f_clients f with [] => LLoop | cs => LSending e cs end) q (f_sent f) (f_clients f))
           | [] => None
           end
  | FiSent ok, LSending e (c :: cs) =>
      Some (Fwd (match cs with [] => LLoop | _ => LSending e cs end) (f_queue f) (if ok then f_sent f ++ [(c, e)] else f_sent f) (f_clients f))
  | _, _ => None
  end.
Inductive fwd_run : list finput -> fwd -> Prop :=
| fwd_run_init : fwd_run [] fwd_init
| fwd_run_step ins f i f' : fwd_run ins f -> fwd_step f i = Some f' -> fwd_run (ins ++ [i]) f'.

(** ** Connecting: client.rs:176-192, 207-235. What trying a url gives. *)
Inductive attempt := Unreachable | NoMetadata | Reports (m : runner_meta).
Definition protocol_version : string := "0.2.0".
Definition connect (a : attempt) : option runner_meta :=
  match a with Reports m => if eqb (rm_version m) protocol_version then Some m else None | _ => None end.
Definition connect_all (urls : list attempt) (clients : map_ string runner_meta) : map_ string runner_meta :=
  fold_left (fun cs a => match connect a with
                         | Some m => if contains_key (rm_id m) cs then cs else insert (rm_id m) m cs
                         | None => cs
                         end) urls clients.
(** runner_server.rs:191-206 *)
Definition server_metadata (id : string) (max_runs : Z) (docker host : bool) (os arch : string) : runner_meta :=
  RunnerMeta id os arch docker host protocol_version max_runs.

(** ** The scheduler of the client: which of its functions the client's hooks call (client.rs:39, 64-142). *)
Inductive client_call := ClSchedule (op : sop) | ClHook (e : hook_event).
Definition scheduler_ops (c : client_call) : list sop :=
  match c with ClSchedule (SBegin n q) => [SBegin n q] | ClSchedule (SNext n) => [SNext n] | _ => [] end.

(** ** Hooks before a step: runner_server.rs:208-230, client.rs:144-162. [w]: the state of one server, [ws]: of all of them. *)
Section Before.
Variable W : Type.
Record server := Server { sv_plugins : list (receiver W); sv_runner : receiver W }.
Definition server_before (s : server) (c : command) (w : W) : W * result command :=
  let '(w1, st) := driver_on_before_run_step W (sv_plugins s) (step_of_command c) w in
  match on_before_run_step (sv_runner s) st w1 with
  | (w2, Ok st') => (w2, Ok (command_of_step st'))
  | (w2, Err e) => (w2, Err e)
  end.
(** A call of a server may also fail on the way ([Some e]). The text of the error (a gRPC status) is not modelled further. *)
Fixpoint before_all (servers : list (server * option string)) (c : command) (w : W) : W * result command :=
  match servers with
  | [] => (w, Ok c)
  | (s, Some e) :: _ => (w, Err (OtherError e))
  | (s, None) :: rest => match server_before s c w with
                         | (w1, Ok c1) => before_all rest c1 w1
                         | (w1, Err e) => (w1, Err e)
                         end
  end.
Definition client_before (servers : list (server * option string)) (st : step) (w : W) : W * result step :=
  match before_all servers (command_of_step st) w with
  | (w1, Ok c) => (w1, Ok (step_of_command c))
  | (w1, Err e) => (w1, Err e)
  end.
End Before.
