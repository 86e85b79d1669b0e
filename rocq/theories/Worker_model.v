(** One step executed by a remote runner whose server has the built-in runner: the engine and the client (Distant_model.v), the server's task for the run call
    (runner_server.rs:42-73), and the task that [AstroRunner::run] spawns there (Runner_model.v).

    The server's run task waits with its first response until the call has been answered; since what it sent before could not be read before the answer, this
    leaves out nothing observable (the channel holds 30 responses, runner_server.rs:83). *)
From Verif Require Import Base Types Signals_model Stream_model Cond_model Plugins_model Exec_model Runner_model Sched_model Remote_model Local_model Local_spec Distant_model.

(** runner_server.rs:51-69: waiting for the stream; a log line, or the result, is being sent; finished. *)
Inductive fphase := FNext | FSend (l : log) | FResult (r : run_result) | FDone.
(** The server's side of a run call. [wk_conf], [wk_x]: the executor. [wk_pend]: the lock sections of calls on the server's stream that the executor has begun and
    not finished (stream.rs:71-118). [wk_str]: that stream. [wk_listed]: the signal of this call is the one in the server's table for the step id (:90-93). *)
Record worker := Worker { wk_conf : xconf; wk_x : xstate; wk_pend : list stream_op; wk_str : stream_state; wk_fwd : fphase; wk_listed : bool }.
(** [k_ctx]: the context of the run call (client.rs:51, 240) and the runner it goes to, by the metadata it gave when the client connected to it (client.rs:48, 176-192).
    [k_lost]: signal events whose sending failed for the client but which may yet reach the server. *)
Record kstate := KState { k_d : dstate; k_ctx : option (run_context * runner_meta); k_w : option worker; k_lost : list signal }.

(** stream.rs:71-118: the lock sections of the executor's calls. *)
Definition worker_ops (e : xeff) : list stream_op :=
  match e with
  | EfLog (Log LLog m) => [SLog m]
  | EfLog (Log LError m) => [SError m]
  | EfEnd r => [SEndCheck 0 r; SEndCommit 0]
  | _ => []
  end.
(** runner_server.rs:168-182: the signal event sets the signal found in the table. *)
Definition raise_at (g : signal) (w : worker) : worker :=
  if wk_listed w then
    let x := wk_x w in
    Worker (wk_conf w) (XState (xs_phase x) (match xs_signal x with Some s => Some s | None => Some g end) (xs_result x)) (wk_pend w) (wk_str w) (wk_fwd w) true
  else w.
Definition set_fwd (f : fphase) (w : worker) : worker := Worker (wk_conf w) (wk_x w) (wk_pend w) (wk_str w) f (wk_listed w).

Inductive kop :=
| KFlow (op : dop)        (* the engine, the client's task and the transport *)
| KArrive                 (* runner_server.rs:79-100, astro_runner.rs:39-69: the run request reaches the server *)
| KExec (i : xinput)      (* the executor's next action *)
| KSender                 (* the next lock section of a stream call of the executor *)
| KForward                (* the next action of the server's run task *)
| KStray                  (* a signal event arrives whose sending had failed for the client *)
| KForget.                (* runner_server.rs:90-93, 119-124: the signal is removed from the table or replaced, by another call with the same step id or its completion *)
Inductive kobs := KObs (o : obs) | KEff (e : xeff).

Section Worker.
Variable cx : ectx.
Variable me cl sv : task.        (* the wakers of the engine's, the client's and the server's task *)
Variable rhooks : runner_meta -> run_context -> run_context.   (* each server has its own plugins and configuration *)
Variable conf : runner_meta -> run_context -> xconf.

Definition kflow (s : kstate) (op : dop) (w' : option worker) (lost' : list signal) : option (kstate * list kobs) :=
  match dstep cx me cl (k_d s) op with
  | Some (d', o) => Some (KState d' (k_ctx s) w' lost', map KObs o)
  | None => None
  end.
(** runner_server.rs:53, 62 [sender.send(..).await]: it waits while the call has not been answered, and fails, without consequence, when the client has given up. *)
Inductive post := Posted | Dropped | Waits.
Definition posting (s : kstate) : post :=
  match ds_task (k_d s) with
  | Some (DTask (Some r) _ _) => match r_server r, r_client r with SvRunning, _ => Posted | _, RDone => Dropped | _, _ => Waits end
  | _ => Waits
  end.
Definition kpost (s : kstate) (i : rinput) (w' : worker) : option (kstate * list kobs) :=
  match posting s with
  | Posted => kflow s (DRemote i) (Some w') (k_lost s)
  | Dropped => Some (KState (k_d s) (k_ctx s) (Some w') (k_lost s), [])
  | Waits => None
  end.

Definition kstep (s : kstate) (op : kop) : option (kstate * list kobs) :=
  match op with
  | KFlow (DRemote (RiLog _)) | KFlow (DRemote (RiResult _)) | KFlow (DRemote RiRunnerFails) => None      (* the server's doing *)
  | KFlow (DRemote (RiAnswer None)) =>
      match k_w s with Some _ => kflow s (DRemote (RiAnswer None)) (k_w s) (k_lost s) | None => None end
  | KFlow (DRemote (RiSignal g None)) => kflow s (DRemote (RiSignal g None)) (option_map (raise_at g) (k_w s)) (k_lost s)
  | KFlow (DRemote (RiSignal g (Some e))) => kflow s (DRemote (RiSignal g (Some e))) (k_w s) (k_lost s ++ [g])
  | KFlow (DPick clients pick) =>
      match dstep cx me cl (k_d s) (DPick clients pick), ds_step (k_d s) with
      | Some (d', o), SpCalling st _ _ _ _ =>
          Some (KState d' (match client_start clients pick with Some (inr srv) => Some (given cx st, srv) | _ => k_ctx s end) (k_w s) (k_lost s), map KObs o)
      | _, _ => None
      end
  | KFlow op => kflow s op (k_w s) (k_lost s)
  | KArrive =>
      match ds_task (k_d s), k_ctx s, k_w s with
      | Some (DTask (Some _) _ _), Some (rc, srv), None => Some (KState (k_d s) (k_ctx s) (Some (Worker (conf srv (rhooks srv rc)) xinit [] stream_init FNext true)) (k_lost s), [])
      | _, _, _ => None
      end
  | KExec (XISignal _) => None
  | KExec i =>
      match k_w s with
      | Some (Worker c x [] str f b) =>
          match xstep c x i with
          | Some (x', o) => Some (KState (k_d s) (k_ctx s) (Some (Worker c x' (flat_map worker_ops o) str f b)) (k_lost s), map KEff o)
          | None => None
          end
      | _ => None
      end
  | KSender =>
      match k_w s with
      | Some (Worker c x (o :: rest) str f b) => Some (KState (k_d s) (k_ctx s) (Some (Worker c x rest (fst (stream_step str o)) f b)) (k_lost s), [])
      | _ => None
      end
  | KForward =>
      match k_w s with
      | None => None
      | Some w =>
          match wk_fwd w with
          | FNext =>
              let '(str', p, _) := stream_poll sv (wk_str w) in
              let w' := Worker (wk_conf w) (wk_x w) (wk_pend w) str' in
              match p with
              | PItem l => Some (KState (k_d s) (k_ctx s) (Some (w' (FSend l) (wk_listed w))) (k_lost s), [])
              | PPending => Some (KState (k_d s) (k_ctx s) (Some (w' FNext (wk_listed w))) (k_lost s), [])
              | PEnd => match ss_result (wk_str w) with
                        | Some r => Some (KState (k_d s) (k_ctx s) (Some (w' (FResult r) (wk_listed w))) (k_lost s), [])
                        | None => kpost s RiRunnerFails (w' FDone (wk_listed w))
                        end
              end
          | FSend l => kpost s (RiLog l) (set_fwd FNext w)
          | FResult r => kpost s (RiResult r) (set_fwd FDone w)
          | FDone => None
          end
      end
  | KStray =>
      match k_lost s, k_w s with
      | g :: rest, Some w => Some (KState (k_d s) (k_ctx s) (Some (raise_at g w)) rest, [])
      | _, _ => None
      end
  | KForget =>
      match k_w s with
      | Some (Worker c x p str f _) => Some (KState (k_d s) (k_ctx s) (Some (Worker c x p str f false)) (k_lost s), [])
      | None => None
      end
  end.
Inductive krun (st0 : step) : list kop -> kstate -> list kobs -> Prop :=
| krun_init sh : krun st0 [] (KState (DState sh (SpBefore st0) None) None None []) []
| krun_step ops s tr op s' o : krun st0 ops s tr -> kstep s op = Some (s', o) -> krun st0 (ops ++ [op]) s' (tr ++ o).
Fixpoint kexec (s : kstate) (ops : list kop) : option (kstate * list kobs) :=
  match ops with
  | [] => Some (s, [])
  | op :: ops' => match kstep s op with None => None | Some (s', o) => match kexec s' ops' with None => None | Some (s2, o2) => Some (s2, o ++ o2) end end
  end.
End Worker.
