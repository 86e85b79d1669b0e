(** Everything of a distributed deployment at once: workflow runs of one [AstroRun] (Fleet_model.v), the remote client with its table of runners and its
    [DefaultScheduler] (Dispatch_model.v), and, behind the client, the runner servers with their plugins, configurations and built-in runners (Worker_model.v,
    Chain_model.v). Dispatch_model.v is this without the servers' side: there what comes from a server is arbitrary. *)
From Verif Require Import Base Types Signals_model Stream_model Cond_model Plugins_model Exec_model Workflow_model Runner_model Sched_model Remote_model
  Distant_model System_model Fleet_model Dispatch_model Worker_model Chain_model.

(** As [dispatch] (client.rs:21-26, 33-48), with the servers' side of every step. *)
Record farm := Farm { fm_fleet : @fleet kside; fm_clients : map_ string runner_meta; fm_sched : smach; fm_asked : list asking }.
Inductive qop :=
| QConnect (a : attempt)                          (* client.rs:176-192 *)
| QFleet (op : fop (iop := kop))                  (* everything that does not involve the scheduler *)
| QAsk (k i : nat) (runners : list runner_meta)   (* client.rs:33-39 with the first lock section of [schedule] *)
| QLock (c : nat).                                (* the next lock section of a call of [schedule] *)
Inductive qobs :=
| QSeen (k : nat) (x : sysobs (iobs := kobs))     (* an event of the k-th run, or of a server working for it *)
| QSched (e : sev).                               (* an event of the scheduler *)

Section Farm.
Variable cl sv : task -> task.
Variable rhooks : runner_meta -> run_context -> run_context.
Variable conf : runner_meta -> run_context -> xconf.
Variable glob : glob_oracle.
Definition farm_fleet_step := fstep (fun cx => chained cx cl sv rhooks conf) glob.

(** execution_context/mod.rs:67, client.rs:30-39: [Runner::run] has been called and has not got past the scheduler. *)
Definition farm_wanting (f : @fleet kside) (k i : nat) : option step :=
  match nth_error (fl_runs f) k with
  | Some r =>
      match nth_error (ws_tasks (sy_w (fr_sys r))) i, nth_error (sy_cur (fr_sys r)) i with
      | Some t, Some x =>
          match kd_task x with
          | None => match tk_phase t with JpStepRun _ _ _ (SpCalling st _ _ _ _) _ => Some st | _ => None end
          | Some _ => None
          end
      | _, _ => None
      end
  | None => None
  end.
Definition farm_asked_for (q : farm) (k i : nat) : bool :=
  existsb (fun x => match nth_error (fm_asked q) (fst x) with Some a => Nat.eqb (as_run a) k && Nat.eqb (as_job a) i | None => false end) (sm_calls (fm_sched q)).
Definition picks_server (op : fop (iop := kop)) : bool :=
  match op with FRunOp _ (YStep _ (KFlow (DPick _ _))) | FRunOp _ (YPast _ (KFlow (DPick _ _))) => true | _ => false end.

(** client.rs:39-48: when [schedule] returns, the client goes on in the same task. *)
Definition then_send (q : farm) (asked : list asking) (a : asking) (m : smach) (o : list sev) : option (farm * list qobs) :=
  match answered o with
  | None => Some (Farm (fm_fleet q) (fm_clients q) m asked, map QSched o)
  | Some r =>
      match farm_fleet_step (fm_fleet q) (FRunOp (as_run a) (YStep (as_job a) (KFlow (DPick (as_clients a) r)))) with
      | Some (f, x) => Some (Farm f (fm_clients q) m asked, map QSched o ++ map (fun y => QSeen (fst y) (snd y)) x)
      | None => None
      end
  end.
Definition qstep (q : farm) (op : qop) : option (farm * list qobs) :=
  match op with
  | QConnect a => Some (Farm (fm_fleet q) (connect_all [a] (fm_clients q)) (fm_sched q) (fm_asked q), [])
  | QFleet o =>
      if picks_server o then None
      else match farm_fleet_step (fm_fleet q) o with
           | Some (f, x) => Some (Farm f (fm_clients q) (fm_sched q) (fm_asked q), map (fun y => QSeen (fst y) (snd y)) x)
           | None => None
           end
  | QAsk k i runners =>
      match farm_wanting (fm_fleet q) k i with
      | Some st =>
          if farm_asked_for q k i || negb (reordered runners (map snd (fm_clients q))) then None
          else let a := Asking k i (fm_clients q) in
               match smach_step (fm_sched q) (SBegin (length (fm_asked q)) (request runners st)) with
               | Some (m, o) => then_send q (fm_asked q ++ [a]) a m o
               | None => None
               end
      | None => None
      end
  | QLock c =>
      match nth_error (fm_asked q) c, smach_step (fm_sched q) (SNext c) with
      | Some a, Some (m, o) => then_send q (fm_asked q) a m o
      | _, _ => None
      end
  end.
Definition qinit (now : time) : farm := Farm (finit now) [] (SMach sched_init []) [].
Inductive farm_run (now : time) : list qop -> farm -> list qobs -> Prop :=
| farm_init : farm_run now [] (qinit now) []
| farm_step ops q tr op q' o : farm_run now ops q tr -> qstep q op = Some (q', o) -> farm_run now (ops ++ [op]) q' (tr ++ o).
Fixpoint qexec (q : farm) (ops : list qop) : option (farm * list qobs) :=
  match ops with
  | [] => Some (q, [])
  | op :: ops' => match qstep q op with None => None | Some (q', o) => match qexec q' ops' with None => None | Some (q2, o2) => Some (q2, o ++ o2) end end
  end.
End Farm.
