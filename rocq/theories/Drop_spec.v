(** Specification vocabulary: giving up on runs. *)
From Verif Require Import Base Types Signals_model Stream_model Cond_model Plugins_model Exec_model Workflow_model Workflow_spec System_model System_spec Fleet_model Fleet_spec Live_spec Drop_model.

Section S.
Context {T iop iobs : Type}.
Variable R : ectx -> rside T iop iobs.
Variable glob : glob_oracle.
Definition given_up (ops : list (gop (iop := iop))) (k : nat) : Prop := In (GGiveUp k) ops.
(** The history without the giving up and without the failing attempts of jobs to report to a run that is no longer there: a history in which
    nothing ever acts for the runs in question any more, except their jobs.  [gone]: given up already. *)
Fixpoint unaware (gone : list nat) (ops : list (gop (iop := iop))) : list (fop (iop := iop)) :=
  match ops with
  | [] => []
  | GGiveUp k :: ops' => unaware (k :: gone) ops'
  | GDo op :: ops' => match op with FRunOp k (YFlow (WSend _)) => if memb k gone then [] else [op] | _ => [op] end ++ unaware gone ops'
  end.
(** An action of a job, or of the runner executing one of its steps, other than reporting its result. *)
Definition job_side (op : sysop (iop := iop)) : bool := match op with YFlow (WTaskOp _ _) | YStep _ _ | YPast _ _ => true | _ => false end.
(** What was done, apart from giving up. *)
Definition deeds (ops : list (gop (iop := iop))) : list (fop (iop := iop)) := flat_map (fun op => match op with GDo op => [op] | GGiveUp _ => [] end) ops.
(** A run is at rest: it is over, or it has been given up and all jobs that were started have ended. *)
Definition at_rest (g : @gfleet T) (k : nat) (r : @frun T) : Prop :=
  over r \/ (In k (gf_gone g) /\ forall t, In t (ws_tasks (sy_w (fr_sys r))) -> exists x, tk_phase t = JpReturned x).
(** The same job task, in the same phase. *)
Definition same_work (t t' : wtask) : Prop := tk_key t' = tk_key t /\ tk_job t' = tk_job t /\ tk_phase t' = tk_phase t.
(** The same, except for who has reported its result. *)
Definition same_but_reports (s s' : @system T) : Prop :=
  ws_sh (sy_w s') = ws_sh (sy_w s) /\ ws_main (sy_w s') = ws_main (sy_w s) /\ ws_chan (sy_w s') = ws_chan (sy_w s) /\ sy_cur s' = sy_cur s /\ sy_past s' = sy_past s /\
  Forall2 same_work (ws_tasks (sy_w s)) (ws_tasks (sy_w s')).
(** [f] is what [g] would be had the runs in question just not been attended to. *)
Definition stands_for (f : @fleet T) (g : @gfleet T) : Prop :=
  fl_now f = fl_now (gf_all g) /\ fl_sm f = fl_sm (gf_all g) /\ fl_ctx f = fl_ctx (gf_all g) /\
  Forall2 (fun r r' => fr_ctx r' = fr_ctx r /\ fr_wf r' = fr_wf r /\ same_but_reports (fr_sys r) (fr_sys r')) (fl_runs (gf_all g)) (fl_runs f) /\
  forall k, ~ In k (gf_gone g) -> nth_error (fl_runs f) k = nth_error (fl_runs (gf_all g)) k.

(** An unending execution. *)
Definition gfleet_execution (stg : nat -> @gfleet T) (actg : nat -> option (gop (iop := iop))) (now : time) : Prop :=
  stg 0 = ginit now /\
  forall n, match actg n with
            | Some op => exists o, gstep R glob (stg n) op = Some (stg (S n), o)
            | None => stg (S n) = stg n
            end.
(** The state of the runs, and what is done with them. *)
Definition all_of (stg : nat -> @gfleet T) (n : nat) : @fleet T := gf_all (stg n).
Definition done_by (actg : nat -> option (gop (iop := iop))) (n : nat) : option (fop (iop := iop)) := match actg n with Some (GDo op) => Some op | _ => None end.
End S.
