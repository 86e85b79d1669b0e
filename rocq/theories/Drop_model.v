(** Giving up on a run: the caller of [Workflow::run] (workflow/mod.rs:28) drops the future it awaits, e.g. because of a timeout around it.  The
    receiver (:58-59) goes with it; the job tasks, which have been spawned (:153-161), go on; when one of them sends its result,
    [sender.send] fails at once and that is only logged (:157-159).  Simplification: here a run may be given up in any of its phases, not only
    while it waits for something (a superset of what can happen). *)
From Verif Require Import Base Types Signals_model Stream_model Cond_model Plugins_model Exec_model Workflow_model System_model Fleet_model.

Section Drop.
Context {T iop iobs : Type}.
Variable R : ectx -> rside T iop iobs.
Variable glob : glob_oracle.

(** All runs, and which of them have been given up. *)
Record gfleet := GFleet { gf_all : @fleet T; gf_gone : list nat }.
Inductive gop :=
| GDo (op : fop (iop := iop))    (* anything that could happen before *)
| GGiveUp (k : nat).             (* the future of the k-th run is dropped *)

(** :157-159 with the receiver gone: the i-th job task's result is lost. *)
Definition lose (i : nat) (s : @system T) : option (@system T) :=
  match nth_error (ws_tasks (sy_w s)) i with
  | Some (WTask key j (JpReturned r) false) => Some (System (set_task i (WTask key j (JpReturned r) true) (sy_w s)) (sy_cur s) (sy_past s))
  | _ => None
  end.
Definition plainly (g : gfleet) (op : fop (iop := iop)) : option (gfleet * list (nat * sysobs (iobs := iobs))) :=
  match fstep R glob (gf_all g) op with
  | Some (f', o) => Some (GFleet f' (gf_gone g), o)
  | None => None
  end.
Definition gstep (g : gfleet) (op : gop) : option (gfleet * list (nat * sysobs (iobs := iobs))) :=
  match op with
  | GGiveUp k =>
      match nth_error (fl_runs (gf_all g)) k with
      | Some r =>
          match ws_main (sy_w (fr_sys r)) with
          | WpDone _ => None                                                  (* it has its result *)
          | _ => if memb k (gf_gone g) then None else Some (GFleet (gf_all g) (k :: gf_gone g), [])
          end
      | None => None
      end
  | GDo (FRunOp k op) =>
      if memb k (gf_gone g)
      then match op with
           | YFlow WMain | YFlow (WGithub _) => None                          (* nobody polls [run] any more *)
           | YFlow (WSend i) =>
               match nth_error (fl_runs (gf_all g)) k with
               | Some r => match lose i (fr_sys r) with
                           | Some s' => Some (GFleet (Fleet (fl_now (gf_all g)) (fl_sm (gf_all g)) (fl_ctx (gf_all g))
                                                            (list_set k (FRun (fr_ctx r) (fr_wf r) s') (fl_runs (gf_all g)))) (gf_gone g), [])
                           | None => None
                           end
               | None => None
               end
           | _ => plainly g (FRunOp k op)
           end
      else plainly g (FRunOp k op)
  | GDo op => plainly g op
  end.
Definition ginit (now : time) : gfleet := GFleet (finit now) [].
Inductive gfleet_run (now : time) : list gop -> gfleet -> list (nat * sysobs (iobs := iobs)) -> Prop :=
| gfleet_init : gfleet_run now [] (ginit now) []
| gfleet_step ops g tr op g' o : gfleet_run now ops g tr -> gstep g op = Some (g', o) -> gfleet_run now (ops ++ [op]) g' (tr ++ o).
Fixpoint gexec (g : gfleet) (ops : list gop) : option (gfleet * list (nat * sysobs (iobs := iobs))) :=
  match ops with
  | [] => Some (g, [])
  | op :: ops' => match gstep g op with None => None | Some (g', o) => match gexec g' ops' with None => None | Some (g2, o2) => Some (g2, o ++ o2) end end
  end.
End Drop.
Arguments GFleet {T}. Arguments gf_all {T}. Arguments gf_gone {T}.
Arguments GDo {iop}. Arguments GGiveUp {iop}.
