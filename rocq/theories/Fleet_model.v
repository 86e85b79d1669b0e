(** Several workflows at once: one [AstroRun] (astro_run.rs:7-14), the execution contexts made from it (:24-36) and the workflow runs started in
    them.  All of them share the clock and the [SignalManager] (:28 and execution_context/builder.rs:44-47: clones of one [Arc]); each context has
    its own condition cache (builder.rs:94, condition_matcher.rs:14-20), shared by the runs started in clones of that context.
    Simplification: the identities of tasks (who is woken by a signal) are those within a run; nothing depends on them except whom a signal wakes. *)
From Verif Require Import Base Types Signals_model Stream_model Cond_model Plugins_model Exec_model Workflow_model System_model.

Section Fleet.
Context {T iop iobs : Type}.
(** The runner of the [AstroRun], for the steps of runs in a given context. *)
Variable R : ectx -> rside T iop iobs.
Variable glob : glob_oracle.

(** A run: its context, its workflow, and how far it is. (The shared state inside [fr_sys] is that at its own last action; see [settle].) *)
Record frun := FRun { fr_ctx : nat; fr_wf : workflow; fr_sys : @system T }.
Record fleet := Fleet { fl_now : time; fl_sm : sigman; fl_ctx : list (ectx * option condition_payload); fl_runs : list frun }.
Inductive fop :=
| FContext (cx : ectx)                          (* astro_run.rs:24-36, execution_context/builder.rs:63-98 *)
| FStart (c : nat) (wf : workflow)              (* workflow/mod.rs:28, in a clone of the c-th context *)
| FRunOp (k : nat) (op : sysop (iop := iop))    (* an action of the k-th run *)
| FTick (d : N)                                 (* time passes *)
| FLook (caller : nat) (j : job_id)             (* [cancel_job] (astro_run.rs:20-22, execution_context/mod.rs:198-200), first half: signals/mod.rs:32 *)
| FFire (caller : nat).                         (* second half: signals/mod.rs:33 *)

(** The current shared state as seen by run [r] in a context with cache [ca]. *)
Definition settle (now : time) (sm : sigman) (ca : option condition_payload) (s : @system T) : @system T :=
  System (WState (Shared now sm ca) (ws_main (sy_w s)) (ws_tasks (sy_w s)) (ws_chan (sy_w s))) (sy_cur s) (sy_past s).
Definition is_env (op : sysop (iop := iop)) : bool := match op with YFlow (WEnv _) => true | _ => false end.

Definition fstep (f : fleet) (op : fop) : option (fleet * list (nat * sysobs (iobs := iobs))) :=
  match op with
  | FContext cx => Some (Fleet (fl_now f) (fl_sm f) (fl_ctx f ++ [(cx, None)]) (fl_runs f), [])
  | FStart c wf =>
      match nth_error (fl_ctx f) c with
      | Some (_, ca) => Some (Fleet (fl_now f) (fl_sm f) (fl_ctx f) (fl_runs f ++ [FRun c wf (System (winit (Shared (fl_now f) (fl_sm f) ca)) [] [])]), [])
      | None => None
      end
  | FRunOp k op =>
      match nth_error (fl_runs f) k with
      | Some r =>
          match nth_error (fl_ctx f) (fr_ctx r) with
          | Some (cx, ca) =>
              if is_env op then None
              else match sysstep (R cx) glob cx (fr_wf r) (settle (fl_now f) (fl_sm f) ca (fr_sys r)) op with
                   | Some (s', o) =>
                       let sh := ws_sh (sy_w s') in
                       Some (Fleet (sh_now sh) (sh_sm sh) (list_set (fr_ctx r) (cx, sh_cache sh) (fl_ctx f)) (list_set k (FRun (fr_ctx r) (fr_wf r) s') (fl_runs f)),
                             map (fun x => (k, x)) o)
                   | None => None
                   end
          | None => None
          end
      | None => None
      end
  | FTick d => Some (Fleet (fl_now f + d)%N (fl_sm f) (fl_ctx f) (fl_runs f), [])
  | FLook c j => Some (Fleet (fl_now f) (fst (sm_step (fl_sm f) (MCancelGet c j))) (fl_ctx f) (fl_runs f), [])
  | FFire c => Some (Fleet (fl_now f) (fst (sm_step (fl_sm f) (MCancelFire c))) (fl_ctx f) (fl_runs f), [])
  end.
Definition finit (now : time) : fleet := Fleet now sm_init [] [].
Inductive fleet_run (now : time) : list fop -> fleet -> list (nat * sysobs (iobs := iobs)) -> Prop :=
| fleet_init : fleet_run now [] (finit now) []
| fleet_step ops f tr op f' o : fleet_run now ops f tr -> fstep f op = Some (f', o) -> fleet_run now (ops ++ [op]) f' (tr ++ o).
Fixpoint fexec (f : fleet) (ops : list fop) : option (fleet * list (nat * sysobs (iobs := iobs))) :=
  match ops with
  | [] => Some (f, [])
  | op :: ops' => match fstep f op with None => None | Some (f', o) => match fexec f' ops' with None => None | Some (f2, o2) => Some (f2, o ++ o2) end end
  end.
End Fleet.
Arguments FRun {T}. Arguments fr_ctx {T}. Arguments fr_wf {T}. Arguments fr_sys {T}.
Arguments Fleet {T}. Arguments fl_now {T}. Arguments fl_sm {T}. Arguments fl_ctx {T}. Arguments fl_runs {T}.
Arguments FContext {iop}. Arguments FStart {iop}. Arguments FRunOp {iop}. Arguments FTick {iop}. Arguments FLook {iop}. Arguments FFire {iop}.
