(** C21, C22: delivery of events and before-run-step hooks. *)
From Verif Require Import Base Types Plugins_model Plugins_spec Plugins_proof.

(** C21: each of the eight event calls delivers its event to every plugin once, in registration order, and then to
    the runner once, whatever the hooks do or return. A job's signal is registered before [on_run_job] is seen by
    anybody and unregistered before [on_job_completed] is (C31). *)
Theorem C21_delivery : forall W (reg unreg : job_id -> W -> W) (c : exec_context W) w,
  (forall x, call_on_run_workflow W c x w = deliver c (HRunWorkflow (RunEvent x (ec_event c) (ec_payload c))) w) /\
  (forall x, call_on_run_job W reg c x w = deliver c (HRunJob (RunEvent x (ec_event c) (ec_payload c))) (reg (jb_id x) w)) /\
  (forall x, call_on_run_step W c x w = deliver c (HRunStep (RunEvent x (ec_event c) (ec_payload c))) w) /\
  (forall x, call_on_state_change W c x w = deliver c (HState x) w) /\
  (forall x, call_on_log W c x w = deliver c (HLog x) w) /\
  (forall x, call_on_step_completed W c x w = deliver c (HStepCompleted x) w) /\
  (forall x, call_on_job_completed W unreg c x w = deliver c (HJobCompleted x) (unreg (jr_id x) w)) /\
  (forall x, call_on_workflow_completed W c x w = deliver c (HWorkflowCompleted x) w).
Proof.
  intros W reg unreg c w; repeat split; intros x;
    unfold call_on_run_workflow, call_on_run_job, call_on_run_step, call_on_state_change, call_on_log,
      call_on_step_completed, call_on_job_completed, call_on_workflow_completed, deliver, receivers;
    rewrite ?drv_rw, ?drv_rj, ?drv_rs, ?drv_state, ?drv_log, ?drv_sc, ?drv_jc, ?drv_wc, fold_left_snoc; reflexivity.
Qed.
Print Assumptions C21_delivery.

(** C21 seen from outside: if the receivers write down what they get and answer arbitrarily, the record of one
    delivery is the event once per receiver in order. *)
Theorem C21_exactly_once_in_order : forall (answers : list (nat * (hook_event -> result unit))) rn ra ev pl e w,
  deliver (ExecContext (map (fun '(n, a) => recorder n a) answers) (recorder rn ra) ev pl) e w
  = w ++ map (fun '(n, _) => (n, e)) answers ++ [(rn, e)].
Proof.
  intros answers rn ra ev pl e w. unfold deliver, receivers; cbn.
  rewrite fold_left_snoc, recorder_fold, recorder_receive, app_assoc. reflexivity.
Qed.
Print Assumptions C21_exactly_once_in_order.

(** C22: the step that runs is the original passed through the plugins' hooks and then the runner's; a hook that
    fails leaves it as it was. *)
Theorem C22_before_hooks_compose : forall W (c : exec_context W) st w st' w',
  call_on_before_run_step W c st w = (w', st') <-> passes (receivers c) st w st' w'.
Proof. intros W; exact before_spec. Qed.
Print Assumptions C22_before_hooks_compose.

(** *** Non-vacuity *)
Definition fail_all : hook_event -> result unit := fun _ => Err (OtherError "x").
Example C21_nonvacuous : forall e,
  deliver (ExecContext (map (fun '(n, a) => recorder n a) [(1, fail_all); (2, fun _ => Ok tt)]) (recorder 9 fail_all) None None) e []
  = [(1, e); (2, e); (9, e)].
Proof. intros e. rewrite C21_exactly_once_in_order. reflexivity. Qed.

Definition ex_receiver (f : step -> result step) : receiver unit :=
  let h {A} (_ : A) (w : unit) := (w, Ok tt) in
  Receiver h h h h h h h h (fun st w => (w, f st)).
Definition ex_step (r : string) : step :=
  Step (StepId "w" "j" 0) None None None r false [] [] (Duration 1 0).
Example C22_nonvacuous :
  call_on_before_run_step unit
    (ExecContext [ex_receiver (fun s => Ok (ex_step (st_run s +++ "1"))); ex_receiver (fun _ => Err (OtherError "no"));
                  ex_receiver (fun s => Ok (ex_step (st_run s +++ "2")))]
                 (ex_receiver (fun s => Ok (ex_step (st_run s +++ "r")))) None None) (ex_step "a") tt
  = (tt, ex_step "a12r").
Proof. reflexivity. Qed.
