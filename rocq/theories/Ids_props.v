(** Properties C01-C03 (ids). *)
From Verif Require Import Base Types Ids_model Ids_spec Ids_proof.

(** C01 *)
Theorem C01_workflow_id : forall w, parse_workflow_id (show_workflow_id w) = Ok w <-> wid_0 w <> "".
Proof. exact workflow_id_roundtrip. Qed.
Print Assumptions C01_workflow_id.

Theorem C01_job_id : forall j,
  parse_job_id (show_job_id j) = Ok j <-> slash_free (jid_0 j) /\ slash_free (jid_1 j).
Proof. exact job_id_roundtrip. Qed.
Print Assumptions C01_job_id.

Theorem C01_step_id : forall i, (sid_2 i < 2 ^ 64)%N ->
  (parse_step_id (show_step_id i) = Ok i <-> slash_free (sid_0 i) /\ slash_free (sid_1 i)).
Proof. exact step_id_roundtrip. Qed.
Print Assumptions C01_step_id.

Example C01_nonvacuous :
  show_step_id (StepId "wf" "job" 18446744073709551615) = "wf/job/18446744073709551615" /\
  parse_step_id "wf/job/18446744073709551615" = Ok (StepId "wf" "job" 18446744073709551615) /\
  parse_job_id (show_job_id (JobId "a/b" "c"))
    = Err (InternalRuntimeError "JobId must be in the format of <workflow_id>/<job_key>").
Proof. vm_compute; repeat split. Qed.

(** C02 *)
Theorem C02_workflow_id_accepts : forall s w, parse_workflow_id s = Ok w <-> s <> "" /\ w = WorkflowId s.
Proof. exact parse_workflow_id_ok. Qed.
Print Assumptions C02_workflow_id_accepts.

Theorem C02_workflow_id_rejects : forall s e, parse_workflow_id s = Err e <->
  s = "" /\ e = InternalRuntimeError "WorkflowId cannot be empty".
Proof. exact parse_workflow_id_err. Qed.
Print Assumptions C02_workflow_id_rejects.

Theorem C02_job_id_accepts : forall s j,
  parse_job_id s = Ok j <->
  s = jid_0 j +++ "/" +++ jid_1 j /\ slash_free (jid_0 j) /\ slash_free (jid_1 j).
Proof. exact parse_job_id_ok. Qed.
Print Assumptions C02_job_id_accepts.

Theorem C02_job_id_rejects : forall s e, parse_job_id s = Err e <->
  count_char "/"%char s <> 1 /\
  e = InternalRuntimeError "JobId must be in the format of <workflow_id>/<job_key>".
Proof. exact parse_job_id_err. Qed.
Print Assumptions C02_job_id_rejects.

Theorem C02_step_id_accepts : forall s i,
  parse_step_id s = Ok i <->
  exists n, s = sid_0 i +++ "/" +++ sid_1 i +++ "/" +++ n /\
            slash_free (sid_0 i) /\ slash_free (sid_1 i) /\ usize_text n (sid_2 i).
Proof. exact parse_step_id_ok. Qed.
Print Assumptions C02_step_id_accepts.

Theorem C02_step_id_rejects : forall s e, parse_step_id s = Err e <->
  (count_char "/"%char s <> 2 /\
   e = InternalRuntimeError "StepId must be in the format of <workflow_id>/<job_key>/<step_number>") \/
  (exists a b n, s = a +++ "/" +++ b +++ "/" +++ n /\ slash_free a /\ slash_free b /\ slash_free n /\
     (forall v, ~ usize_text n v) /\ e = InternalRuntimeError "Step number must be a number").
Proof. exact parse_step_id_err. Qed.
Print Assumptions C02_step_id_rejects.

Example C02_nonvacuous :
  parse_step_id "w/j/+007" = Ok (StepId "w" "j" 7) /\
  parse_step_id "w/j/18446744073709551616" = Err (InternalRuntimeError "Step number must be a number") /\
  parse_step_id "w/j/-1" = Err (InternalRuntimeError "Step number must be a number") /\
  parse_job_id "/" = Ok (JobId "" "").
Proof. vm_compute; repeat split. Qed.

(** C03: distinct ids may print alike when both parts may contain '/' ... *)
Theorem C03_job_id_refuted : exists j j', j <> j' /\ show_job_id j = show_job_id j'.
Proof. exists (JobId "a/b" "c"), (JobId "a" "b/c"). split; [discriminate|reflexivity]. Qed.
Print Assumptions C03_job_id_refuted.

Theorem C03_step_id_refuted : exists i i', i <> i' /\ show_step_id i = show_step_id i'.
Proof. exists (StepId "a/b" "c" 0), (StepId "a" "b/c" 0). split; [discriminate|reflexivity]. Qed.
Print Assumptions C03_step_id_refuted.

(** ... but not when the workflow ids contain no '/', nor when the job keys contain no '/'. *)
Theorem C03_job_id_partial : forall j j',
  (slash_free (jid_0 j) /\ slash_free (jid_0 j')) \/ (slash_free (jid_1 j) /\ slash_free (jid_1 j')) ->
  show_job_id j = show_job_id j' -> j = j'.
Proof. exact show_job_id_inj. Qed.
Print Assumptions C03_job_id_partial.

Theorem C03_step_id_partial : forall i i',
  (slash_free (sid_0 i) /\ slash_free (sid_0 i')) \/ (slash_free (sid_1 i) /\ slash_free (sid_1 i')) ->
  show_step_id i = show_step_id i' -> i = i'.
Proof. exact show_step_id_inj. Qed.
Print Assumptions C03_step_id_partial.

Example C03_nonvacuous : slash_free "wf" /\ slash_free "other".
Proof. cbn; repeat split; discriminate. Qed.
