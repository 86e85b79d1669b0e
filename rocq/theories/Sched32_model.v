(** Model of the scheduler's run counts as the 32-bit signed numbers they are (crates/scheduler/src/default.rs:9). Sched_model has them as unbounded integers.
    [checks]: Rust's overflow checks are compiled in (as in debug builds): arithmetic that overflows panics. Without them (as in release builds) it wraps. *)
From Verif Require Import Base Types Sched_model.

Definition in_i32 (z : Z) : bool := (- 2 ^ 31 <=? z)%Z && (z <? 2 ^ 31)%Z.
Definition wrap32 (z : Z) : Z := ((z + 2 ^ 31) mod 2 ^ 32 - 2 ^ 31)%Z.
Definition add32 (checks : bool) (a b : Z) : option Z :=
  if in_i32 (a + b) then Some (a + b)%Z else if checks then None else Some (wrap32 (a + b)).

(** What is seen: as in Sched_model, or a call / a completion report that panics. *)
Inductive ev32 := Ev (e : sev) | EvCallPanic (c : nat) (q : sched_req) (r : runner_meta) | EvDonePanic (id : step_id).

(** default.rs:83-98. If the addition panics, the step has been recorded already (:85-87), the job has not (:92-95); the lock is released (parking_lot does not poison). *)
Definition commit32 (checks : bool) (st : sched_state) (q : sched_req) (r : runner_meta) : sched_state * bool :=
  let c := option_default 0%Z (lookup (rm_id r) (sd_counts st)) in
  match add32 checks c 1 with
  | Some c' => (SchedState (insert (rm_id r) c' (sd_counts st))
                  (if runs_on_host (sq_container q) then sd_jobs st else insert (step_id_job_id (sq_step q)) (rm_id r) (sd_jobs st))
                  (insert (sq_step q) (rm_id r) (sd_steps st)), true)
  | None => (SchedState (insert (rm_id r) c (sd_counts st)) (sd_jobs st) (insert (sq_step q) (rm_id r) (sd_steps st)), false)
  end.
(** default.rs:103-121 *)
Definition done32 (checks : bool) (st : sched_state) (id : step_id) : sched_state * bool :=
  match lookup id (sd_steps st) with
  | None => (SchedState (sd_counts st) (sd_jobs st) (remove id (sd_steps st)), true)
  | Some rid =>
      match (match lookup rid (sd_counts st) with Some c => add32 checks c (-1) | None => Some 0%Z end) with
      | None => (st, false)
      | Some c => let m := insert rid c (sd_counts st) in
                  (SchedState (if (c <=? 0)%Z then remove rid m else m) (sd_jobs st) (remove id (sd_steps st)), true)
      end
  end.

(** The machine of Sched_model with these two. *)
Definition step32 (checks : bool) (m : smach) (op : sop) : option (smach * list ev32) :=
  match op with
  | SNext c =>
      match lookup c (sm_calls m) with
      | Some (CCommit q r) =>
          let '(st, ok) := commit32 checks (sm_st m) q r in
          Some (SMach st (remove c (sm_calls m)),
                if ok then map Ev [EvScheduled (sq_step q) (runs_on_host (sq_container q)) (rm_id r); EvReturned c q (Some r)] else [EvCallPanic c q r])
      | _ => option_map (fun x => (fst x, map Ev (snd x))) (smach_step m op)
      end
  | SStepDone id => let '(st, ok) := done32 checks (sm_st m) id in
                    Some (SMach st (sm_calls m), if ok then [Ev (EvStepDone id)] else [EvDonePanic id])
  | _ => option_map (fun x => (fst x, map Ev (snd x))) (smach_step m op)
  end.
Inductive run32 (checks : bool) : list sop -> smach -> list ev32 -> Prop :=
| run32_init : run32 checks [] (SMach sched_init []) []
| run32_step ops m tr op m' o : run32 checks ops m tr -> step32 checks m op = Some (m', o) -> run32 checks (ops ++ [op]) m' (tr ++ o).
