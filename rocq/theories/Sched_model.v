(** Model of crates/scheduler/src/default.rs [DefaultScheduler]. [schedule] takes the lock up to three times; each
    transition of the machine below contains exactly one lock acquisition, so that concurrent calls interleave as they may.
    Counts are integers here; Sched32_model has them as the i32 they are, and C121 relates the two. *)
From Verif Require Import Base Types.

(** scheduler/src/lib.rs:7-16 *)
Record runner_meta := RunnerMeta {
  rm_id : string; rm_os : string; rm_arch : string; rm_support_docker : bool; rm_support_host : bool;
  rm_version : string; rm_max_runs : Z }.

(** default.rs:6-14 *)
Record sched_state := SchedState {
  sd_counts : map_ string Z; sd_jobs : map_ job_id string; sd_steps : map_ step_id string }.
(** default.rs:27-37 *)
Definition sched_init : sched_state := SchedState [] [] [].

(** default.rs:48-53, 130-133: [starts_with("host/")] *)
Definition runs_on_host (container : option string) : bool :=
  match container with Some c => String.prefix "host/" c | None => false end.

(** default.rs:59-72: the closure given to [find]; Rust's [&&] binds tighter than [||]. *)
Definition affinity_ok (last : string) (container : option string) (r : runner_meta) : bool :=
  if eqb (rm_id r) last
  then match container with
       | Some c => if String.prefix "host/" c
                   then (rm_support_host r && eqb c ("host/" +++ rm_os r)) || eqb c ("host/" +++ rm_os r +++ "-" +++ rm_arch r)
                   else true
       | None => true
       end
  else false.

(** default.rs:154-158, [min_by_key] returns the first of several minimal elements. *)
Definition count_of (counts : map_ string Z) (r : runner_meta) : Z := option_default 0%Z (lookup (rm_id r) counts).
Definition min_by_count (counts : map_ string Z) (l : list runner_meta) : option runner_meta :=
  fold_left (fun best r => match best with
                           | None => Some r
                           | Some b => if (count_of counts r <? count_of counts b)%Z then Some r else Some b
                           end) l None.
(** default.rs:149-161 *)
Definition pick_docker_runner (counts : map_ string Z) (runners : list runner_meta) : option runner_meta :=
  min_by_count counts (filter rm_support_docker runners).
(** default.rs:163-170 *)
Definition pick_host_runner (runners : list runner_meta) (c : string) : option runner_meta :=
  find (fun r => eqb c ("host/" +++ rm_os r) || eqb c ("host/" +++ rm_os r +++ "-" +++ rm_arch r)) (filter rm_support_host runners).

(** The part of [Context] that [schedule] reads: default.rs:46-47. *)
Record sched_req := SchedReq { sq_runners : list runner_meta; sq_step : step_id; sq_container : option string }.

(** A running call of [schedule]. *)
Inductive call :=
| CPick (q : sched_req)                         (* :149 before reading the counts *)
| CCommit (q : sched_req) (r : runner_meta).    (* :84 before recording the choice *)

(** default.rs:55-82 with lock 1: [inl] the call goes on, [inr] it returns. *)
Definition begin_schedule (st : sched_state) (q : sched_req) : call + option runner_meta :=
  let found := match lookup (step_id_job_id (sq_step q)) (sd_jobs st) with
               | Some last => find (affinity_ok last (sq_container q)) (sq_runners q)
               | None => None
               end in
  match found with
  | Some r => inl (CCommit q r)
  | None =>
      if runs_on_host (sq_container q)
      then match pick_host_runner (sq_runners q) (option_default "" (sq_container q)) with
           | Some r => inl (CCommit q r)
           | None => inr None
           end
      else inl (CPick q)
  end.
(** lock 2 *)
Definition pick_schedule (st : sched_state) (q : sched_req) : call + option runner_meta :=
  match pick_docker_runner (sd_counts st) (sq_runners q) with
  | Some r => inl (CCommit q r)
  | None => inr None
  end.
(** default.rs:83-98 with lock 3 *)
Definition commit_schedule (st : sched_state) (q : sched_req) (r : runner_meta) : sched_state :=
  SchedState (insert (rm_id r) (option_default 0%Z (lookup (rm_id r) (sd_counts st)) + 1)%Z (sd_counts st))
    (if runs_on_host (sq_container q) then sd_jobs st else insert (step_id_job_id (sq_step q)) (rm_id r) (sd_jobs st))
    (insert (sq_step q) (rm_id r) (sd_steps st)).

(** default.rs:103-121 *)
Definition on_step_completed (st : sched_state) (id : step_id) : sched_state :=
  let counts' :=
    match lookup id (sd_steps st) with
    | None => sd_counts st
    | Some rid =>
        let c := match lookup rid (sd_counts st) with Some c => (c - 1)%Z | None => 0%Z end in
        let m := insert rid c (sd_counts st) in
        if (c <=? 0)%Z then remove rid m else m
    end in
  SchedState counts' (sd_jobs st) (remove id (sd_steps st)).
(** default.rs:123-128 *)
Definition on_job_completed (st : sched_state) (id : job_id) : sched_state :=
  SchedState (sd_counts st) (remove id (sd_jobs st)) (sd_steps st).

(** *** The concurrent machine: any number of calls, each named by a number. *)
Record smach := SMach { sm_st : sched_state; sm_calls : map_ nat call }.
Inductive sop :=
| SBegin (c : nat) (q : sched_req)
| SNext (c : nat)                       (* the call takes the lock again *)
| SStepDone (id : step_id)
| SJobDone (id : job_id).
(** What an observer sees: a call starts, records its choice, returns; completions. *)
Inductive sev :=
| EvCalled (c : nat) (q : sched_req)
| EvScheduled (id : step_id) (host : bool) (rid : string)
| EvReturned (c : nat) (q : sched_req) (r : option runner_meta)
| EvStepDone (id : step_id)
| EvJobDone (id : job_id).

Definition continue_call (m : smach) (c : nat) (q : sched_req) (k : call + option runner_meta) : smach * list sev :=
  match k with
  | inl k' => (SMach (sm_st m) (insert c k' (sm_calls m)), [])
  | inr r => (SMach (sm_st m) (remove c (sm_calls m)), [EvReturned c q r])
  end.
Definition smach_step (m : smach) (op : sop) : option (smach * list sev) :=
  match op with
  | SBegin c q => if contains_key c (sm_calls m) then None
                  else let '(m', o) := continue_call m c q (begin_schedule (sm_st m) q) in Some (m', EvCalled c q :: o)
  | SNext c =>
      match lookup c (sm_calls m) with
      | None => None
      | Some (CPick q) => Some (continue_call m c q (pick_schedule (sm_st m) q))
      | Some (CCommit q r) =>
          Some (SMach (commit_schedule (sm_st m) q r) (remove c (sm_calls m)),
                [EvScheduled (sq_step q) (runs_on_host (sq_container q)) (rm_id r); EvReturned c q (Some r)])
      end
  | SStepDone id => Some (SMach (on_step_completed (sm_st m) id) (sm_calls m), [EvStepDone id])
  | SJobDone id => Some (SMach (on_job_completed (sm_st m) id) (sm_calls m), [EvJobDone id])
  end.

Inductive sched_run : list sop -> smach -> list sev -> Prop :=
| sched_run_init : sched_run [] (SMach sched_init []) []
| sched_run_step ops m tr op m' o : sched_run ops m tr -> smach_step m op = Some (m', o) -> sched_run (ops ++ [op]) m' (tr ++ o).
