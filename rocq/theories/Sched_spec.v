(** Specification of the scheduler in terms of the history of what it returned and what was reported to it. *)
From Verif Require Import Base Types Sched_model.

(** The steps scheduled and not reported completed since, with the runner each was last given. *)
Definition outstanding_after (out : list (step_id * string)) (e : sev) : list (step_id * string) :=
  match e with
  | EvScheduled id _ rid => (id, rid) :: filter (fun x => negb (eqb (fst x) id)) out
  | EvStepDone id => filter (fun x => negb (eqb (fst x) id)) out
  | _ => out
  end.
Definition outstanding (tr : list sev) : list (step_id * string) := fold_left outstanding_after tr [].
Definition load (tr : list sev) (rid : string) : nat := length (filter (fun x => eqb (snd x) rid) (outstanding tr)).

(** How often a runner was picked. *)
Definition picks (rid : string) (tr : list sev) : nat := length (filter (fun e => match e with EvScheduled _ _ r => eqb r rid | _ => false end) tr).
(** No completion of a step was reported. *)
Definition no_step_done (tr : list sev) : Prop := forall id, ~ In (EvStepDone id) tr.

(** No step is scheduled while it is outstanding. *)
Fixpoint never_again (out : list (step_id * string)) (tr : list sev) : Prop :=
  match tr with
  | [] => True
  | e :: tr' => match e with EvScheduled id _ _ => ~ In id (map fst out) | _ => True end /\ never_again (outstanding_after out e) tr'
  end.

(** The runner the job's last docker step was scheduled to, if the job has not been reported completed since. *)
Definition affinity_after (j : job_id) (a : option string) (e : sev) : option string :=
  match e with
  | EvScheduled id false rid => if eqb (step_id_job_id id) j then Some rid else a
  | EvJobDone id => if eqb id j then None else a
  | _ => a
  end.
Definition affinity (tr : list sev) (j : job_id) : option string := fold_left (affinity_after j) tr None.

(** A host container name fits a runner. *)
Definition names_platform (c : string) (r : runner_meta) : Prop :=
  c = "host/" +++ rm_os r \/ c = "host/" +++ rm_os r +++ "-" +++ rm_arch r.
Definition host_step (q : sched_req) : Prop := exists rest, sq_container q = Some ("host/" +++ rest).
Definition suitable (q : sched_req) (r : runner_meta) : Prop :=
  (host_step q -> rm_support_host r = true /\ exists c, sq_container q = Some c /\ names_platform c r) /\
  (~ host_step q -> rm_support_docker r = true).

(** [r] is the first of the elements of [l] that satisfy [P] and have the smallest [f]. *)
Definition first_least {A} (P : A -> Prop) (f : A -> nat) (l : list A) (r : A) : Prop :=
  exists before after, l = before ++ r :: after /\ P r /\
    (forall x, In x before -> P x -> f r < f x) /\ (forall x, In x after -> P x -> f r <= f x).
(** [r] is the first element of [l] that satisfies [P]. *)
Definition first_such {A} (P : A -> Prop) (l : list A) (r : A) : Prop :=
  exists before after, l = before ++ r :: after /\ P r /\ forall x, In x before -> ~ P x.

(** The requests made in a history report docker support consistently per runner id. *)
Definition stable_docker (tr : list sev) : Prop :=
  forall c c' q q' r r', In (EvCalled c q) tr -> In (EvCalled c' q') tr -> In r (sq_runners q) -> In r' (sq_runners q') -> rm_id r = rm_id r' ->
    rm_support_docker r = rm_support_docker r'.
(** Every scheduled step, and its job, has been reported completed after it was scheduled. *)
Definition all_completed (tr : list sev) : Prop :=
  forall pre id host rid post, tr = pre ++ EvScheduled id host rid :: post -> In (EvStepDone id) post /\ In (EvJobDone (step_id_job_id id)) post.

(** *** What a call may answer *)
(** The runner the job's affinity points to, as the code accepts it for the step (a host step is accepted by
    [host/<os>-<arch>] even when the runner does not support host execution). *)
Definition sticky (before : list sev) (q : sched_req) (r : runner_meta) : Prop :=
  affinity before (step_id_job_id (sq_step q)) = Some (rm_id r) /\
  (host_step q -> (rm_support_host r = true /\ sq_container q = Some ("host/" +++ rm_os r)) \/
                  sq_container q = Some ("host/" +++ rm_os r +++ "-" +++ rm_arch r)).
Definition host_capable (q : sched_req) (r : runner_meta) : Prop :=
  rm_support_host r = true /\ exists c, sq_container q = Some c /\ names_platform c r.

(** [before]: the history when the call started; [now]: the history at some moment during the call. *)
Inductive answer (before now : list sev) (q : sched_req) : option runner_meta -> Prop :=
| answer_sticky r : first_such (sticky before q) (sq_runners q) r -> answer before now q (Some r)
| answer_host r : (forall x, In x (sq_runners q) -> ~ sticky before q x) -> host_step q ->
    first_such (host_capable q) (sq_runners q) r -> answer before now q (Some r)
| answer_no_host : (forall x, In x (sq_runners q) -> ~ sticky before q x) -> host_step q ->
    (forall x, In x (sq_runners q) -> ~ host_capable q x) -> answer before now q None
| answer_docker r : (forall x, In x (sq_runners q) -> ~ sticky before q x) -> ~ host_step q ->
    In r (sq_runners q) -> rm_support_docker r = true ->
    (never_again [] now -> first_least (fun x => rm_support_docker x = true) (fun x => load now (rm_id x)) (sq_runners q) r) ->
    (no_step_done now -> first_least (fun x => rm_support_docker x = true) (fun x => picks (rm_id x) now) (sq_runners q) r) ->
    answer before now q (Some r)
| answer_no_docker : (forall x, In x (sq_runners q) -> ~ sticky before q x) -> ~ host_step q ->
    (forall x, In x (sq_runners q) -> rm_support_docker x = false) -> answer before now q None.

(** No event of call [c]. *)
Definition quiet (c : nat) (tr : list sev) : Prop :=
  forall e, In e tr -> match e with EvCalled c' _ | EvReturned c' _ _ => c' <> c | _ => True end.

(** The call [c] that has just returned [res] for [q] after the history [tr] is explained. *)
Definition explained (tr : list sev) (c : nat) (q : sched_req) (res : option runner_meta) : Prop :=
  exists before mid mid', tr = before ++ EvCalled c q :: mid ++ mid' /\ quiet c (mid ++ mid') /\
    answer before (before ++ EvCalled c q :: mid) q res /\
    match res with
    | Some r => exists mid0, mid' = mid0 ++ [EvScheduled (sq_step q) (runs_on_host (sq_container q)) (rm_id r)]
    | None => True
    end.
