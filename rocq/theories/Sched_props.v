(** Theorems about crates/scheduler (C38-C43, C67). All are about the concurrent machine: any number of schedule calls,
    interleaved in any way with each other and with completion reports. *)
From Verif Require Import Base Types Sched_model Sched_spec Sched_proof.

(** C39, C43. The counts kept by the scheduler are the numbers of outstanding steps; an idle runner has no entry. *)
Theorem C39_counts_exact : forall ops m tr, sched_run ops m tr -> never_again [] tr ->
  forall rid, lookup rid (sd_counts (sm_st m)) = match load tr rid with 0 => None | n => Some (Z.of_nat n) end.
Proof. intros ops m tr R N rid. destruct (sinv_run _ _ _ R) as [_ _ H]. exact (H N rid). Qed.
Theorem C43_concurrent_counts : forall ops m tr, sched_run ops m tr -> never_again [] tr ->
  (forall rid, lookup rid (sd_counts (sm_st m)) = match load tr rid with 0 => None | n => Some (Z.of_nat n) end) /\
  (forall id, lookup id (sd_steps (sm_st m)) = lookup id (outstanding tr)) /\
  (forall j, lookup j (sd_jobs (sm_st m)) = affinity tr j).
Proof. intros ops m tr R N. split; [eapply C39_counts_exact; eassumption|]. destruct (sinv_run _ _ _ R); auto. Qed.
(** When everything is completed, the state is that of a new scheduler. *)
Theorem C39_all_completed_empty : forall ops m tr, sched_run ops m tr -> never_again [] tr -> all_completed tr -> sm_st m = sched_init.
Proof.
  intros ops m tr R N A. apply all_completed_empty in A as [Ho Ha]. destruct (sinv_run _ _ _ R) as [Hj Hs Hc]. specialize (Hc N).
  destruct (sm_st m) as [a b c]. unfold sched_init. cbn in *. f_equal; apply lookup_empty; intros k.
  - rewrite (Hc k), Ho. reflexivity.
  - rewrite Hj. apply Ha.
  - rewrite Hs, Ho. reflexivity.
Qed.
Print Assumptions C39_all_completed_empty.

(** C43. Every call that returned is explained by the history when it started and at a moment while it ran, and recorded its
    choice before it returned; and every running call returns after at most two more lock acquisitions of its own. *)
Theorem C43_every_answer_explained : forall ops m tr, sched_run ops m tr ->
  forall pre c q res post, tr = pre ++ EvReturned c q res :: post -> explained pre c q res.
Proof. intros ops m tr R. exact (proj2 (pending_run _ _ _ R)). Qed.
Theorem C43_calls_return : forall ops m tr c k, sched_run ops m tr -> lookup c (sm_calls m) = Some k ->
  exists n m' tr', n <= 2 /\ sched_run (ops ++ repeat (SNext c) n) m' tr' /\ lookup c (sm_calls m') = None /\
    exists q res pre, tr' = pre ++ [EvReturned c q res].
Proof.
  intros ops m tr c k R L.
  assert (Commit : forall ops m tr q r, sched_run ops m tr -> lookup c (sm_calls m) = Some (CCommit q r) ->
     exists m' tr', sched_run (ops ++ [SNext c]) m' tr' /\ lookup c (sm_calls m') = None /\ exists q res pre, tr' = pre ++ [EvReturned c q res]).
  { clear. intros ops m tr q r R L. eexists _, _. split; [eapply sched_run_step; [exact R|]; cbn [smach_step]; rewrite L; reflexivity|].
    split; [apply lookup_remove_eq|]. exists q, (Some r), (tr ++ [EvScheduled (sq_step q) (runs_on_host (sq_container q)) (rm_id r)]). rewrite <- app_assoc. reflexivity. }
  destruct k as [q|q r].
  - destruct (pick_schedule (sm_st m) q) as [k'|res] eqn:E.
    + assert (exists r, k' = CCommit q r) as [r ->] by (unfold pick_schedule in E; destruct (pick_docker_runner _ _); [injection E as <-; eauto|discriminate]).
      assert (R2 : sched_run (ops ++ [SNext c]) (SMach (sm_st m) (insert c (CCommit q r) (sm_calls m))) (tr ++ [])).
      { eapply sched_run_step; [exact R|]. cbn [smach_step]. rewrite L, E. reflexivity. }
      destruct (Commit _ _ _ q r R2) as (m' & tr' & R3 & H); [apply lookup_insert_eq|].
      exists 2, m', tr'. split; [lia|]. split; [cbn [repeat]; rewrite <- app_assoc in R3; exact R3|exact H].
    + exists 1. eexists _, _. split; [lia|]. split; [eapply sched_run_step; [exact R|]; cbn [smach_step]; rewrite L, E; reflexivity|].
      split; [apply lookup_remove_eq|]. exists q, res, tr. reflexivity.
  - destruct (Commit _ _ _ q r R L) as (m' & tr' & R3 & H). exists 1, m', tr'. split; [lia|]. split; assumption.
Qed.
Print Assumptions C43_every_answer_explained.
Print Assumptions C43_calls_return.

(** C40. A docker step of a job whose affinity names no offered runner. *)
Theorem C40_least_loaded : forall ops m tr pre c q res post, sched_run ops m tr -> never_again [] tr -> tr = pre ++ EvReturned c q res :: post -> ~ host_step q ->
  exists before mid mid', pre = before ++ EvCalled c q :: mid ++ mid' /\ quiet c (mid ++ mid') /\
    ((forall x, In x (sq_runners q) -> affinity before (step_id_job_id (sq_step q)) <> Some (rm_id x)) ->
     match res with
     | Some r => first_least (fun x => rm_support_docker x = true) (fun x => load (before ++ EvCalled c q :: mid) (rm_id x)) (sq_runners q) r
     | None => forall x, In x (sq_runners q) -> rm_support_docker x = false
     end).
Proof.
  intros ops m tr pre c q res post R N E Hh. destruct (C43_every_answer_explained _ _ _ R _ _ _ _ _ E) as (before & mid & mid' & -> & Q & A & _).
  exists before, mid, mid'. split; [reflexivity|]. split; [exact Q|]. intros Hno. inv A; try contradiction; auto.
  - exfalso. match goal with F : first_such _ _ _ |- _ => apply first_such_in in F as [Hin [Haff _]] end. exact (Hno _ Hin Haff).
  - apply H3. assert (Eq : (before ++ EvCalled c q :: mid ++ mid') ++ EvReturned c q (Some r) :: post = (before ++ EvCalled c q :: mid) ++ mid' ++ EvReturned c q (Some r) :: post)
      by (rewrite <- !app_assoc; cbn; rewrite <- app_assoc; reflexivity).
    rewrite Eq in N. apply never_again_app in N as [N _]. exact N.
Qed.
Print Assumptions C40_least_loaded.

(** C41. A docker step of a job whose affinity names an offered runner goes to the first runner with that id. *)
Theorem C41_affinity : forall ops m tr pre c q res post, sched_run ops m tr -> tr = pre ++ EvReturned c q res :: post -> ~ host_step q ->
  exists before during, pre = before ++ EvCalled c q :: during /\ quiet c during /\
    forall a, affinity before (step_id_job_id (sq_step q)) = Some a -> (exists x, In x (sq_runners q) /\ rm_id x = a) ->
      exists r, res = Some r /\ first_such (fun x => rm_id x = a) (sq_runners q) r.
Proof.
  intros ops m tr pre c q res post R E Hh. destruct (C43_every_answer_explained _ _ _ R _ _ _ _ _ E) as (before & mid & mid' & -> & Q & A & _).
  exists before, (mid ++ mid'). split; [reflexivity|]. split; [exact Q|]. intros a Ha (x & Hx & Hid).
  assert (S : sticky before q x) by (split; [rewrite Ha, Hid; reflexivity|tauto]).
  inv A; try contradiction; try (exfalso; match goal with H : forall x, In x _ -> ~ sticky _ _ x |- _ => exact (H x Hx S) end).
  exists r. split; [reflexivity|]. revert H. apply first_such_iff. intros y _. unfold sticky. rewrite Ha. split; [intros [[= ->] _]; reflexivity|intros ->; split; [reflexivity|tauto]].
Qed.
(** The affinity of a job: what its last docker step was scheduled to, unless the job has been completed since. *)
Theorem C41_affinity_meaning : forall tr j a, affinity tr j = Some a <->
  exists pre id post, tr = pre ++ EvScheduled id false a :: post /\ step_id_job_id id = j /\
    forall e, In e post -> e <> EvJobDone j /\ forall id' rid, e = EvScheduled id' false rid -> step_id_job_id id' <> j.
Proof.
  intros tr j a. split.
  - revert a. induction tr as [|e tr IH] using rev_ind; [discriminate|]. intros a. rewrite affinity_snoc.
    assert (Old : affinity tr j = Some a -> e <> EvJobDone j -> (forall id' rid, e = EvScheduled id' false rid -> step_id_job_id id' <> j) ->
       exists pre id post, tr ++ [e] = pre ++ EvScheduled id false a :: post /\ step_id_job_id id = j /\
        forall e, In e post -> e <> EvJobDone j /\ forall id' rid, e = EvScheduled id' false rid -> step_id_job_id id' <> j).
    { intros H H1 H2. destruct (IH a H) as (pre & id & post & -> & Hj & Hn). exists pre, id, (post ++ [e]). split; [rewrite <- app_assoc; reflexivity|].
      split; [exact Hj|]. intros e' C. apply in_app_or in C as [C|[<-|[]]]; [exact (Hn e' C)|auto]. }
    destruct e as [c q|id h rid|c q r|id|id]; cbn [affinity_after]; try (intros H; apply Old; [exact H|discriminate|discriminate]).
    + destruct h; [intros H; apply Old; [exact H|discriminate|discriminate]|]. destruct (eqb (step_id_job_id id) j) eqn:E.
      * apply (proj1 (eqb_true _ _)) in E. intros [= ->]. exists tr, id, []. split; [reflexivity|]. split; [exact E|intros ? []].
      * apply (proj1 (eqb_false _ _)) in E. intros H; apply Old; [exact H|discriminate|intros ? ? [= <- <-]; exact E].
    + destruct (eqb id j) eqn:E; [discriminate|]. apply (proj1 (eqb_false _ _)) in E. intros H; apply Old; [exact H|congruence|discriminate].
  - intros (pre & id & post & -> & Hj & Hn). unfold affinity. rewrite fold_left_app. cbn [fold_left affinity_after]. rewrite Hj, eqb_refl.
    revert Hn. generalize (Some a). clear. induction post as [|e post IH]; intros o H; [reflexivity|]. cbn [fold_left].
    replace (affinity_after j o e) with o; [apply IH; intros e' He'; apply H; right; exact He'|].
    destruct (H e (or_introl eq_refl)) as [H1 H2]. destruct e as [c q|id h rid|c q r|id|id]; cbn [affinity_after]; auto.
    + destruct h; [reflexivity|]. replace (eqb (step_id_job_id id) j) with false; [reflexivity|]. symmetry. apply eqb_false. eapply H2; reflexivity.
    + replace (eqb id j) with false; [reflexivity|]. symmetry. apply eqb_false. congruence.
Qed.
Print Assumptions C41_affinity.
Print Assumptions C41_affinity_meaning.

(** C38. Missing from the full property: a host step may be given to a runner without host support (see the refutation). *)
Theorem C38_suitable_partial : forall ops m tr pre c q r post, sched_run ops m tr -> tr = pre ++ EvReturned c q (Some r) :: post ->
  In r (sq_runners q) /\
  (~ host_step q -> stable_docker tr -> rm_support_docker r = true) /\
  (host_step q -> (exists n, sq_container q = Some n /\ names_platform n r) /\
     (rm_support_host r = true \/
      (sq_container q = Some ("host/" +++ rm_os r +++ "-" +++ rm_arch r) /\
       exists id, In (EvScheduled id false (rm_id r)) pre /\ step_id_job_id id = step_id_job_id (sq_step q)))).
Proof.
  intros ops m tr pre c q r post R E. assert (X := C43_every_answer_explained _ _ _ R _ _ _ _ _ E). destruct X as (before & mid & mid' & Ep & Q & A & _).
  assert (Hin : In r (sq_runners q)).
  { inv A; try assumption; match goal with F : first_such _ _ _ |- _ => apply first_such_in in F; tauto end. }
  split; [exact Hin|]. split.
  - intros Hh S. destruct (docker_origin _ _ _ R (1 + length pre) pre c q r post (le_n _) E Hh) as (c' & q' & r' & H1 & H2 & H3 & H4).
    rewrite <- H4. eapply (S c c'); [| |exact Hin|exact H2|congruence].
    + rewrite E, Ep. apply in_or_app; left; apply in_or_app; right; left; reflexivity.
    + rewrite E. apply in_or_app; left; exact H1.
  - intros Hh. inv A.
    + match goal with F : first_such _ _ _ |- _ => apply first_such_in in F as [_ [Haff Hs]] end. specialize (Hs Hh).
      apply affinity_origin in Haff as (p & id & p' & -> & Hj & _).
      destruct Hs as [[Hs Hn]|Hn]; (split; [eexists; split; [exact Hn|]; unfold names_platform; auto|]); [left; exact Hs|right]. split; [exact Hn|]. exists id.
      split; [|exact Hj]. apply in_or_app; left; apply in_or_app; right; left; reflexivity.
    + match goal with F : first_such _ _ _ |- _ => apply first_such_in in F as [_ [Hs Hn]] end. auto.
    + contradiction.
Qed.
Print Assumptions C38_suitable_partial.

(** C67. What does hold of suitability: when the job has no affinity to the runner, or the step's container is not
    [host/<os>-<arch>], or every offered runner supports host execution, the runner is suitable. *)
Theorem C67_suitable : forall ops m tr pre c q r post, sched_run ops m tr -> tr = pre ++ EvReturned c q (Some r) :: post -> stable_docker tr ->
  ((forall id, In (EvScheduled id false (rm_id r)) pre -> step_id_job_id id <> step_id_job_id (sq_step q)) \/
   sq_container q <> Some ("host/" +++ rm_os r +++ "-" +++ rm_arch r) \/
   (forall x, In x (sq_runners q) -> rm_support_host x = true)) ->
  In r (sq_runners q) /\ suitable q r.
Proof.
  intros ops m tr pre c q r post R E S H. destruct (C38_suitable_partial _ _ _ _ _ _ _ _ R E) as (Hin & Hd & Hh). split; [exact Hin|]. split.
  - intros Hq. destruct (Hh Hq) as [Hn Hs]. split; [|exact Hn]. destruct Hs as [Hs|[Hc (id & Hi & Hj)]]; [exact Hs|].
    destruct H as [H|[H|H]]; [exfalso; exact (H id Hi Hj)|contradiction|auto].
  - intros Hq. auto.
Qed.
(** A step that no offered runner can take is not scheduled: the answer is none iff no offered runner is acceptable. *)
Theorem C67_none_only_if_nothing_suits : forall ops m tr pre c q post, sched_run ops m tr -> tr = pre ++ EvReturned c q None :: post ->
  forall x, In x (sq_runners q) -> ~ suitable q x.
Proof.
  intros ops m tr pre c q post R E x Hx [Sh Sd]. destruct (C43_every_answer_explained _ _ _ R _ _ _ _ _ E) as (before & mid & mid' & -> & Q & A & _).
  inv A.
  - apply (H1 x Hx). split; apply (Sh H0).
  - rewrite (H1 x Hx) in Sd. discriminate (Sd H0).
Qed.
Print Assumptions C67_suitable.

(** *** Concrete histories *)
Definition ra : runner_meta := RunnerMeta "a" "linux" "x86_64" true false "0.2.0" 1.
Definition rb : runner_meta := RunnerMeta "b" "linux" "x86_64" true true "0.2.0" 1.
Definition dq (w : string) (n : N) : sched_req := SchedReq [ra; rb] (StepId w "j" n) None.
Definition hq (w : string) (n : N) (c : string) : sched_req := SchedReq [ra; rb] (StepId w "j" n) (Some c).

Lemma same_offer_stable tr : Forall (fun e => match e with EvCalled _ q => sq_runners q = [ra; rb] | _ => True end) tr -> stable_docker tr.
Proof.
  rewrite Forall_forall. intros G c c' q q' r r' H1 H2 Hr Hr' Hid. apply G in H1, H2. rewrite H1 in Hr. rewrite H2 in Hr'.
  destruct Hr as [<-|[<-|[]]], Hr' as [<-|[<-|[]]]; try reflexivity; discriminate Hid.
Qed.

Fixpoint sexec (m : smach) (ops : list sop) : option (smach * list sev) :=
  match ops with
  | [] => Some (m, [])
  | op :: ops' => match smach_step m op with
                  | Some (m', o) => match sexec m' ops' with Some (m2, o2) => Some (m2, o ++ o2) | None => None end
                  | None => None
                  end
  end.
Lemma sexec_run ops2 : forall ops m tr m' o, sched_run ops m tr -> sexec m ops2 = Some (m', o) -> sched_run (ops ++ ops2) m' (tr ++ o).
Proof.
  induction ops2 as [|op ops2 IH]; intros ops m tr m' o R E; cbn [sexec] in E; [injection E as <- <-; rewrite !app_nil_r; exact R|].
  destruct (smach_step m op) as [[m1 o1]|] eqn:E1; [|discriminate]. destruct (sexec m1 ops2) as [[m2 o2]|] eqn:E2; [|discriminate]. injection E as <- <-.
  change (op :: ops2) with ([op] ++ ops2). rewrite !app_assoc. eapply IH; [|exact E2]. eapply sched_run_step; eassumption.
Qed.
Lemma sexec_init ops m o : sexec (SMach sched_init []) ops = Some (m, o) -> sched_run ops m o.
Proof. intros E. apply (sexec_run ops [] _ [] m o sched_run_init E). Qed.

(** Two overlapping calls for different jobs, then a third: least loaded; then completions. *)
Example sched_nonvacuous : exists m tr ops, sched_run ops m tr /\ never_again [] tr /\ all_completed tr /\ stable_docker tr /\
  In (EvReturned 2 (dq "w2" 0) (Some ra)) tr /\ In (EvReturned 1 (dq "w1" 0) (Some ra)) tr /\ In (EvReturned 3 (dq "w3" 0) (Some rb)) tr /\ In (EvReturned 4 (dq "w1" 1) (Some ra)) tr.
Proof.
  set (ops := [SBegin 1 (dq "w1" 0); SBegin 2 (dq "w2" 0); SNext 1; SNext 2; SNext 1; SNext 2; SBegin 3 (dq "w3" 0); SNext 3; SNext 3;
               SBegin 4 (dq "w1" 1); SNext 4;
               SStepDone (StepId "w1" "j" 0); SStepDone (StepId "w2" "j" 0); SStepDone (StepId "w3" "j" 0); SStepDone (StepId "w1" "j" 1);
               SJobDone (JobId "w1" "j"); SJobDone (JobId "w2" "j"); SJobDone (JobId "w3" "j")]).
  destruct (sexec (SMach sched_init []) ops) as [[m tr]|] eqn:E; [|vm_compute in E; discriminate].
  exists m, tr, ops. split; [apply sexec_init, E|]. vm_compute in E. injection E as <- <-.
  split; [|split; [|split]].
  - cbn [never_again]. cbv -[not In]. repeat (split; [first [exact Logic.I|let C := fresh in intros C; cbn [In] in C; intuition discriminate]|]). exact Logic.I.
  - intros pre id h rid post Et.
    repeat (destruct pre as [|e pre]; [first [discriminate Et|injection Et as <- <- <- <-; split; vm_compute; tauto]|injection Et as <- Et]); destruct pre; discriminate.
  - apply same_offer_stable. repeat constructor.
  - vm_compute. tauto.
Qed.

(** C38 is false of the code: after a docker step on a runner without host support, a host step of the same job goes there. *)
Theorem C38_refuted : ~ (forall ops m tr pre c q r post, sched_run ops m tr -> tr = pre ++ EvReturned c q (Some r) :: post -> stable_docker tr -> suitable q r).
Proof.
  intros H.
  set (ops := [SBegin 1 (dq "w" 0); SNext 1; SNext 1; SBegin 2 (hq "w" 1 "host/linux-x86_64"); SNext 2]).
  destruct (sexec (SMach sched_init []) ops) as [[m tr]|] eqn:E; [|vm_compute in E; discriminate].
  apply sexec_init in E as R. vm_compute in E. injection E as <- <-.
  specialize (H _ _ _ (firstn 5 [EvCalled 1 (dq "w" 0); EvScheduled (StepId "w" "j" 0) false "a"; EvReturned 1 (dq "w" 0) (Some ra);
                         EvCalled 2 (hq "w" 1 "host/linux-x86_64"); EvScheduled (StepId "w" "j" 1) true "a"; EvReturned 2 (hq "w" 1 "host/linux-x86_64") (Some ra)])
     2 (hq "w" 1 "host/linux-x86_64") ra [] R eq_refl).
  unfold suitable in H. destruct H as [H _].
  - apply same_offer_stable. repeat constructor.
  - destruct H as [C _]; [exists "linux-x86_64"; reflexivity|discriminate C].
Qed.
Print Assumptions C38_refuted.

(** C42 is false of the code: a runner that advertises max_runs = 1 gets as many outstanding steps as are asked for. *)
Definition rc : runner_meta := RunnerMeta "c" "linux" "x86_64" true true "0.2.0" 1.
Theorem C42_refuted : ~ (forall ops m tr rid c q x, sched_run ops m tr -> In (EvCalled c q) tr -> In x (sq_runners q) -> rm_id x = rid -> never_again [] tr ->
    (Z.of_nat (load tr rid) <= rm_max_runs x)%Z).
Proof.
  intros H. set (q1 := SchedReq [rc] (StepId "v" "j" 0) None). set (q2 := SchedReq [rc] (StepId "w" "j" 0) None).
  set (ops := [SBegin 1 q1; SNext 1; SNext 1; SBegin 2 q2; SNext 2; SNext 2]).
  destruct (sexec (SMach sched_init []) ops) as [[m tr]|] eqn:E; [|vm_compute in E; discriminate].
  apply sexec_init in E as R. vm_compute in E. injection E as <- <-.
  specialize (H _ _ _ "c" 1 q1 rc R (or_introl eq_refl) (or_introl eq_refl) eq_refl).
  assert (N : never_again [] [EvCalled 1 q1; EvScheduled (StepId "v" "j" 0) false "c"; EvReturned 1 q1 (Some rc); EvCalled 2 q2; EvScheduled (StepId "w" "j" 0) false "c"; EvReturned 2 q2 (Some rc)]).
  { cbv -[not In q1 q2 rc]. repeat (split; [first [exact Logic.I|let C := fresh in intros C; cbn [In] in C; intuition discriminate]|]). exact Logic.I. }
  specialize (H N). apply Z.leb_le in H. vm_compute in H. discriminate H.
Qed.
Print Assumptions C42_refuted.

(** The hypothesis of C39 is needed: a step scheduled again while outstanding leaves a count behind for ever. *)
Example C39_hypothesis_needed : exists ops m tr, sched_run ops m tr /\ all_completed tr /\ sm_st m <> sched_init.
Proof.
  set (q1 := SchedReq [rc] (StepId "v" "j" 0) None).
  set (ops := [SBegin 1 q1; SNext 1; SNext 1; SBegin 2 q1; SNext 2; SStepDone (StepId "v" "j" 0); SStepDone (StepId "v" "j" 0); SJobDone (JobId "v" "j")]).
  destruct (sexec (SMach sched_init []) ops) as [[m tr]|] eqn:E; [|vm_compute in E; discriminate].
  exists ops, m, tr. split; [apply sexec_init, E|]. vm_compute in E. injection E as <- <-. split; [|discriminate].
  intros pre id h rid post Et.
  repeat (destruct pre as [|e pre]; [first [discriminate Et|injection Et as <- <- <- <-; split; vm_compute; tauto]|injection Et as <- Et]); destruct pre; discriminate.
Qed.
