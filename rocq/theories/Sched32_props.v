(** C121: the scheduler's run counts as 32-bit numbers. *)
From Verif Require Import Base Types Sched_model Sched_spec Sched_proof Sched_props Sched32_model.

Lemma run32_det checks ops m tr : run32 checks ops m tr -> forall m' tr', run32 checks ops m' tr' -> m' = m /\ tr' = tr.
Proof.
  induction 1 as [|ops m tr op m1 o R IH E]; intros m' tr' R'.
  - inversion R' as [|ops' ? ? ? ? ? ? ? X]; [auto|]. destruct ops'; discriminate X.
  - inversion R' as [X|ops' m2 tr2 op' m3 o' R2 E' X]; [destruct ops; discriminate X|]. apply app_inj_tail in X as [-> ->]. destruct (IH _ _ R2) as [-> ->].
    rewrite E in E'. injection E' as -> ->. auto.
Qed.
Lemma add32_in checks a b : in_i32 (a + b) = true -> add32 checks a b = Some (a + b)%Z.
Proof. intros H. unfold add32. rewrite H. reflexivity. Qed.
Lemma in_i32_iff z : in_i32 z = true <-> (- 2 ^ 31 <= z < 2 ^ 31)%Z.
Proof. unfold in_i32. rewrite andb_true_iff, Z.leb_le, Z.ltb_lt. reflexivity. Qed.

(** As long as no runner has more than 2^31 - 1 steps outstanding the counts behave as unbounded numbers: an execution of the scheduler with 32-bit counts, with or
    without overflow checks, is the execution of the unbounded one under the same calls; so everything said about that one (C38-C43, C67) holds for it. *)
Theorem C121_as_unbounded : forall checks ops m tr, sched_run ops m tr -> never_again [] tr ->
  (forall pre post rid, tr = pre ++ post -> (Z.of_nat (load pre rid) < 2 ^ 31)%Z) ->
  run32 checks ops m (map Ev tr) /\ forall m' tr', run32 checks ops m' tr' -> m' = m /\ tr' = map Ev tr.
Proof.
  intros checks ops m tr R N B. enough (run32 checks ops m (map Ev tr)) by (split; [assumption|intros; eapply run32_det; eassumption]).
  revert N B. induction R as [|ops m tr op m' o R IH E]; intros N B; [constructor|].
  assert (N1 : never_again [] tr) by (apply never_again_app in N; tauto).
  assert (B1 : forall pre post rid, tr = pre ++ post -> (Z.of_nat (load pre rid) < 2 ^ 31)%Z).
  { intros pre post rid ->. apply (B pre (post ++ o)). symmetry. apply app_assoc. }
  rewrite map_app. apply (run32_step checks ops m (map Ev tr) op m' (map Ev o)); [exact (IH N1 B1)|].
  assert (I := sinv_run _ _ _ R). assert (CL := counts_load _ _ I N1).
  destruct op as [c q|c|id|id]; cbn [step32].
  - rewrite E. reflexivity.
  - cbn [smach_step] in E |- *. destruct (lookup c (sm_calls m)) as [[q|q r]|]; [injection E as E; destruct (continue_call m c q (pick_schedule (sm_st m) q)) as [a b]; injection E as -> ->; reflexivity| |discriminate].
    injection E as <- <-. unfold commit32.
    assert (X := B (tr ++ [EvScheduled (sq_step q) (runs_on_host (sq_container q)) (rm_id r)]) [EvReturned c q (Some r)] (rm_id r)).
    rewrite <- app_assoc in X. specialize (X eq_refl).
    assert (Nx : ~ In (sq_step q) (map fst (outstanding tr))) by (apply never_again_app in N; destruct N as [_ [N _]]; exact N).
    assert (L : load (tr ++ [EvScheduled (sq_step q) (runs_on_host (sq_container q)) (rm_id r)]) (rm_id r) = S (load tr (rm_id r))).
    { unfold load. rewrite outstanding_snoc. cbn [outstanding_after filter snd]. rewrite Base.eqb_refl. cbn [length]. f_equal. f_equal. f_equal. apply filter_all.
      intros [i x] Hi. cbn [fst]. destruct (eqb i (sq_step q)) eqn:Ei; [|reflexivity]. apply (proj1 (eqb_true _ _)) in Ei. subst. destruct Nx. apply in_map with (f := fst) in Hi. exact Hi. }
    rewrite L in X. specialize (CL r). unfold count_of in CL. rewrite CL. rewrite add32_in by (apply in_i32_iff; lia). unfold commit_schedule. rewrite CL. reflexivity.
  - cbn [smach_step] in E. injection E as <- <-. unfold done32, on_step_completed.
    destruct (lookup id (sd_steps (sm_st m))) as [rid|]; [|reflexivity].
    assert (CL' := C39_counts_exact _ _ _ R N1 rid). destruct (lookup rid (sd_counts (sm_st m))) as [z|] eqn:Ez; [|reflexivity].
    assert (X := B1 tr [] rid (eq_sym (app_nil_r tr))).
    assert (Hz : z = Z.of_nat (load tr rid)) by (destruct (load tr rid); [discriminate CL'|injection CL' as ->; reflexivity]).
    rewrite add32_in by (apply in_i32_iff; lia). reflexivity.
  - rewrite E. reflexivity.
Qed.
Print Assumptions C121_as_unbounded.

(** With overflow checks no count is ever wrong in sign or size, and a call panics only when its runner's count has reached 2^31 - 1. *)
Theorem C121_checked : forall ops m tr, run32 true ops m tr ->
  (forall rid z, lookup rid (sd_counts (sm_st m)) = Some z -> (0 < z < 2 ^ 31)%Z) /\
  (forall c m' o, step32 true m (SNext c) = Some (m', o) -> forall q r, In (EvCallPanic c q r) o -> lookup (rm_id r) (sd_counts (sm_st m)) = Some (2 ^ 31 - 1)%Z) /\
  (forall id, ~ In (EvDonePanic id) tr).
Proof.
  intros ops m tr R. 
  assert (Main : (forall rid z, lookup rid (sd_counts (sm_st m)) = Some z -> (0 < z < 2 ^ 31)%Z) /\ forall id, ~ In (EvDonePanic id) tr).
  { induction R as [|ops m tr op m' o R [IH IP] E]; [split; [discriminate|intros ? []]|].
    assert (Plain : forall x : smach * list sev, smach_step m op = Some x -> sd_counts (sm_st (fst x)) = sd_counts (sm_st m) -> (m', o) = (fst x, map Ev (snd x)) ->
      (forall rid z, lookup rid (sd_counts (sm_st m')) = Some z -> (0 < z < 2 ^ 31)%Z) /\ forall id, ~ In (EvDonePanic id) (tr ++ o)).
    { intros [m2 o2] _ Es Eq. injection Eq as -> ->. cbn [fst snd] in *. split; [rewrite Es; exact IH|]. intros id H. apply in_app_or in H as [H|H]; [exact (IP _ H)|].
      apply in_map_iff in H as (y & Hy & _). discriminate Hy. }
    destruct op as [c q|c|id|id]; cbn [step32] in E.
    - destruct (smach_step m (SBegin c q)) as [x|] eqn:Ex; [|discriminate]. cbn [option_map] in E. injection E as E1 E2. apply (Plain x eq_refl); [|congruence].
      cbn [smach_step] in Ex. destruct (contains_key c (sm_calls m)); [discriminate|]. destruct (begin_schedule (sm_st m) q); cbn [continue_call] in Ex; injection Ex as <-; reflexivity.
    - destruct (lookup c (sm_calls m)) as [[q|q r]|] eqn:Ec.
      + destruct (smach_step m (SNext c)) as [x|] eqn:Ex; [|discriminate]. cbn [option_map] in E. injection E as E1 E2. apply (Plain x eq_refl); [|congruence].
        cbn [smach_step] in Ex. rewrite Ec in Ex. destruct (pick_schedule (sm_st m) q); cbn [continue_call] in Ex; injection Ex as <-; reflexivity.
      + unfold commit32 in E. destruct (add32 true _ 1) as [c'|] eqn:Ea; injection E as <- <-; cbn [sm_st sd_counts].
        * split.
          -- intros rid z. rewrite lookup_insert_b. destruct (eqb rid (rm_id r)); [|apply IH]. intros [= <-]. unfold add32 in Ea. destruct (in_i32 _) eqn:Ei; [|discriminate].
             apply in_i32_iff in Ei. injection Ea as <-. destruct (lookup (rm_id r) (sd_counts (sm_st m))) as [z|] eqn:Ez; cbn [option_default] in *; [specialize (IH _ _ Ez)|]; lia.
          -- intros id H. apply in_app_or in H as [H|H]; [exact (IP _ H)|]. destruct H as [H|[H|[]]]; discriminate H.
        * split.
          -- intros rid z. rewrite lookup_insert_b. destruct (eqb rid (rm_id r)) eqn:Er; [|apply IH]. intros [= <-]. unfold add32 in Ea. destruct (in_i32 _) eqn:Ei; [discriminate|].
             destruct (lookup (rm_id r) (sd_counts (sm_st m))) as [z|] eqn:Ez; cbn [option_default] in *; [exact (IH _ _ Ez)|].
             exfalso. assert (X : in_i32 (0 + 1) = true) by (apply in_i32_iff; lia). congruence.
          -- intros id H. apply in_app_or in H as [H|H]; [exact (IP _ H)|]. destruct H as [H|[]]; discriminate H.
      + cbn [smach_step option_map] in E. rewrite Ec in E. discriminate E.
    - unfold done32 in E. destruct (lookup id (sd_steps (sm_st m))) as [rid|]; [|injection E as <- <-; split; [exact IH|]; intros i H; apply in_app_or in H as [H|[H|[]]]; [exact (IP _ H)|discriminate H]].
      destruct (lookup rid (sd_counts (sm_st m))) as [z|] eqn:Ez.
      + assert (Hz := IH _ _ Ez). rewrite add32_in in E by (apply in_i32_iff; lia). injection E as <- <-. cbn [sm_st sd_counts]. split.
        * intros rid' z'. destruct (z + -1 <=? 0)%Z eqn:El.
          -- rewrite lookup_remove_b, lookup_insert_b. destruct (eqb rid' rid); [discriminate|apply IH].
          -- apply Z.leb_gt in El. rewrite lookup_insert_b. destruct (eqb rid' rid); [intros [= <-]; lia|apply IH].
        * intros i H. apply in_app_or in H as [H|[H|[]]]; [exact (IP _ H)|discriminate H].
      + injection E as <- <-. cbn [sm_st sd_counts]. split; [|intros i H; apply in_app_or in H as [H|[H|[]]]; [exact (IP _ H)|discriminate H]].
        intros rid' z'. change (0 <=? 0)%Z with true. rewrite lookup_remove_b, lookup_insert_b. destruct (eqb rid' rid); [discriminate|apply IH].
    - cbn [smach_step option_map] in E. injection E as <- <-. split; [exact IH|]. intros i H. apply in_app_or in H as [H|[H|[]]]; [exact (IP _ H)|discriminate H]. }
  destruct Main as [Hc Hp]. split; [exact Hc|]. split; [|exact Hp].
  intros c m' o E q r Hin. cbn [step32] in E. destruct (lookup c (sm_calls m)) as [[q'|q' r']|] eqn:Ec.
  - destruct (smach_step m (SNext c)) as [x|]; [|discriminate]. cbn [option_map] in E. injection E as _ <-. apply in_map_iff in Hin as (y & Hy & _). discriminate Hy.
  - unfold commit32 in E. destruct (add32 true _ 1) as [c'|] eqn:Ea; injection E as _ <-; cbn [map In] in Hin; [destruct Hin as [H|[H|[]]]; discriminate H|].
    destruct Hin as [H|[]]. injection H as <- <-. unfold add32 in Ea. destruct (in_i32 _) eqn:Ei; [discriminate|]. clear Ea.
    assert (Nz : ~ (- 2 ^ 31 <= option_default 0%Z (lookup (rm_id r') (sd_counts (sm_st m))) + 1 < 2 ^ 31)%Z) by (rewrite <- in_i32_iff; congruence).
    destruct (lookup (rm_id r') (sd_counts (sm_st m))) as [z|] eqn:Ez; cbn [option_default] in Nz; [|lia]. specialize (Hc _ _ Ez). f_equal. lia.
  - cbn [smach_step option_map] in E. rewrite Ec in E. discriminate E.
Qed.
Print Assumptions C121_checked.

(** The call that has chosen a runner panics exactly when that runner's count is 2^31 - 1; it then leaves the count and the job's runner as they were, but the step
    is put down as running there (its completion will lower the count). Otherwise it returns its choice. *)
Theorem C121_panics_iff : forall ops m tr c q r, run32 true ops m tr -> lookup c (sm_calls m) = Some (CCommit q r) ->
  exists m' o, step32 true m (SNext c) = Some (m', o) /\ lookup c (sm_calls m') = None /\ lookup (sq_step q) (sd_steps (sm_st m')) = Some (rm_id r) /\
    (lookup (rm_id r) (sd_counts (sm_st m)) = Some (2 ^ 31 - 1)%Z ->
       o = [EvCallPanic c q r] /\ sd_jobs (sm_st m') = sd_jobs (sm_st m) /\ forall rid, lookup rid (sd_counts (sm_st m')) = lookup rid (sd_counts (sm_st m))) /\
    (lookup (rm_id r) (sd_counts (sm_st m)) <> Some (2 ^ 31 - 1)%Z ->
       o = map Ev [EvScheduled (sq_step q) (runs_on_host (sq_container q)) (rm_id r); EvReturned c q (Some r)] /\
       lookup (rm_id r) (sd_counts (sm_st m')) = Some (option_default 0%Z (lookup (rm_id r) (sd_counts (sm_st m))) + 1)%Z).
Proof.
  intros ops m tr c q r R Ec. destruct (C121_checked ops m tr R) as (Hc & _ & _). cbn [step32]. rewrite Ec. unfold commit32.
  destruct (in_i32 (option_default 0%Z (lookup (rm_id r) (sd_counts (sm_st m))) + 1)) eqn:Ei.
  - rewrite add32_in by exact Ei. eexists _, _. split; [reflexivity|]. cbn [sm_calls sm_st sd_steps sd_counts sd_jobs]. split; [apply lookup_remove_eq|]. split; [apply lookup_insert_eq|]. split.
    + intros E. rewrite E in Ei. cbn [option_default] in Ei. apply in_i32_iff in Ei. lia.
    + intros _. split; [reflexivity|]. apply lookup_insert_eq.
  - unfold add32. rewrite Ei. eexists _, _. split; [reflexivity|]. cbn [sm_calls sm_st sd_steps sd_counts sd_jobs]. split; [apply lookup_remove_eq|]. split; [apply lookup_insert_eq|].
    assert (Nz : ~ (- 2 ^ 31 <= option_default 0%Z (lookup (rm_id r) (sd_counts (sm_st m))) + 1 < 2 ^ 31)%Z) by (rewrite <- in_i32_iff; congruence).
    destruct (lookup (rm_id r) (sd_counts (sm_st m))) as [z|] eqn:Ez; cbn [option_default] in *; [|lia]. assert (Hz := Hc _ _ Ez). split.
    + intros _. split; [reflexivity|]. split; [reflexivity|]. intros rid. rewrite lookup_insert_b. destruct (eqb rid (rm_id r)) eqn:Er; [|reflexivity]. apply (proj1 (eqb_true _ _)) in Er. subst rid. symmetry. exact Ez.
    + intros Nq. destruct Nq. f_equal. lia.
Qed.
Print Assumptions C121_panics_iff.

(** Without the checks the busiest runner comes to look like the idlest: with 2^31 steps outstanding it is preferred to a runner that has none. *)
Definition c121_a : runner_meta := RunnerMeta "a" "linux" "x86_64" true true "0.2.0" 5.
Definition c121_b : runner_meta := RunnerMeta "b" "linux" "x86_64" true true "0.2.0" 5.
Definition c121_req (n : nat) : sched_req := SchedReq [c121_a] (StepId "w" "j" (N.of_nat n)) (Some "host/linux").
Fixpoint c121_ops (n : nat) : list sop := match n with 0 => [] | S k => c121_ops k ++ [SBegin 0 (c121_req k)] ++ [SNext 0] end.

Lemma c121_busy : forall (checks : bool) n, (Z.of_nat n <= 2 ^ 31 - (if checks then 1 else 0))%Z -> exists m tr, run32 checks (c121_ops n) m (map Ev tr) /\ sm_calls m = [] /\ sd_jobs (sm_st m) = [] /\
  option_default 0%Z (lookup "a" (sd_counts (sm_st m))) = wrap32 (Z.of_nat n) /\ lookup "b" (sd_counts (sm_st m)) = None /\
  never_again [] tr /\ load tr "a" = n /\ load tr "b" = 0 /\ forall id, In id (map fst (outstanding tr)) -> (sid_2 id < N.of_nat n)%N.
Proof.
  intros checks. induction n as [|n IH]; intros Hn.
  { exists (SMach sched_init []), []. split; [constructor|]. do 4 (split; [reflexivity|]). split; [exact Logic.I|]. split; [reflexivity|]. split; [reflexivity|]. intros id Hi. destruct Hi. }
  destruct IH as (m & tr & R & Ca & Jo & A & B & N & La & Lb & Fresh); [lia|]. destruct m as [st calls]. cbn [sm_calls sm_st] in *. subst calls.
  assert (W : wrap32 (Z.of_nat n) = Z.of_nat n) by (unfold wrap32; destruct checks; rewrite Z.mod_small by lia; lia).
  set (q := c121_req n). set (m1 := SMach st [(0, CCommit q c121_a)]).
  assert (R1 : run32 checks (c121_ops n ++ [SBegin 0 q]) m1 (map Ev tr ++ map Ev [EvCalled 0 q])).
  { eapply run32_step; [exact R|]. cbn [step32 smach_step sm_calls sm_st]. change (contains_key 0 []) with false. cbv iota. unfold begin_schedule. rewrite Jo. reflexivity. }
  set (st' := SchedState (insert "a" (wrap32 (Z.of_nat (S n))) (sd_counts st)) (sd_jobs st) (insert (sq_step q) "a" (sd_steps st))).
  set (e := EvScheduled (sq_step q) true "a"). set (e' := EvReturned 0 q (Some c121_a)).
  assert (R2 : run32 checks ((c121_ops n ++ [SBegin 0 q]) ++ [SNext 0]) (SMach st' []) ((map Ev tr ++ map Ev [EvCalled 0 q]) ++ map Ev [e; e'])).
  { eapply run32_step; [exact R1|]. cbn [step32 m1 sm_calls sm_st]. change (lookup 0 [(0, CCommit q c121_a)]) with (Some (CCommit q c121_a)). cbv iota beta.
    unfold commit32. change (rm_id c121_a) with "a". rewrite A, W.
    assert (Ad : add32 checks (Z.of_nat n) 1 = Some (wrap32 (Z.of_nat (S n)))).
    { unfold add32. replace (Z.of_nat n + 1)%Z with (Z.of_nat (S n)) by lia. destruct (in_i32 (Z.of_nat (S n))) eqn:Ei; [|destruct checks; [|reflexivity]; assert (Hi : in_i32 (Z.of_nat (S n)) = true) by (apply in_i32_iff; lia); congruence]. apply in_i32_iff in Ei.
      f_equal. unfold wrap32. rewrite Z.mod_small by lia. lia. }
    rewrite Ad. reflexivity. }
  rewrite <- !map_app, <- !app_assoc in R2. cbn [app] in R2.
  exists (SMach st' []), (tr ++ [EvCalled 0 q; e; e']). split; [|split; [reflexivity|split; [exact Jo|]]].
  - cbn [c121_ops app]. exact R2.
  - assert (Oc : outstanding (tr ++ [EvCalled 0 q]) = outstanding tr) by (rewrite outstanding_snoc; reflexivity).
    assert (Nx : ~ In (sq_step q) (map fst (outstanding tr))) by (intros X; apply Fresh in X; cbn in X; lia).
    assert (Oo : outstanding (tr ++ [EvCalled 0 q; e; e']) = (sq_step q, "a") :: outstanding tr).
    { change [EvCalled 0 q; e; e'] with ([EvCalled 0 q] ++ [e] ++ [e']). rewrite !app_assoc, outstanding_snoc. cbn [outstanding_after e']. rewrite outstanding_snoc, Oc. cbn [outstanding_after e]. f_equal.
      apply filter_all. intros [i x] Hi. cbn [fst]. destruct (eqb i (sq_step q)) eqn:Ei; [|reflexivity]. apply (proj1 (eqb_true _ _)) in Ei. subst. destruct Nx. apply in_map with (f := fst) in Hi. exact Hi. }
    cbn [sm_st st' sd_counts]. rewrite lookup_insert_eq, lookup_insert_ne by discriminate. split; [reflexivity|]. split; [exact B|]. split; [|split; [|split]].
    + change [EvCalled 0 q; e; e'] with ([EvCalled 0 q] ++ [e] ++ [e']). rewrite !app_assoc. apply never_again_snoc. split; [|exact I]. apply never_again_snoc. split; [|cbn [e]; rewrite Oc; exact Nx].
      apply never_again_snoc. split; [exact N|exact I].
    + unfold load in *. rewrite Oo. cbn [filter snd]. change (eqb "a" "a") with true. cbn [length]. f_equal. exact La.
    + unfold load in *. rewrite Oo. cbn [filter snd]. change (eqb "a" "b") with false. exact Lb.
    + intros id H. rewrite Oo in H. cbn [map fst In] in H. destruct H as [<-|H]; [cbn [sq_step q c121_req sid_2]; lia|]. apply Fresh in H. lia.
Qed.
(** Such a call can come about. *)
Example C121_panics_nonvacuous : exists ops m tr q r, run32 true ops m tr /\ lookup 0 (sm_calls m) = Some (CCommit q r) /\ lookup (rm_id r) (sd_counts (sm_st m)) = Some (2 ^ 31 - 1)%Z.
Proof.
  destruct (c121_busy true (Z.to_nat (2 ^ 31 - 1))) as (m & tr & R & Ca & Jo & A & _); [lia|]. rewrite Z2Nat.id in A by lia. destruct m as [st calls]. cbn [sm_calls sm_st] in *. subst calls.
  set (q := c121_req 0). exists (c121_ops (Z.to_nat (2 ^ 31 - 1)) ++ [SBegin 0 q]), (SMach st [(0, CCommit q c121_a)]), (map Ev tr ++ map Ev [EvCalled 0 q]), q, c121_a. split; [|split; [reflexivity|]].
  - eapply run32_step; [exact R|]. cbn [step32 smach_step sm_calls sm_st]. change (contains_key 0 []) with false. cbv iota. unfold begin_schedule. rewrite Jo. reflexivity.
  - change (rm_id c121_a) with "a". cbn [sm_st]. change (wrap32 (2 ^ 31 - 1)) with (2 ^ 31 - 1)%Z in A. destruct (lookup "a" (sd_counts st)) as [z|]; cbn [option_default] in A; [congruence|discriminate A].
Qed.
Definition c121_last : sched_req := SchedReq [c121_b; c121_a] (StepId "w" "k" 0) None.
Theorem C121_wraps : exists ops m tr, run32 false ops m (map Ev (tr ++ [EvCalled 0 c121_last; EvScheduled (sq_step c121_last) false "a"; EvReturned 0 c121_last (Some c121_a)])) /\
  never_again [] tr /\ Z.of_nat (load tr "a") = (2 ^ 31)%Z /\ load tr "b" = 0 /\ In c121_b (sq_runners c121_last) /\ rm_support_docker c121_b = true.
Proof.
  destruct (c121_busy false (Z.to_nat (2 ^ 31))) as (m & tr & R & Ca & Jo & A & B & N & La & Lb & _); [lia|]. rewrite Z2Nat.id in A by lia.
  destruct m as [st calls]. cbn [sm_calls sm_st] in *. subst calls. set (q := c121_last).
  assert (Af : count_of (sd_counts st) c121_a = (- 2 ^ 31)%Z) by (unfold count_of; change (rm_id c121_a) with "a"; rewrite A; reflexivity).
  assert (Bf : count_of (sd_counts st) c121_b = 0%Z) by (unfold count_of; change (rm_id c121_b) with "b"; rewrite B; reflexivity).
  assert (R1 : run32 false (c121_ops (Z.to_nat (2 ^ 31)) ++ [SBegin 0 q]) (SMach st [(0, CPick q)]) (map Ev tr ++ map Ev [EvCalled 0 q])).
  { eapply run32_step; [exact R|]. cbn [step32 smach_step sm_calls sm_st]. change (contains_key 0 []) with false. cbv iota. unfold begin_schedule. rewrite Jo. reflexivity. }
  assert (R2 : run32 false ((c121_ops (Z.to_nat (2 ^ 31)) ++ [SBegin 0 q]) ++ [SNext 0]) (SMach st [(0, CCommit q c121_a)]) ((map Ev tr ++ map Ev [EvCalled 0 q]) ++ map Ev [])).
  { eapply run32_step; [exact R1|]. cbn [step32 smach_step sm_calls sm_st]. change (lookup 0 [(0, CPick q)]) with (Some (CPick q)). cbv iota beta.
    unfold pick_schedule, pick_docker_runner. change (filter rm_support_docker (sq_runners q)) with [c121_b; c121_a]. unfold min_by_count. cbn [fold_left]. rewrite Af, Bf. reflexivity. }
  set (st' := SchedState (insert "a" (- 2 ^ 31 + 1)%Z (sd_counts st)) (insert (step_id_job_id (sq_step q)) "a" (sd_jobs st)) (insert (sq_step q) "a" (sd_steps st))).
  assert (R3 : run32 false (((c121_ops (Z.to_nat (2 ^ 31)) ++ [SBegin 0 q]) ++ [SNext 0]) ++ [SNext 0]) (SMach st' [])
                 (((map Ev tr ++ map Ev [EvCalled 0 q]) ++ map Ev []) ++ map Ev [EvScheduled (sq_step q) false "a"; EvReturned 0 q (Some c121_a)])).
  { eapply run32_step; [exact R2|]. cbn [step32 sm_calls sm_st]. change (lookup 0 [(0, CCommit q c121_a)]) with (Some (CCommit q c121_a)). cbv iota beta.
    unfold commit32. change (rm_id c121_a) with "a". unfold count_of in Af. change (rm_id c121_a) with "a" in Af. rewrite Af.
    rewrite add32_in by (apply in_i32_iff; lia). reflexivity. }
  rewrite <- !map_app, <- !app_assoc in R3. cbn [app] in R3.
  eexists _, _, tr. split; [exact R3|]. split; [exact N|]. split; [rewrite La; apply Z2Nat.id; lia|]. split; [exact Lb|]. split; [left; reflexivity|reflexivity].
Qed.
Print Assumptions C121_wraps.
Lemma filter_le {A} (f : A -> bool) l : length (filter f l) <= length l.
Proof. induction l as [|x l IH]; cbn [filter length]; [lia|]. destruct (f x); cbn [length]; lia. Qed.
Example C121_nonvacuous : exists ops m tr, sched_run ops m tr /\ never_again [] tr /\ load tr "a" = 1 /\ load tr "b" = 1 /\
  forall pre post rid, tr = pre ++ post -> (Z.of_nat (load pre rid) < 2 ^ 31)%Z.
Proof.
  pose (q1 := SchedReq [c121_a; c121_b] (StepId "w" "i" 0) None). pose (q2 := SchedReq [c121_a; c121_b] (StepId "w" "j" 0) None).
  exists ((((((([] ++ [SBegin 0 q1]) ++ [SNext 0]) ++ [SNext 0]) ++ [SBegin 0 q2]) ++ [SNext 0]) ++ [SNext 0])). eexists _, _. split.
  { eapply sched_run_step; [eapply sched_run_step; [eapply sched_run_step; [eapply sched_run_step; [eapply sched_run_step; [eapply sched_run_step; [constructor|]|]|]|]|]|]; reflexivity. }
  split; [|split; [reflexivity|split; [reflexivity|]]].
  - cbn. repeat split; try exact I; intros H; repeat (destruct H as [H|H]; [discriminate H|]); destruct H.
  - intros pre post rid E. assert (load pre rid <= length pre).
    { clear. unfold load. etransitivity; [apply filter_le|]. induction pre as [|e pre IH] using rev_ind; [cbn; lia|].
      rewrite outstanding_snoc, app_length. cbn [length]. destruct e; cbn [outstanding_after length]; try lia; (etransitivity; [|apply Nat.add_le_mono_r; exact IH]);
        [|rewrite Nat.add_1_r; apply le_S; apply filter_le]. rewrite Nat.add_1_r. apply le_n_S. apply filter_le. }
    assert (L : length pre + length post = 6) by (rewrite <- app_length, <- E; vm_compute; reflexivity). lia.
Qed.
