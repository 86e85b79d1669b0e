From Coq Require Import Sorting.Permutation.
From Verif Require Import Base Types Signals_model Signals_proof Stream_model Cond_model Plugins_model Exec_model Workflow_model Workflow_proof Runner_model Sched_model Sched_spec Sched_proof
  Remote_model Remote_spec Remote_proof Distant_model System_model System_spec System_proof System_inst Fleet_model Fleet_spec Dispatch_model Dispatch_spec Dispatch_proof.

Section M.
Variables (cl : task -> task) (glob : glob_oracle) (now : time).
Notation ps := (pstep cl glob).
Notation run := (dispatch_run cl glob now).
Notation fs := (remote_fleet_step cl glob).

(** *** What the scheduler is asked *)
Lemma ask_moment ops d tr : run ops d tr -> forall c q o1 o2 op d', ps d op = Some (d', o1 ++ PSched (EvCalled c q) :: o2) ->
  exists k i l st, op = PAsk k i l /\ wanting (dp_fleet d) k i = Some st /\ q = request l st /\ Permutation l (map snd (dp_clients d)) /\ (forall c', ~ pending d c' k i) /\
    o1 = [] /\ c = length (dp_asked d) /\ dp_asked d' = dp_asked d ++ [Asking k i (dp_clients d)].
Proof.
  intros R c q o1 o2 op d' E. assert (I := dinv_run _ _ _ _ _ _ R). destruct op as [a|fo|k i l|c']; cbn [pstep] in E.
  - injection E as _ E. destruct o1; discriminate E.
  - destruct (picks_runner fo); [discriminate|]. destruct (fs (dp_fleet d) fo) as [[f x]|]; [|discriminate]. injection E as _ E.
    assert (C : In (PSched (EvCalled c q)) (map (fun y : nat * sysobs (iobs := obs) => PSeen (fst y) (snd y)) x)) by (rewrite E; apply in_or_app; right; left; reflexivity).
    apply in_map_iff in C as (y & C & _). discriminate C.
  - destruct (wanting (dp_fleet d) k i) as [st|] eqn:W; [|discriminate]. destruct (asked_for d k i) eqn:Eaf; [discriminate|]. cbn [orb] in E.
    destruct (reordered l (map snd (dp_clients d))) eqn:Er; [|discriminate]. cbn [negb] in E. apply reordered_spec in Er.
    destruct (smach_step (dp_sched d) (SBegin (length (dp_asked d)) (request l st))) as [[m o]|] eqn:Es; [|discriminate].
    assert (Np : forall c', ~ pending d c' k i) by (intros c' P; assert (C : asked_for d k i = true) by (apply asked_for_spec; eauto); congruence).
    destruct (first_section _ _ _ _ _ Es) as (_ & _ & Hcase).
    assert (W2 := then_went _ _ _ _ _ _ _ _ _ (di_tidy _ _ _ I) E).
    assert (Ho : o1 ++ PSched (EvCalled c q) :: o2 = map PSched o /\ dp_asked d' = dp_asked d ++ [Asking k i (dp_clients d)]) by (destruct W2 as [? -> ->|? ? ? ? -> -> ? ? ? ?]; auto).
    destruct Ho as [Ho Ha]. exists k, i, l, st. split; [reflexivity|]. split; [exact W|].
    assert (K : q = request l st /\ o1 = [] /\ c = length (dp_asked d)).
    { destruct Hcase as [(k' & _ & _ & _ & ->)|[_ ->]]; cbn [map] in Ho.
      - destruct o1 as [|x o1]; [injection Ho as <- <- _; auto|]. injection Ho as _ Ho. destruct o1; discriminate Ho.
      - destruct o1 as [|x o1]; [injection Ho as <- <- _; auto|]. injection Ho as _ Ho. destruct o1 as [|y o1]; [discriminate Ho|]. injection Ho as _ Ho. destruct o1; discriminate Ho. }
    destruct K as (K1 & K2 & K3). auto 8.
  - destruct (nth_error (dp_asked d) c') as [a|] eqn:Ea; [|discriminate]. destruct (smach_step (dp_sched d) (SNext c')) as [[m o]|] eqn:Es; [|discriminate].
    destruct (next_section _ _ _ _ Es) as (k & L & Hcase). assert (W2 := then_went _ _ _ _ _ _ _ _ _ (di_tidy _ _ _ I) E).
    assert (Ho : o1 ++ PSched (EvCalled c q) :: o2 = map PSched o) by (destruct W2 as [? ? ->|? ? ? ? ? -> ? ? ? ?]; auto).
    assert (C : In (PSched (EvCalled c q)) (map PSched o)) by (rewrite <- Ho; apply in_or_app; right; left; reflexivity). apply in_map_iff in C as (e & [= ->] & C).
    exfalso. destruct Hcase as [(q0 & r & _ & _ & _ & _ & ->)|[(q0 & _ & _ & _ & ->)|(q0 & r & _ & _ & _ & ->)]]; cbn [In] in C; intuition discriminate.
Qed.
Lemma called_about ops d tr : run ops d tr -> forall pre c q post, tr = pre ++ PSched (EvCalled c q) :: post ->
  exists k i l ops1 ops2 rc pre1 pre2, ops = ops1 ++ PAsk k i l :: ops2 /\ nth_error (dp_asked d) c = Some (Asking k i (connected ops1)) /\ Permutation l (map snd (connected ops1)) /\
    pre = pre1 ++ gives k i rc :: pre2 /\ nothing_new d k i pre2 /\ q = asks_about l rc.
Proof.
  intros R pre c q post E. destruct (split_run _ _ _ _ _ _ R _ _ _ E) as (ops1 & d1 & tr1 & op & d2 & o1 & o2 & ops2 & extra & R1 & Es & -> & -> & Ha).
  destruct (ask_moment _ _ _ R1 _ _ _ _ _ _ Es) as (k & i & l & st & -> & W & -> & P & Np & -> & -> & Ha2). assert (I := dinv_run _ _ _ _ _ _ R1).
  destruct (di_want _ _ _ I k i st W Np) as (rc & p1 & p2 & Et & Hn & Hc). rewrite Ha2 in Ha. rewrite (di_clients _ _ _ I) in *.
  exists k, i, l, ops1, ops2, rc, p1, p2. split; [reflexivity|]. split; [rewrite Ha, <- app_assoc, nth_error_app2, Nat.sub_diag by lia; reflexivity|]. split; [exact P|].
  split; [rewrite app_nil_r; exact Et|]. split.
  - rewrite <- app_assoc in Ha. rewrite <- (app_nil_r p2). eapply nothing_more; [exact Ha| |exact Hn|split; [intros ? []|intros ? ? []]].
    intros c' q' H. eapply (di_called _ _ _ I). rewrite Et. apply in_or_app. right. right. exact H.
  - unfold asks_about, request. rewrite Hc. reflexivity.
Qed.
Lemma made_once d c k i k' i' : made_for d c k i -> made_for d c k' i' -> k = k' /\ i = i'.
Proof. intros (a & E & <- & <-) (a' & E' & <- & <-). rewrite E in E'. injection E' as <-. auto. Qed.
(** Every runner on offer is, then and later, in the table under its id. *)
Lemma offered_connected ops d tr : run ops d tr -> forall c q x, In (EvCalled c q) (sched_events tr) -> In x (sq_runners q) ->
  lookup (rm_id x) (connected ops) = Some x.
Proof.
  intros R c q x H Hx. apply in_sched, in_split in H as (pre & post & E). destruct (called_about _ _ _ R _ _ _ _ E) as (k & i & l & ops1 & ops2 & rc & p1 & p2 & -> & Ha & P & _ & _ & ->).
  cbn [asks_about sq_runners] in Hx. destruct (connected_ok ops1) as [Hc Hn]. assert (L := offered_found _ _ _ Hc Hn P Hx). revert L. generalize (rm_id x). clear. intros n L.
  induction (PAsk k i l :: ops2) as [|op r IH] using rev_ind; [rewrite app_nil_r; exact L|]. rewrite app_assoc, connected_snoc. destruct op; auto. apply connect_grows, IH.
Qed.
Lemma offers_stable ops d tr : run ops d tr -> stable_docker (sched_events tr).
Proof.
  intros R c c' q q' r r' H1 H2 I1 I2 E. assert (A := offered_connected _ _ _ R _ _ _ H1 I1). assert (B := offered_connected _ _ _ R _ _ _ H2 I2). rewrite E in A. congruence.
Qed.

(** *** Nothing blocks the client *)
Lemma then_possible ops d tr : run ops d tr -> forall a st m o asked, coherent (as_clients a) -> NoDup (keys (as_clients a)) -> wanting (dp_fleet d) (as_run a) (as_job a) = Some st ->
  (forall r, answered o = Some (Some r) -> In r (map snd (as_clients a))) -> then_pick cl glob d asked a m o <> None.
Proof.
  intros R a st m o asked Hc Hn W Ho. assert (I := dinv_run _ _ _ _ _ _ R). unfold then_pick. destruct (answered o) as [r|] eqn:Ea; [|discriminate].
  destruct (pick_possible cl glob _ _ _ _ (as_clients a) r (di_tidy _ _ _ I) W) as [f' ->]; [|discriminate]. destruct r as [r|]; [|discriminate].
  cbn [client_start]. rewrite (offered_found _ (map snd (as_clients a)) _ Hc Hn (Permutation_refl _) (Ho r eq_refl)). discriminate.
Qed.
Lemma lock_possible ops d tr c : run ops d tr -> lookup c (sm_calls (dp_sched d)) <> None -> ps d (PLock c) <> None.
Proof.
  intros R L. assert (I := dinv_run _ _ _ _ _ _ R). destruct (lookup c (sm_calls (dp_sched d))) as [k|] eqn:E; [|contradiction].
  destruct (di_pending _ _ _ I c k E) as (a & st & l & Ha & W & Hq & P & Hi). cbn [pstep]. rewrite Ha. assert (Hs := next_possible _ _ _ E).
  destruct (smach_step (dp_sched d) (SNext c)) as [[m o]|] eqn:Es; [|contradiction]. destruct (di_snap _ _ _ I a (nth_error_In _ _ Ha)) as (Hc & Hn & _).
  eapply then_possible; [exact R|exact Hc|exact Hn|exact W|]. intros r Hr. destruct (next_section _ _ _ _ Es) as (k' & L' & Hcase). rewrite E in L'. injection L' as <-.
  destruct Hcase as [(q0 & r0 & _ & _ & _ & _ & ->)|[(q0 & _ & _ & _ & ->)|(q0 & r0 & -> & _ & _ & ->)]]; try discriminate Hr. injection Hr as <-.
  cbn [in_offer call_req] in *. subst q0. cbn [request sq_runners] in Hi. eapply Permutation_in; [exact P|exact Hi].
Qed.
Lemma ask_possible ops d tr k i st l : run ops d tr -> wanting (dp_fleet d) k i = Some st -> (forall c, ~ pending d c k i) -> Permutation l (map snd (connected ops)) -> ps d (PAsk k i l) <> None.
Proof.
  intros R W Np P. assert (I := dinv_run _ _ _ _ _ _ R). cbn [pstep]. rewrite W. rewrite <- (di_clients _ _ _ I) in P. apply reordered_spec in P. rewrite P.
  destruct (asked_for d k i) eqn:Ea; [apply asked_for_spec in Ea as [c Hc]; destruct (Np c Hc)|]. cbn [orb negb].
  assert (Hf : lookup (length (dp_asked d)) (sm_calls (dp_sched d)) = None).
  { destruct (lookup _ _) as [k'|] eqn:E; [|reflexivity]. destruct (di_pending _ _ _ I _ _ E) as (a & _ & _ & C & _). assert (length (dp_asked d) < length (dp_asked d)) by (apply nth_error_Some; congruence). lia. }
  assert (Hs := begin_possible _ _ (request l st) Hf). destruct (smach_step _ _) as [[m o]|] eqn:Es; [|contradiction].
  destruct (connected_ok ops) as [Hc Hn]. rewrite <- (di_clients _ _ _ I) in Hc, Hn. eapply then_possible; [exact R|exact Hc|exact Hn|exact W|].
  intros r Hr. destruct (first_section _ _ _ _ _ Es) as (_ & _ & [(k' & _ & _ & _ & ->)|[_ ->]]); discriminate Hr.
Qed.

(** A call that goes on takes the lock at most twice more, and then the step has its answer. *)
Definition rank (k : call) : nat := match k with CPick _ => 2 | CCommit _ _ => 1 end.
Lemma lock_answers n : forall ops d tr c k i k0, run ops d tr -> made_for d c k i -> lookup c (sm_calls (dp_sched d)) = Some k0 -> rank k0 <= n ->
  exists ops' d' o q r, length ops' <= n /\ Forall (fun op => op = PLock c) ops' /\ pexec cl glob d ops' = Some (d', o) /\ wanting (dp_fleet d') k i = None /\ In (PSched (EvReturned c q r)) o.
Proof.
  induction n as [|n IH]; intros ops d tr c k i k0 R M L Hr; [destruct k0; cbn in Hr; lia|].
  assert (I := dinv_run _ _ _ _ _ _ R). assert (Hp := lock_possible _ _ _ c R ltac:(congruence)). destruct (ps d (PLock c)) as [[d1 o1]|] eqn:E; [|contradiction].
  assert (R1 : run (ops ++ [PLock c]) d1 (tr ++ o1)) by (eapply dispatch_step; eassumption). assert (E0 := E). cbn [pstep] in E.
  destruct (nth_error (dp_asked d) c) as [a|] eqn:Ea; [|discriminate]. destruct (smach_step (dp_sched d) (SNext c)) as [[m o]|] eqn:Es; [|discriminate].
  destruct M as (a' & Ea' & <- & <-). rewrite Ea in Ea'. injection Ea' as <-.
  destruct (next_section _ _ _ _ Es) as (k1 & L1 & Hcase). rewrite L in L1. injection L1 as <-. assert (W := then_went _ _ _ _ _ _ _ _ _ (di_tidy _ _ _ I) E).
  assert (Back : forall q r, In (EvReturned c q r) o -> answered o <> None ->
    exists ops' d' o q r, length ops' <= S n /\ Forall (fun op => op = PLock c) ops' /\ pexec cl glob d ops' = Some (d', o) /\ wanting (dp_fleet d') (as_run a) (as_job a) = None /\ In (PSched (EvReturned c q r)) o).
  { intros q r Hin Hans. destruct W as [C _ _|r' f _ _ -> -> _ _ Hnone _]; [contradiction|]. exists [PLock c]. cbn [pexec]. rewrite E0. eexists _, _, q, r.
    split; [cbn; lia|]. split; [repeat constructor|]. split; [reflexivity|]. split; [exact Hnone|]. rewrite app_nil_r. apply in_map, Hin. }
  destruct Hcase as [(q0 & r0 & -> & _ & _ & E2 & ->)|[(q0 & _ & _ & _ & ->)|(q0 & r0 & _ & _ & _ & ->)]].
  - destruct W as [_ -> ->|r' f C _ _ _ _ _ _ _]; [|discriminate C].
    edestruct (IH _ _ _ c (as_run a) (as_job a) (CCommit q0 r0) R1) as (ops' & d' & o' & q & r & H1 & H2 & H3 & H4 & H5).
    + exists a. auto.
    + cbn [dp_sched]. rewrite E2. apply lookup_insert_eq.
    + cbn [rank] in *. lia.
    + exists (PLock c :: ops'). cbn [pexec]. rewrite E0, H3. eexists _, _, q, r. split; [cbn; lia|]. split; [constructor; auto|]. split; [reflexivity|]. split; [exact H4|]. apply in_or_app. auto.
  - eapply Back; [left; reflexivity|discriminate].
  - eapply Back; [right; left; reflexivity|discriminate].
Qed.
Lemma ask_answers ops d tr k i st l : run ops d tr -> wanting (dp_fleet d) k i = Some st -> (forall c, ~ pending d c k i) -> Permutation l (map snd (connected ops)) ->
  exists ops' d' o q r, length ops' <= 2 /\ Forall (fun op => op = PLock (length (dp_asked d))) ops' /\ pexec cl glob d (PAsk k i l :: ops') = Some (d', o) /\ wanting (dp_fleet d') k i = None /\
    In (PSched (EvReturned (length (dp_asked d)) q r)) o.
Proof.
  intros R W Np P. assert (I := dinv_run _ _ _ _ _ _ R). assert (Hp := ask_possible _ _ _ _ _ _ _ R W Np P). destruct (ps d (PAsk k i l)) as [[d1 o1]|] eqn:E; [|contradiction].
  assert (R1 : run (ops ++ [PAsk k i l]) d1 (tr ++ o1)) by (eapply dispatch_step; eassumption). assert (E0 := E). cbn [pstep] in E. rewrite W in E. destruct (_ || _); [discriminate|].
  destruct (smach_step (dp_sched d) (SBegin (length (dp_asked d)) (request l st))) as [[m o]|] eqn:Es; [|discriminate].
  destruct (first_section _ _ _ _ _ Es) as (_ & _ & Hcase). assert (W2 := then_went _ _ _ _ _ _ _ _ _ (di_tidy _ _ _ I) E).
  destruct Hcase as [(k' & E2 & _ & _ & ->)|[_ ->]].
  - destruct W2 as [_ -> ->|r' f C _ _ _ _ _ _ _]; [|discriminate C].
    edestruct (lock_answers 2 _ _ _ (length (dp_asked d)) k i k' R1) as (ops' & d' & o' & q & r & H1 & H2 & H3 & H4 & H5).
    + exists (Asking k i (dp_clients d)). cbn [dp_asked]. rewrite nth_error_app2, Nat.sub_diag by lia. auto.
    + cbn [dp_sched]. rewrite E2. apply lookup_insert_eq.
    + destruct k'; cbn; lia.
    + exists ops'. cbn [pexec]. rewrite E0. cbn [pexec] in H3. rewrite H3. eexists _, _, q, r. split; [exact H1|]. split; [exact H2|]. split; [reflexivity|]. split; [exact H4|]. apply in_or_app. auto.
  - destruct W2 as [C _ _|r' f _ _ -> -> _ _ Hnone _]; [discriminate C|]. exists []. cbn [pexec]. rewrite E0. eexists _, _, _, _. split; [cbn; lia|]. split; [constructor|]. split; [reflexivity|].
    split; [exact Hnone|]. rewrite app_nil_r. right. left. reflexivity.
Qed.

(** *** Affinity *)
Lemma affinity_connected ops d tr : run ops d tr -> forall j a, affinity (sched_events tr) j = Some a -> exists r, lookup a (connected ops) = Some r /\ rm_id r = a.
Proof.
  intros R j a H. apply affinity_origin in H as (pre & id & post & E & _ & _). destruct (sched_part _ _ _ _ _ _ R) as (sops & S & _).
  destruct (scheduled_returned _ _ _ S _ _ _ _ _ E) as (c & q & r & post' & -> & _ & _ & ->).
  assert (E' : sched_events tr = (pre ++ [EvScheduled id false (rm_id r)]) ++ EvReturned c q (Some r) :: post') by (rewrite <- app_assoc; exact E).
  destruct (proj2 (pending_run _ _ _ S) _ _ _ _ _ E') as (before & mid & mid' & Ep & _ & A & _).
  assert (Hin : In r (sq_runners q)) by (inv A; try assumption; match goal with F : first_such _ _ _ |- _ => apply first_such_in in F; tauto end).
  exists r. split; [|reflexivity]. eapply offered_connected; [exact R| |exact Hin]. rewrite E', Ep. apply in_or_app. left. apply in_or_app. right. left. reflexivity.
Qed.
Definition mine (d : dispatch) (tr : list pobs) (j : job_id) (k i : nat) : Prop := forall c q, In (PSched (EvCalled c q)) tr -> step_id_job_id (sq_step q) = j -> made_for d c k i.
Record ainv (d : dispatch) (tr : list pobs) (j : job_id) : Prop := AInv {
  ai_one : forall id rid, In (EvScheduled id false rid) (sched_events tr) -> step_id_job_id id = j -> affinity (sched_events tr) j = Some rid;
  ai_commit : forall c q r, lookup c (sm_calls (dp_sched d)) = Some (CCommit q r) -> ~ host_step q -> step_id_job_id (sq_step q) = j ->
    affinity (sched_events tr) j = None \/ affinity (sched_events tr) j = Some (rm_id r);
  ai_pick : forall c q, lookup c (sm_calls (dp_sched d)) = Some (CPick q) -> step_id_job_id (sq_step q) = j -> affinity (sched_events tr) j = None
}.
Lemma ainv_same d tr d' o j : ainv d tr j -> (forall e, In e (sched_events o) -> match e with EvCalled _ _ | EvReturned _ _ _ => True | _ => False end) ->
  (forall c x, lookup c (sm_calls (dp_sched d')) = Some x -> lookup c (sm_calls (dp_sched d)) = Some x \/
     match x with CCommit q r => ~ host_step q -> step_id_job_id (sq_step q) = j -> affinity (sched_events tr) j = None \/ affinity (sched_events tr) j = Some (rm_id r)
     | CPick q => step_id_job_id (sq_step q) = j -> affinity (sched_events tr) j = None end) -> ainv d' (tr ++ o) j.
Proof.
  intros [A B C] Ho Hc.
  assert (Ea : affinity (sched_events (tr ++ o)) j = affinity (sched_events tr) j).
  { rewrite sched_app. revert Ho. generalize (sched_events o). intros l. induction l as [|e l IH] using rev_ind; intros H; [rewrite app_nil_r; reflexivity|].
    rewrite app_assoc, affinity_snoc, IH by (intros x Hx; apply H, in_or_app; auto). assert (He : In e (l ++ [e])) by (apply in_or_app; right; left; reflexivity). specialize (H e He). destruct e; try contradiction; reflexivity. }
  constructor; rewrite ?Ea.
  - intros id rid H. rewrite sched_app in H. apply in_app_iff in H as [H|H]; [eauto|]. destruct (Ho _ H).
  - intros c q r L. destruct (Hc _ _ L) as [L'|K]; [eauto|exact K].
  - intros c q L. destruct (Hc _ _ L) as [L'|K]; [eauto|exact K].
Qed.
Lemma pending_called ops d tr c x : run ops d tr -> lookup c (sm_calls (dp_sched d)) = Some x -> In (PSched (EvCalled c (call_req x))) tr.
Proof.
  intros R L. destruct (sched_part _ _ _ _ _ _ R) as (sops & S & _). destruct (proj1 (pending_run _ _ _ S) c x L) as (before & mid & mid' & E & _). apply in_sched. rewrite E.
  apply in_or_app. right. left. reflexivity.
Qed.
Lemma ainv_run ops d tr j k i : run ops d tr -> mine d tr j k i -> ainv d tr j.
Proof.
  induction 1 as [|ops d tr op d' o R IH E]; [intros _; constructor; [intros ? ? []|intros ? ? ? C; discriminate C|intros ? ? C; discriminate C]|]. intros Hm.
  assert (I := dinv_run _ _ _ _ _ _ R). destruct (asked_grows _ _ _ _ _ _ E) as [extra Ex].
  assert (Hm1 : mine d tr j k i).
  { intros c q H Hj. apply (made_more d d' extra); [exact Ex|eapply (di_called _ _ _ I); exact H|]. eapply Hm; [apply in_or_app; left; exact H|exact Hj]. }
  specialize (IH Hm1). destruct (sched_part _ _ _ _ _ _ R) as (sops & S & _). assert (SI := sinv_run _ _ _ S).
  destruct op as [a|fo|k1 i1 l|c]; cbn [pstep] in E.
  - injection E as <- <-. eapply ainv_same; [exact IH|intros e []|]. cbn [dp_sched]. auto.
  - destruct (picks_runner fo); [discriminate|]. destruct (fs (dp_fleet d) fo) as [[f x]|]; [|discriminate]. injection E as <- <-. eapply ainv_same; [exact IH|rewrite sched_seen; intros e []|]. cbn [dp_sched]. auto.
  - destruct (wanting (dp_fleet d) k1 i1) as [st|] eqn:W; [|discriminate]. destruct (asked_for d k1 i1); [discriminate|]. cbn [orb] in E.
    destruct (reordered l (map snd (dp_clients d))) eqn:Er; [|discriminate]. cbn [negb] in E. apply reordered_spec in Er.
    destruct (smach_step (dp_sched d) (SBegin (length (dp_asked d)) (request l st))) as [[m o1]|] eqn:Es; [|discriminate].
    assert (W2 := then_went _ _ _ _ _ _ _ _ _ (di_tidy _ _ _ I) E). destruct (first_section _ _ _ _ _ Es) as (_ & _ & Hcase).
    assert (Ho : o = map PSched o1 /\ dp_sched d' = m) by (destruct W2 as [? -> ->|? ? ? ? -> -> ? ? ? ?]; auto). destruct Ho as [-> Hm'].
    eapply ainv_same; [exact IH| |]; rewrite ?sched_sched, ?Hm'.
    + intros e He. destruct Hcase as [(k' & _ & _ & _ & ->)|[_ ->]]; cbn [In] in He; destruct He as [<-|He]; try exact Logic.I; [destruct He|destruct He as [<-|[]]; exact Logic.I].
    + set (q := request l st) in *. cbn [smach_step] in Es. destruct (contains_key _ _); [discriminate|]. assert (B := begin_ok (sm_st (dp_sched d)) (sched_events tr) q (si_jobs _ _ SI)).
      destruct (begin_schedule (sm_st (dp_sched d)) q) as [x0|res]; cbn [continue_call] in Es; injection Es as <- _; cbn [sm_calls]; intros c x L.
      * destruct (Nat.eq_dec c (length (dp_asked d))) as [->|Hne]; [|rewrite lookup_insert_ne in L by exact Hne; auto]. rewrite lookup_insert_eq in L. injection L as <-. right.
        destruct B as [Eq B]. specialize (B (sched_events tr)).
        assert (Some_sticky : forall a, ~ host_step q -> affinity (sched_events tr) (step_id_job_id (sq_step q)) = Some a -> exists y, In y (sq_runners q) /\ sticky (sched_events tr) q y).
        { intros a Hh Ha. destruct (affinity_connected _ _ _ R _ _ Ha) as (y & Ly & Hy). exists y. split.
          - unfold q. cbn [request sq_runners]. eapply Permutation_in; [symmetry; exact Er|]. rewrite (di_clients _ _ _ I). apply (in_map snd _ _ (lookup_In _ _ _ Ly)).
          - split; [rewrite Ha, Hy; reflexivity|intros C; contradiction]. }
        destruct x0 as [q0|q0 r0]; cbn [call_req] in Eq; subst q0; cbn [call_ok] in B.
        -- destruct B as [Hh Hs]. intros Hj. destruct (affinity (sched_events tr) j) as [a|] eqn:Ha; [|reflexivity]. rewrite <- Hj in Ha. destruct (Some_sticky a Hh Ha) as (y & Hy & Sy). destruct (Hs y Hy Sy).
        -- intros Hh Hj. inv B; try contradiction.
           ++ match goal with F : first_such _ _ _ |- _ => apply first_such_in in F as [_ [Haff _]] end. right. exact Haff.
           ++ left. destruct (affinity (sched_events tr) _) as [a|] eqn:Ha; [|reflexivity]. destruct (Some_sticky a Hh eq_refl) as (y & Hy & Sy).
              match goal with N : forall x, In x _ -> ~ sticky _ _ x |- _ => destruct (N y Hy Sy) end.
      * destruct (Nat.eq_dec c (length (dp_asked d))) as [->|Hne]; [rewrite lookup_remove_eq in L; discriminate|rewrite lookup_remove_ne in L by exact Hne; auto].
  - destruct (nth_error (dp_asked d) c) as [a|] eqn:Ea; [|discriminate]. destruct (smach_step (dp_sched d) (SNext c)) as [[m o1]|] eqn:Es; [|discriminate].
    assert (W2 := then_went _ _ _ _ _ _ _ _ _ (di_tidy _ _ _ I) E). destruct (next_section _ _ _ _ Es) as (x0 & L0 & Hcase).
    assert (Ho : o = map PSched o1 /\ dp_sched d' = m) by (destruct W2 as [? -> ->|? ? ? ? -> -> ? ? ? ?]; auto). destruct Ho as [-> Hm'].
    destruct Hcase as [(q0 & r0 & -> & Hr & _ & E2 & ->)|[(q0 & -> & _ & E2 & ->)|(q0 & r0 & -> & _ & E2 & ->)]].
    + eapply ainv_same; [exact IH|intros e []|]. rewrite Hm', E2. intros c' x L. destruct (Nat.eq_dec c' c) as [->|Hne]; [|rewrite lookup_insert_ne in L by exact Hne; auto].
      rewrite lookup_insert_eq in L. injection L as <-. right. intros Hh Hj. left. eapply (ai_pick _ _ _ IH); eassumption.
    + eapply ainv_same; [exact IH|intros e [<-|[]]; exact Logic.I|]. rewrite Hm', E2. intros c' x L.
      destruct (Nat.eq_dec c' c) as [->|Hne]; [rewrite lookup_remove_eq in L; discriminate|rewrite lookup_remove_ne in L by exact Hne; auto].
    + assert (Eaf : affinity (sched_events (tr ++ map PSched [EvScheduled (sq_step q0) (runs_on_host (sq_container q0)) (rm_id r0); EvReturned c q0 (Some r0)])) j =
        if negb (runs_on_host (sq_container q0)) && eqb (step_id_job_id (sq_step q0)) j then Some (rm_id r0) else affinity (sched_events tr) j).
      { rewrite sched_app, sched_sched. unfold affinity. rewrite fold_left_app. cbn [fold_left affinity_after]. destruct (runs_on_host (sq_container q0)); reflexivity. }
      destruct (negb (runs_on_host (sq_container q0)) && eqb (step_id_job_id (sq_step q0)) j) eqn:Eb.
      * apply andb_true_iff in Eb as [Eh Ej]. apply negb_true_iff, runs_on_host_false in Eh. apply (proj1 (eqb_true _ _)) in Ej.
        assert (Alone : forall c' x, lookup c' (sm_calls (dp_sched d')) = Some x -> step_id_job_id (sq_step (call_req x)) <> j).
        { intros c' x L Hj. rewrite Hm', E2 in L. destruct (Nat.eq_dec c' c) as [->|Hne]; [rewrite lookup_remove_eq in L; discriminate|]. rewrite lookup_remove_ne in L by exact Hne.
          apply Hne. eapply (di_one _ _ _ I c' c k i); (split; [congruence|]); eapply Hm1; try (eapply pending_called; eassumption); assumption. }
        constructor; rewrite ?Eaf.
        -- intros id rid H Hj. rewrite sched_app, sched_sched in H. apply in_app_iff in H as [H|[H|[H|[]]]]; [|injection H as _ _ <-; reflexivity|discriminate H].
           assert (A := ai_one _ _ _ IH _ _ H Hj). destruct (ai_commit _ _ _ IH _ _ _ L0 Eh Ej) as [B|B]; congruence.
        -- intros c' q r L _ Hj. destruct (Alone _ _ L Hj).
        -- intros c' q L Hj. destruct (Alone _ _ L Hj).
      * constructor; rewrite ?Eaf.
        -- intros id rid H Hj. rewrite sched_app, sched_sched in H. apply in_app_iff in H as [H|[H|[H|[]]]]; [eapply (ai_one _ _ _ IH); eassumption| |discriminate H].
           injection H as <- Hh _. rewrite Hh in Eb. cbn [negb andb] in Eb. apply eqb_false in Eb. contradiction.
        -- intros c' q r L. rewrite Hm', E2 in L. destruct (Nat.eq_dec c' c) as [->|Hne]; [rewrite lookup_remove_eq in L; discriminate|]. rewrite lookup_remove_ne in L by exact Hne. eapply (ai_commit _ _ _ IH); exact L.
        -- intros c' q L. rewrite Hm', E2 in L. destruct (Nat.eq_dec c' c) as [->|Hne]; [rewrite lookup_remove_eq in L; discriminate|]. rewrite lookup_remove_ne in L by exact Hne. eapply (ai_pick _ _ _ IH); exact L.
Qed.
(** What a call that returned has to do with the history. *)
Lemma returned_scheduled ops d tr : run ops d tr -> forall c q r, In (EvReturned c q (Some r)) (sched_events tr) ->
  In (EvCalled c q) (sched_events tr) /\ In (EvScheduled (sq_step q) (runs_on_host (sq_container q)) (rm_id r)) (sched_events tr) /\ In r (sq_runners q) /\ lookup (rm_id r) (connected ops) = Some r.
Proof.
  intros R c q r H. destruct (sched_part _ _ _ _ _ _ R) as (sops & S & _). apply in_split in H as (pre & post & E).
  destruct (proj2 (pending_run _ _ _ S) _ _ _ _ _ E) as (before & mid & mid' & Ep & _ & A & mid0 & Em).
  assert (Hin : In r (sq_runners q)) by (inv A; try assumption; match goal with F : first_such _ _ _ |- _ => apply first_such_in in F; tauto end).
  assert (Hc : In (EvCalled c q) (sched_events tr)) by (rewrite E, Ep; apply in_or_app; left; apply in_or_app; right; left; reflexivity).
  split; [exact Hc|]. split; [|split; [exact Hin|eapply offered_connected; eassumption]].
  rewrite E, Ep, Em. apply in_or_app. left. apply in_or_app. right. right. apply in_or_app. right. apply in_or_app. right. left. reflexivity.
Qed.
Lemma one_runner ops d tr j k i : run ops d tr -> mine d tr j k i -> forall c q r c' q' r', In (EvReturned c q (Some r)) (sched_events tr) -> In (EvReturned c' q' (Some r')) (sched_events tr) ->
  step_id_job_id (sq_step q) = j -> step_id_job_id (sq_step q') = j -> ~ host_step q -> ~ host_step q' -> r = r'.
Proof.
  intros R Hm c q r c' q' r' H H' Hj Hj' Hh Hh'. destruct (returned_scheduled _ _ _ R _ _ _ H) as (_ & S & _ & L). destruct (returned_scheduled _ _ _ R _ _ _ H') as (_ & S' & _ & L').
  apply runs_on_host_false in Hh, Hh'. rewrite Hh in S. rewrite Hh' in S'. assert (I := ainv_run _ _ _ _ _ _ R Hm).
  assert (A := ai_one _ _ _ I _ _ S Hj). assert (B := ai_one _ _ _ I _ _ S' Hj'). rewrite A in B. injection B as B. rewrite B in L. congruence.
Qed.

(** *** Which runner *)
Lemma mine_given ops d tr j k i : run ops d tr -> (forall k' i' rc, In (gives k' i' rc) tr -> step_id_job_id (cmd_id (rx_command rc)) = j -> k' = k /\ i' = i) -> mine d tr j k i.
Proof.
  intros R H c q Hc Hj. apply in_split in Hc as (pre & post & E). destruct (called_about _ _ _ R _ _ _ _ E) as (k1 & i1 & l & ops1 & ops2 & rc & p1 & p2 & _ & Ha & _ & -> & _ & ->).
  destruct (H k1 i1 rc) as [-> ->]; [rewrite E; apply in_or_app; left; apply in_or_app; right; left; reflexivity|exact Hj|]. exists (Asking k i (connected ops1)). auto.
Qed.
Lemma sched_split tr : forall before e after, sched_events tr = before ++ e :: after -> exists p1 p2, tr = p1 ++ PSched e :: p2 /\ sched_events p1 = before.
Proof.
  induction tr as [|x tr IH]; intros before e after E; [destruct before; discriminate E|]. destruct x as [k x|x].
  - destruct (IH before e after E) as (p1 & p2 & -> & H). exists (PSeen k x :: p1), p2. auto.
  - change (x :: sched_events tr = before ++ e :: after) in E. destruct before as [|y before]; injection E as -> E.
    + exists [], tr. auto.
    + destruct (IH before e after E) as (p1 & p2 & -> & H). exists (PSched y :: p1), p2. split; [reflexivity|]. cbn. f_equal. exact H.
Qed.
Lemma affinity_offered ops d tr : run ops d tr -> forall before c q after a j, sched_events tr = before ++ EvCalled c q :: after -> affinity before j = Some a -> exists x, In x (sq_runners q) /\ rm_id x = a.
Proof.
  intros R before c q after a j E Ha. destruct (sched_split _ _ _ _ E) as (p1 & p2 & Et & <-).
  destruct (split_run _ _ _ _ _ _ R _ _ _ Et) as (ops1 & d1 & tr1 & op & d2 & o1 & o2 & ops2 & extra & R1 & Es & -> & -> & _).
  destruct (ask_moment _ _ _ R1 _ _ _ _ _ _ Es) as (k & i & l & st & -> & _ & -> & P & _ & -> & _). rewrite app_nil_r in Ha.
  destruct (affinity_connected _ _ _ R1 _ _ Ha) as (x & L & Hx). exists x. split; [|exact Hx]. cbn [request sq_runners]. eapply Permutation_in; [symmetry; exact P|].
  rewrite (di_clients _ _ _ (dinv_run _ _ _ _ _ _ R1)). apply (in_map snd _ _ (lookup_In _ _ _ L)).
Qed.
Lemma container_choice ops d tr : run ops d tr -> forall pre c q res post, sched_events tr = pre ++ EvReturned c q res :: post -> ~ host_step q ->
  exists before mid mid', pre = before ++ EvCalled c q :: mid ++ mid' /\ quiet c (mid ++ mid') /\
    match affinity before (step_id_job_id (sq_step q)) with
    | Some a => exists r, res = Some r /\ rm_id r = a /\ In r (sq_runners q)
    | None => match res with
              | Some r => first_least (fun x => rm_support_docker x = true) (fun x => picks (rm_id x) (before ++ EvCalled c q :: mid)) (sq_runners q) r
              | None => forall x, In x (sq_runners q) -> rm_support_docker x = false
              end
    end.
Proof.
  intros R pre c q res post E Hh. destruct (sched_part _ _ _ _ _ _ R) as (sops & S & _). destruct (proj2 (pending_run _ _ _ S) _ _ _ _ _ E) as (before & mid & mid' & Ep & Q & A & _).
  exists before, mid, mid'. split; [exact Ep|]. split; [exact Q|]. assert (Nd := proj1 (no_done _ _ _ _ _ _ R)).
  assert (Nd' : no_step_done (before ++ EvCalled c q :: mid)).
  { intros id H. apply (Nd id). rewrite E, Ep. apply in_or_app. left. rewrite app_comm_cons, app_assoc. apply in_or_app. left. exact H. }
  destruct (affinity before (step_id_job_id (sq_step q))) as [a|] eqn:Ha.
  - edestruct (affinity_offered _ _ _ R before c q) as (x & Hx & Hid); [rewrite E, Ep, <- app_assoc; reflexivity|exact Ha|].
    assert (Sx : sticky before q x) by (split; [rewrite Ha, Hid; reflexivity|intros C; contradiction]).
    inv A; try contradiction; try (match goal with N : forall x, In x _ -> ~ sticky _ _ x |- _ => destruct (N x Hx Sx) end).
    match goal with F : first_such _ _ _ |- _ => apply first_such_in in F as [Hin [Haff _]] end. exists r. split; [reflexivity|]. split; [congruence|exact Hin].
  - inv A; try contradiction; auto. match goal with F : first_such _ _ _ |- _ => apply first_such_in in F as [Hin [Haff _]] end. congruence.
Qed.

(** A step that the runner was given waits until a call for it has been answered. *)
Lemma given_waits ops d tr : run ops d tr -> forall pre k i rc post, tr = pre ++ gives k i rc :: post -> (forall c q r, In (PSched (EvReturned c q r)) post -> ~ made_for d c k i) ->
  exists st, wanting (dp_fleet d) k i = Some st /\ rx_command rc = command_of_step st.
Proof.
  induction 1 as [|ops d tr op d' o R IH E]; intros pre k i rc post Eq Hn; [destruct pre; discriminate|].
  assert (R' : run (ops ++ [op]) d' (tr ++ o)) by (eapply dispatch_step; eassumption).
  assert (I := dinv_run _ _ _ _ _ _ R). destruct (asked_grows _ _ _ _ _ _ E) as [extra Ex].
  assert (Back : forall asked a m o1, went cl glob d d' asked a m o1 o -> o = map PSched o1 /\ dp_asked d' = asked /\
     ((answered o1 = None /\ dp_fleet d' = dp_fleet d) \/ (answered o1 <> None /\ forall k i, (k, i) <> (as_run a, as_job a) -> wanting (dp_fleet d') k i = wanting (dp_fleet d) k i))).
  { intros asked a m o1 [H -> ->|r f H _ -> -> _ _ _ Hother]; (split; [reflexivity|]); (split; [reflexivity|]); [left; auto|right]. split; [congruence|exact Hother]. }
  assert (Old : forall post0, post = post0 ++ o -> tr = pre ++ gives k i rc :: post0 -> exists st, wanting (dp_fleet d) k i = Some st /\ rx_command rc = command_of_step st).
  { intros post0 -> Etr. eapply IH; [exact Etr|]. intros c q r Hin M. eapply (Hn c q r); [apply in_or_app; left; exact Hin|]. eapply (made_more d d' extra); [exact Ex| |exact M].
    destruct M as (a & Ea & _). apply nth_error_Some. congruence. }
  assert (Sched : forall o1, o = map PSched o1 -> exists post0, post = post0 ++ o /\ tr = pre ++ gives k i rc :: post0).
  { intros o1 ->. apply app_eq_app in Eq as (l & [[-> Eq]|[-> Eq]]).
    - destruct l as [|x l]; [|injection Eq as <- ->; eauto]. destruct o1; discriminate Eq.
    - exfalso. assert (C : In (gives k i rc) (map PSched o1)) by (rewrite Eq; apply in_or_app; right; left; reflexivity). apply in_map_iff in C as (y & C & _). discriminate C. }
  destruct op as [a|fo|k1 i1 l|c]; cbn [pstep] in E.
  - injection E as <- <-. destruct (Sched [] eq_refl) as (post0 & H1 & H2). exact (Old post0 H1 H2).
  - destruct (picks_runner fo) eqn:Ep; [discriminate|]. destruct (fs (dp_fleet d) fo) as [[f x]|] eqn:Ef; [|discriminate]. injection E as <- <-. cbn [dp_fleet].
    destruct (fleet_cases _ _ _ _ _ _ (di_tidy _ _ _ I) Ef) as [_ Hw]. apply app_eq_app in Eq as (l & [[-> Eq]|[-> Eq]]).
    + destruct l as [|y l].
      * cbn [app] in Eq. destruct x as [|[k2 y] x]; [discriminate Eq|]. cbn [map fst snd] in Eq. unfold gives in Eq. injection Eq as Ek Ey _. subst k2 y.
        destruct (Hw k i) as [(_ & C & _)|[(st & rc' & _ & W & [= <- ->] & Hc)|(? & ? & ? & -> & _)]]; [destruct (C rc (or_introl eq_refl))|eauto|discriminate Ep].
      * injection Eq as <- ->. destruct (Old l eq_refl eq_refl) as (st & W & Hc). destruct (Hw k i) as [(E1 & _)|[(st' & rc' & C & _)|(? & ? & ? & -> & _)]]; [|congruence|discriminate Ep].
        exists st. rewrite E1. auto.
    + assert (C : In (k, (Some i, inr (ORun rc))) x).
      { assert (C : In (gives k i rc) (map (fun y : nat * sysobs (iobs := obs) => PSeen (fst y) (snd y)) x)) by (rewrite Eq; apply in_or_app; right; left; reflexivity).
        apply in_map_iff in C as ([k2 y] & C & Hy). unfold gives in C. cbn in C. injection C as -> ->. exact Hy. }
      destruct (Hw k i) as [(_ & N & _)|[(st & rc' & _ & W & -> & Hc)|(? & ? & ? & -> & _)]]; [destruct (N rc C)| |discriminate Ep].
      destruct C as [[= ->]|[]]. eauto.
  - destruct (wanting (dp_fleet d) k1 i1) as [st1|] eqn:W1; [|discriminate]. destruct (_ || _); [discriminate|].
    destruct (smach_step (dp_sched d) (SBegin (length (dp_asked d)) (request l st1))) as [[m o1]|] eqn:Es; [|discriminate].
    destruct (Back _ _ _ _ (then_went _ _ _ _ _ _ _ _ _ (di_tidy _ _ _ I) E)) as (-> & Ha & Hcase). destruct (Sched _ eq_refl) as (post0 & H1 & H2). destruct (Old post0 H1 H2) as (st & W & Hc).
    exists st. split; [|exact Hc]. destruct Hcase as [[_ ->]|[Hans Hother]]; [exact W|]. rewrite Hother; [exact W|]. cbn [as_run as_job]. intros [= -> ->].
    destruct (first_section _ _ _ _ _ Es) as (_ & _ & [(k' & _ & _ & _ & Eo)|[_ Eo]]); rewrite Eo in Hans; [apply Hans; reflexivity|].
    eapply (Hn (length (dp_asked d))); [rewrite H1, Eo; apply in_or_app; right; right; left; reflexivity|]. exists (Asking k1 i1 (dp_clients d)). rewrite Ha, nth_error_app2, Nat.sub_diag by lia. auto.
  - destruct (nth_error (dp_asked d) c) as [a|] eqn:Ea; [|discriminate]. destruct (smach_step (dp_sched d) (SNext c)) as [[m o1]|] eqn:Es; [|discriminate].
    destruct (Back _ _ _ _ (then_went _ _ _ _ _ _ _ _ _ (di_tidy _ _ _ I) E)) as (-> & Ha & Hcase). destruct (Sched _ eq_refl) as (post0 & H1 & H2). destruct (Old post0 H1 H2) as (st & W & Hc).
    exists st. split; [|exact Hc]. destruct Hcase as [[_ ->]|[Hans Hother]]; [exact W|]. rewrite Hother; [exact W|]. intros [= -> ->].
    assert (Hret : exists q r, In (EvReturned c q r) o1).
    { destruct (next_section _ _ _ _ Es) as (x0 & _ & [(q0 & r0 & _ & _ & _ & _ & ->)|[(q0 & _ & _ & _ & ->)|(q0 & r0 & _ & _ & _ & ->)]]); [destruct (Hans eq_refl)|eexists _, _; left; reflexivity|eexists _, _; right; left; reflexivity]. }
    destruct Hret as (q & r & Hret). eapply (Hn c); [rewrite H1; apply in_or_app; right; apply in_map, Hret|]. exists a. rewrite Ha. auto.
Qed.
End M.
