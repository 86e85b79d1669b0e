From Coq Require Import Sorting.Permutation.
From Verif Require Import Base Types Signals_model Signals_proof Stream_model Cond_model Plugins_model Exec_model Workflow_model Workflow_proof Runner_model Sched_model Sched_spec Sched_proof
  Remote_model Remote_spec Remote_proof Distant_model System_model System_spec System_proof System_inst Fleet_model Fleet_spec Dispatch_model Dispatch_spec Dispatch_proof Dispatch_main
  Farm_model Farm_spec.

(** A call of the scheduler that has not returned: what it is about. *)
Definition waiting (d : dispatch) (tr : list pobs) (c : nat) (x : call) : Prop :=
  exists a st l rc pre mid mid', nth_error (dp_asked d) c = Some a /\ wanting (dp_fleet d) (as_run a) (as_job a) = Some st /\ rx_command rc = command_of_step st /\
    call_req x = asks_about l rc /\ Permutation l (map snd (as_clients a)) /\ in_offer x /\
    tr = pre ++ gives (as_run a) (as_job a) rc :: mid ++ PSched (EvCalled c (asks_about l rc)) :: mid' /\ forall rc', ~ In (gives (as_run a) (as_job a) rc') (mid ++ mid').
Lemma waiting_more d tr c x d' o x' extra : waiting d tr c x -> dp_asked d' = dp_asked d ++ extra -> call_req x' = call_req x -> in_offer x' ->
  (forall a, nth_error (dp_asked d) c = Some a -> wanting (dp_fleet d') (as_run a) (as_job a) = wanting (dp_fleet d) (as_run a) (as_job a) /\ forall rc, ~ In (gives (as_run a) (as_job a) rc) o) ->
  waiting d' (tr ++ o) c x'.
Proof.
  intros (a & st & l & rc & pre & mid & mid' & H1 & H2 & H3 & H4 & H5 & H6 & H7 & H8) E Eq Hi H. destruct (H a H1) as [Hw Hn].
  exists a, st, l, rc, pre, mid, (mid' ++ o). split; [rewrite E, nth_error_app1; [exact H1|apply nth_error_Some; congruence]|]. split; [congruence|]. split; [exact H3|]. split; [congruence|].
  split; [exact H5|]. split; [exact Hi|]. split; [rewrite H7, <- !app_assoc; cbn [app]; rewrite <- !app_assoc; reflexivity|].
  intros rc' Hin. rewrite app_assoc in Hin. apply in_app_iff in Hin as [Hin|Hin]; [exact (H8 rc' Hin)|exact (Hn rc' Hin)].
Qed.
Lemma no_gives_sched k i rc o : ~ In (gives k i rc) (map PSched o).
Proof. intros H. apply in_map_iff in H as (e & C & _). discriminate C. Qed.

Section W.
Variables (cl : task -> task) (glob : glob_oracle) (now : time).
Notation ps := (pstep cl glob).
Notation run := (dispatch_run cl glob now).
Notation fs := (remote_fleet_step cl glob).

Lemma waiting_run ops d tr : run ops d tr -> forall c x, lookup c (sm_calls (dp_sched d)) = Some x -> waiting d tr c x.
Proof.
  induction 1 as [|ops d tr op d' o R IH E]; [intros c x C; discriminate C|]. assert (I := dinv_run _ _ _ _ _ _ R). intros c x L.
  destruct op as [a|fo|k i l|c0]; cbn [pstep] in E.
  - injection E as <- <-. cbn [dp_sched] in L. eapply waiting_more with (extra := []); [exact (IH c x L)|symmetry; apply app_nil_r|reflexivity| |intros a0 _; split; [reflexivity|intros rc []]].
    destruct (IH c x L) as (_ & _ & _ & _ & _ & _ & _ & _ & _ & _ & _ & _ & H & _). exact H.
  - destruct (picks_runner fo) eqn:Ep; [discriminate|]. destruct (fs (dp_fleet d) fo) as [[f y]|] eqn:Ef; [|discriminate]. injection E as <- <-. cbn [dp_sched] in L.
    destruct (fleet_cases _ _ _ _ _ _ (di_tidy _ _ _ I) Ef) as [_ Hw]. assert (W := IH c x L). destruct W as (a & st & l & rc & pre & mid & mid' & H1 & H2 & H3 & H4 & H5 & H6 & H7 & H8).
    eapply waiting_more with (extra := []); [exact (IH c x L)|symmetry; apply app_nil_r|reflexivity|exact H6|]. intros a0 Ea. rewrite H1 in Ea. injection Ea as <-. cbn [dp_fleet].
    destruct (Hw (as_run a) (as_job a)) as [(K1 & K2 & _)|[(st' & rc' & K & _)|(cs & p & st' & -> & _)]]; [|congruence|discriminate Ep].
    split; [exact K1|]. intros rc' Hin. apply in_map_iff in Hin as ([k' y'] & Hy & Hin). cbn [fst snd] in Hy. unfold gives in Hy. injection Hy as -> ->. exact (K2 rc' Hin).
  - destruct (wanting (dp_fleet d) k i) as [st|] eqn:W; [|discriminate]. destruct (asked_for d k i) eqn:Eaf; [discriminate|]. cbn [orb] in E.
    destruct (reordered l (map snd (dp_clients d))) eqn:Er; [|discriminate]. cbn [negb] in E. apply reordered_spec in Er.
    destruct (smach_step (dp_sched d) (SBegin (length (dp_asked d)) (request l st))) as [[m o1]|] eqn:Es; [|discriminate].
    assert (Np : forall c', ~ pending d c' k i) by (intros c' P; assert (C : asked_for d k i = true) by (apply asked_for_spec; eauto); congruence).
    destruct (first_section _ _ _ _ _ Es) as (Hfree & _ & Hcase). assert (W2 := then_went _ _ _ _ _ _ _ _ _ (di_tidy _ _ _ I) E).
    assert (Sum : dp_sched d' = m /\ o = map PSched o1 /\ dp_asked d' = dp_asked d ++ [Asking k i (dp_clients d)] /\ (forall k' i', (k', i') <> (k, i) -> wanting (dp_fleet d') k' i' = wanting (dp_fleet d) k' i') /\ (answered o1 = None -> dp_fleet d' = dp_fleet d)).
    { destruct W2 as [Ho -> ->|r f Ho Ef -> -> Hf Hwant Hnone Hother]; cbn [dp_sched dp_asked dp_fleet]; repeat split; auto. congruence. }
    destruct Sum as (Sm & -> & Sa & Sw & Sf). rewrite Sm in L.
    destruct (Nat.eq_dec c (length (dp_asked d))) as [->|Hne].
    + destruct Hcase as [(k' & E2 & Hq & Hi & ->)|[E2 _]]; [|rewrite E2, lookup_remove_eq in L; discriminate]. rewrite E2, lookup_insert_eq in L. injection L as <-.
      destruct (di_want _ _ _ I k i st W Np) as (rc & p1 & p2 & -> & [Hn _] & Hc). exists (Asking k i (dp_clients d)), st, l, rc, p1, p2, [].
      split; [rewrite Sa, nth_error_app2, Nat.sub_diag by lia; reflexivity|]. cbn [as_run as_job as_clients]. split; [rewrite (Sf eq_refl); exact W|]. split; [exact Hc|].
      assert (Eq : request l st = asks_about l rc) by (unfold request, asks_about; rewrite Hc; reflexivity). split; [congruence|]. split; [exact Er|]. split; [exact Hi|].
      split; [cbn [map]; rewrite Eq, <- app_assoc; reflexivity|]. rewrite app_nil_r. exact Hn.
    + assert (L' : lookup c (sm_calls (dp_sched d)) = Some x) by (destruct Hcase as [(k' & E2 & _)|[E2 _]]; rewrite E2 in L; [rewrite lookup_insert_ne in L by exact Hne|rewrite lookup_remove_ne in L by exact Hne]; exact L).
      assert (V := IH c x L'). destruct V as (a & st' & l' & rc & pre & mid & mid' & H1 & H2 & H3 & H4 & H5 & H6 & H7 & H8).
      eapply waiting_more with (extra := [Asking k i (dp_clients d)]); [exact (IH c x L')|exact Sa|reflexivity|exact H6|]. intros a0 Ea. rewrite H1 in Ea. injection Ea as <-. split; [|intros rc'; apply no_gives_sched].
      apply Sw. intros [= C1 C2]. apply (Np c). split; [congruence|]. exists a. auto.
  - destruct (nth_error (dp_asked d) c0) as [a|] eqn:Ea; [|discriminate]. destruct (smach_step (dp_sched d) (SNext c0)) as [[m o1]|] eqn:Es; [|discriminate].
    destruct (next_section _ _ _ _ Es) as (k0 & L0 & Hcase). assert (W2 := then_went _ _ _ _ _ _ _ _ _ (di_tidy _ _ _ I) E).
    assert (Sum : dp_sched d' = m /\ o = map PSched o1 /\ dp_asked d' = dp_asked d /\ (forall k' i', (k', i') <> (as_run a, as_job a) -> wanting (dp_fleet d') k' i' = wanting (dp_fleet d) k' i') /\ (answered o1 = None -> dp_fleet d' = dp_fleet d)).
    { destruct W2 as [Ho -> ->|r f Ho Ef -> -> Hf Hwant Hnone Hother]; cbn [dp_sched dp_asked dp_fleet]; repeat split; auto. congruence. }
    destruct Sum as (Sm & -> & Sa & Sw & Sf). rewrite Sm in L. destruct (Nat.eq_dec c c0) as [->|Hne].
    + destruct Hcase as [(q0 & r & -> & Hr & _ & E2 & ->)|[(q0 & _ & _ & E2 & _)|(q0 & r & _ & _ & E2 & _)]]; [|rewrite E2, lookup_remove_eq in L; discriminate..].
      rewrite E2, lookup_insert_eq in L. injection L as <-.
      eapply waiting_more with (extra := []); [exact (IH _ _ L0)|rewrite app_nil_r; exact Sa|reflexivity|exact Hr|]. intros a0 Ea0. split; [rewrite (Sf eq_refl); reflexivity|intros rc []].
    + assert (L' : lookup c (sm_calls (dp_sched d)) = Some x).
      { destruct Hcase as [(q0 & r & _ & _ & _ & E2 & _)|[(q0 & _ & _ & E2 & _)|(q0 & r & _ & _ & E2 & _)]]; rewrite E2 in L; [rewrite lookup_insert_ne in L by exact Hne|rewrite lookup_remove_ne in L by exact Hne..]; exact L. }
      assert (V := IH c x L'). destruct V as (a1 & st' & l' & rc & pre & mid & mid' & H1 & H2 & H3 & H4 & H5 & H6 & H7 & H8).
      eapply waiting_more with (extra := []); [exact (IH c x L')|rewrite app_nil_r; exact Sa|reflexivity|exact H6|]. intros a0 Ea0. rewrite H1 in Ea0. injection Ea0 as <-. split; [|intros rc'; apply no_gives_sched].
      apply Sw. intros [= C1 C2]. apply Hne. apply (di_one _ _ _ I c c0 (as_run a) (as_job a)); (split; [congruence|]); [exists a1|exists a]; auto.
Qed.

Lemma placed_more asked tr k i rc res extra o : placed asked tr k i rc res -> placed (asked ++ extra) (tr ++ o) k i rc res.
Proof.
  intros (c & l & a & pre & mid & mid' & post & -> & Ha & H). exists c, l, a, pre, mid, mid', (post ++ o). split; [|split; [rewrite nth_error_app1; [exact Ha|apply nth_error_Some; congruence]|exact H]].
  repeat (rewrite <- !app_assoc; cbn [app]). reflexivity.
Qed.
(** The moments at which an answer is given. *)
Lemma ask_placed ops d tr k i st l m o r : run ops d tr -> wanting (dp_fleet d) k i = Some st -> asked_for d k i = false ->
  smach_step (dp_sched d) (SBegin (length (dp_asked d)) (request l st)) = Some (m, o) -> answered o = Some r ->
  exists rc, rx_command rc = command_of_step st /\ placed (dp_asked d ++ [Asking k i (dp_clients d)]) (tr ++ map PSched o) k i rc r /\ r = None.
Proof.
  intros R W Eaf Es Ho. assert (I := dinv_run _ _ _ _ _ _ R). assert (Np : forall c', ~ pending d c' k i) by (intros c' P; assert (C : asked_for d k i = true) by (apply asked_for_spec; eauto); congruence).
  destruct (first_section _ _ _ _ _ Es) as (_ & _ & [(k' & _ & _ & _ & ->)|[_ ->]]); [discriminate Ho|]. injection Ho as <-.
  destruct (di_want _ _ _ I k i st W Np) as (rc & p1 & p2 & -> & [Hn _] & Hc). exists rc. split; [exact Hc|]. split; [|reflexivity].
  assert (Eq : request l st = asks_about l rc) by (unfold request, asks_about; rewrite Hc; reflexivity).
  exists (length (dp_asked d)), l, (Asking k i (dp_clients d)), p1, p2, [], []. split; [cbn [map app]; rewrite Eq, <- app_assoc; reflexivity|].
  split; [rewrite nth_error_app2, Nat.sub_diag by lia; reflexivity|]. split; [reflexivity|]. split; [reflexivity|]. rewrite app_nil_r. exact Hn.
Qed.
Lemma lock_placed ops d tr c a m o r : run ops d tr -> nth_error (dp_asked d) c = Some a -> smach_step (dp_sched d) (SNext c) = Some (m, o) -> answered o = Some r ->
  exists st rc, wanting (dp_fleet d) (as_run a) (as_job a) = Some st /\ rx_command rc = command_of_step st /\ placed (dp_asked d) (tr ++ map PSched o) (as_run a) (as_job a) rc r /\
    forall x, r = Some x -> lookup (rm_id x) (as_clients a) = Some x.
Proof.
  intros R Ea Es Ho. assert (I := dinv_run _ _ _ _ _ _ R). destruct (next_section _ _ _ _ Es) as (k0 & L0 & Hcase).
  destruct (waiting_run _ _ _ R _ _ L0) as (a1 & st & l & rc & pre & mid & mid' & H1 & H2 & H3 & H4 & H5 & H6 & -> & H8). rewrite Ea in H1. injection H1 as <-.
  exists st, rc. split; [exact H2|]. split; [exact H3|]. destruct (di_snap _ _ _ I a (nth_error_In _ _ Ea)) as (S1 & S2 & _).
  assert (Pl : forall more, (forall rc', ~ In (gives (as_run a) (as_job a) rc') more) ->
    placed (dp_asked d) ((pre ++ gives (as_run a) (as_job a) rc :: mid ++ PSched (EvCalled c (asks_about l rc)) :: mid') ++ more ++ [PSched (EvReturned c (asks_about l rc) r)]) (as_run a) (as_job a) rc r).
  { intros more Hm. exists c, l, a, pre, mid, (mid' ++ more), []. split; [repeat (rewrite <- !app_assoc; cbn [app]); reflexivity|]. repeat (split; [auto|]).
    intros rc' Hin. rewrite app_assoc in Hin. apply in_app_iff in Hin as [Hin|Hin]; [exact (H8 rc' Hin)|exact (Hm rc' Hin)]. }
  destruct Hcase as [(q0 & r0 & _ & _ & _ & _ & ->)|[(q0 & -> & _ & _ & ->)|(q0 & r0 & -> & _ & _ & ->)]]; [discriminate Ho| |]; injection Ho as <-; cbn [call_req in_offer] in *; subst q0.
  - split; [exact (Pl [] (fun _ H => H))|discriminate].
  - split; [|intros x [= <-]; eapply offered_found; eassumption]. cbn [map]. apply (Pl [PSched (EvScheduled _ _ _)]). intros rc' [C|[]]. discriminate C.
Qed.
End W.
