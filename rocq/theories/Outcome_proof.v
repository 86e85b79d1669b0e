(** Proofs for C116. *)
From Verif Require Import Base Types Signals_model Cond_model Config_model Plugins_model Exec_model Exec_spec
  Step_proof Job_proof Job_props Workflow_model Workflow_spec Workflow_proof Workflow_inv Workflow_term Workflow_props Outcome_spec.

Lemma in_events_of (w : who) (tr : trace) o : In o (events_of w tr) <-> In (w, o) tr.
Proof.
  unfold events_of. rewrite in_flat_map. split.
  - intros ([w' o'] & H & Ho). cbn [fst snd] in Ho. destruct (eqb w' w) eqn:E; [|destruct Ho]. apply (proj1 (eqb_true _ _)) in E. subst. destruct Ho as [<-|[]]. exact H.
  - intros H. exists (w, o). split; [exact H|]. cbn [fst snd]. rewrite Base.eqb_refl. left. reflexivity.
Qed.

Lemma mirrors_not_skipped rr x : mirrors rr x -> sr_state x <> Skipped.
Proof. destruct rr; cbn [mirrors]; intros [-> _]; discriminate. Qed.
Lemma ran_not_skipped cx st evs x : step_story cx st evs x -> sr_state x <> Skipped.
Proof.
  intros (s & t0 & t1 & _ & _ & _ & _ & _ & [(-> & _)|(rr & logs & M & _)]); [discriminate|]. eapply mirrors_not_skipped; eauto.
Qed.

Definition is_failed (s : wf_state) : bool := match s with Failed => true | _ => false end.
Definition is_cancelled (s : wf_state) : bool := match s with Cancelled => true | _ => false end.
Lemma any_state (f : wf_state -> bool) (s : wf_state) (rs : list step_run_result) : (forall x, f x = true <-> x = s) ->
  existsb f (map sr_state rs) = true <-> exists r, In r rs /\ sr_state r = s.
Proof.
  intros Hf. rewrite existsb_exists. split.
  - intros (x & H & E). apply in_map_iff in H as (r & <- & H). exists r. split; [exact H|]. apply Hf. exact E.
  - intros (r & H & E). exists (sr_state r). split; [apply in_map; exact H|]. apply Hf. exact E.
Qed.
Lemma any_cancelled (rs : list step_run_result) : existsb is_cancelled (map sr_state rs) = true <-> exists r, In r rs /\ sr_state r = Cancelled.
Proof. apply any_state. intros []; cbn; split; congruence. Qed.
Lemma any_failed (rs : list step_run_result) : existsb is_failed (map sr_state rs) = true <-> exists r, In r rs /\ sr_state r = Failed.
Proof. apply any_state. intros []; cbn; split; congruence. Qed.

Lemma final_verdict rs s : final_state rs s -> s = job_verdict (map sr_state rs).
Proof.
  unfold job_verdict. fold is_cancelled is_failed. change (fun s0 : wf_state => match s0 with Cancelled => true | _ => false end) with is_cancelled.
  change (fun s0 : wf_state => match s0 with Failed => true | _ => false end) with is_failed.
  intros [[H ->]|[(H1 & H2 & ->)|[H ->]]].
  - apply any_cancelled in H. rewrite H. reflexivity.
  - destruct (existsb is_cancelled _) eqn:E; [apply any_cancelled in E as (r & Hr & E); destruct (H1 r Hr E)|].
    apply any_failed in H2. rewrite H2. reflexivity.
  - destruct (existsb is_cancelled _) eqn:E; [apply any_cancelled in E as (r & Hr & E); destruct (H r Hr) as [K _]; destruct (K E)|].
    destruct (existsb is_failed _) eqn:E'; [apply any_failed in E' as (r & Hr & E'); destruct (H r Hr) as [_ K]; destruct (K E')|]. reflexivity.
Qed.

Section P.
Variable matches : condition -> bool.
Variable res : string -> nat -> wf_state.

Lemma lets_allowed on check : lets_run on check -> (forall c b, In (OMatch c b) check -> b = matches c) -> allowed matches on = true.
Proof. destruct on as [c|]; cbn [lets_run allowed]; [|reflexivity]. intros -> H. symmetry. apply H. left. reflexivity. Qed.

Lemma steps_out cx k : forall earlier sts evs rs, steps_story (step_story cx) earlier sts evs rs ->
  (forall c b, In (OMatch c b) evs -> b = matches c) ->
  forall n, (forall m x, nth_error rs m = Some x -> sr_state x <> Skipped -> sr_state x = res k (n + m)) ->
  map sr_state rs = step_outcomes matches res k n (existsb is_failed (map sr_state earlier)) (existsb is_cancelled (map sr_state earlier)) sts.
Proof.
  assert (Next : forall earlier (r : step_run_result) f, existsb f (map sr_state (earlier ++ [r])) = existsb f (map sr_state earlier) || f (sr_state r)).
  { intros. rewrite map_app, existsb_app. cbn. rewrite orb_false_r. reflexivity. }
  assert (Tail : forall n (r : step_run_result) rs, (forall m x, nth_error (r :: rs) m = Some x -> sr_state x <> Skipped -> sr_state x = res k (n + m)) ->
     forall m x, nth_error rs m = Some x -> sr_state x <> Skipped -> sr_state x = res k (S n + m)).
  { intros n r rs H m x Hm. specialize (H (S m) x Hm). replace (S n + m) with (n + S m) by lia. exact H. }
  induction 1 as [earlier|earlier st rest r evs rs Hm Hs Hr IH|earlier st rest c r evs rs Hm Ho Hs Hr IH|earlier st rest check sevs r evs rs Hm Hl Hst Hr IH];
    intros HM n HR; [reflexivity|..]; cbn [map step_outcomes].
  - assert (E : sr_state r = Skipped) by (destruct Hs as (_ & E & _); exact E).
    rewrite (IH (fun c b H => HM c b (or_intror H)) (S n) (Tail _ _ _ HR)), !Next, E. cbn [is_failed is_cancelled]. rewrite !orb_false_r.
    replace (if existsb is_cancelled (map sr_state earlier) then _ else _) with Skipped; [reflexivity|].
    destruct Hm as [H|[H Hc]]; [apply any_cancelled in H; rewrite H; reflexivity|]. apply any_failed in H. rewrite H, Hc. destruct (existsb is_cancelled (map sr_state earlier)); reflexivity.
  - assert (E : sr_state r = Skipped) by (destruct Hs as (_ & E & _); exact E).
    assert (Ec := HM c false (or_introl eq_refl)).
    rewrite (IH (fun c b H => HM c b (or_intror (or_intror H))) (S n) (Tail _ _ _ HR)), !Next, E. cbn [is_failed is_cancelled]. rewrite !orb_false_r.
    rewrite Ho. cbn [allowed]. rewrite <- Ec. destruct (existsb is_cancelled (map sr_state earlier)); [reflexivity|]. destruct (existsb is_failed (map sr_state earlier) && _); reflexivity.
  - assert (Ha : allowed matches (st_on st) = true).
    { eapply lets_allowed; [exact Hl|]. intros c b H. apply HM. apply in_or_app. left. exact H. }
    assert (Ns := ran_not_skipped _ _ _ _ Hst). assert (E := HR 0 r eq_refl Ns). rewrite Nat.add_0_r in E.
    rewrite (IH (fun c b H => HM c b (in_or_app _ _ _ (or_intror (in_or_app _ _ _ (or_intror H))))) (S n) (Tail _ _ _ HR)), !Next, Ha.
    assert (Ec : existsb is_cancelled (map sr_state earlier) = false).
    { destruct (existsb is_cancelled (map sr_state earlier)) eqn:Ec; [|reflexivity]. exfalso. apply Hm. left. apply any_cancelled. exact Ec. }
    assert (Ef : existsb is_failed (map sr_state earlier) && negb (st_continue_on_error st) = false).
    { destruct (existsb is_failed (map sr_state earlier)) eqn:Ef; [|reflexivity]. destruct (st_continue_on_error st) eqn:Es; [reflexivity|]. exfalso. apply Hm. right.
      split; [apply any_failed; exact Ef|exact Es]. }
    rewrite Ec, Ef, <- E. cbn [orb]. f_equal. f_equal; destruct (sr_state r); cbn [is_failed is_cancelled orb]; auto using orb_false_r, orb_true_r.
Qed.

Lemma job_out cx k j evs r : job_story cx j evs r -> (forall c b, In (OMatch c b) evs -> b = matches c) ->
  (forall m x, nth_error (jr_steps r) m = Some x -> sr_state x <> Skipped -> sr_state x = res k m) ->
  (jr_state r, map sr_state (jr_steps r)) = job_outcome matches res k j.
Proof.
  unfold job_story, job_outcome. intros [c Ho|check es rs s t0 t1 Hl Hs Hf Ht] HM HR.
  - rewrite Ho. cbn [allowed]. rewrite <- (HM c false (or_introl eq_refl)). reflexivity.
  - rewrite (lets_allowed _ _ Hl) by (intros c b H; apply HM; apply in_or_app; left; exact H).
    cbn [jr_state jr_steps] in *. assert (E : map sr_state rs = step_outcomes matches res k 0 false false (jb_steps j)).
    { apply (steps_out cx k [] _ _ _ Hs); [|exact HR]. intros c b H. apply HM. apply in_or_app. right. apply in_or_app. right. apply in_or_app. left. exact H. }
    subst r0. cbn [jr_state jr_steps]. rewrite (final_verdict _ _ Hf), E. reflexivity.
Qed.
End P.
