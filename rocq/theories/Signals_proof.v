From Verif Require Import Base Types Ids_model Signals_model Signals_spec.

Lemma sig_after_snoc ops o : sig_after (ops ++ [o]) = fst (sig_step (sig_after ops) o).
Proof. unfold sig_after. rewrite fold_left_snoc; reflexivity. Qed.

Lemma never_raised_nil : never_raised [].
Proof. intros o []. Qed.
Lemma never_raised_snoc ops o : never_raised (ops ++ [o]) <-> never_raised ops /\ raises o = None.
Proof.
  unfold never_raised, is_raise. split.
  - intros H; split; [intros o' Ho'; apply H, in_or_app; auto|].
    destruct (raises o) eqn:E; [|reflexivity]. exfalso; apply (H o); [apply in_or_app; cbn; auto|congruence].
  - intros [H E] o' Ho'. apply in_app_or in Ho' as [?|[<-|[]]]; [auto|congruence].
Qed.

Lemma first_raised_snoc ops o s :
  first_raised (ops ++ [o]) s <-> first_raised ops s \/ (never_raised ops /\ raises o = Some s).
Proof.
  unfold first_raised. split.
  - intros (pre & o' & post & E & Hn & Hr).
    destruct post as [|x post _] using rev_ind.
    + apply app_inj_tail in E as [-> ->]. right; auto.
    + rewrite app_comm_cons, app_assoc in E. apply app_inj_tail in E as [-> ->]. left; exists pre, o', post; auto.
  - intros [(pre & o' & post & -> & Hn & Hr)|[Hn Hr]].
    + exists pre, o', (post ++ [o]). rewrite <- app_assoc. auto.
    + exists ops, o, []. auto.
Qed.

Lemma undelivered_snoc ops o s :
  undelivered (ops ++ [o]) s <->
  (undelivered ops s /\ ~ is_poll o) \/ (never_raised ops /\ raises o = Some s).
Proof.
  unfold undelivered. split.
  - intros (pre & o' & post & E & Hn & Hr & Hp).
    destruct post as [|x post _] using rev_ind.
    + apply app_inj_tail in E as [-> ->]. right; auto.
    + rewrite app_comm_cons, app_assoc in E. apply app_inj_tail in E as [-> ->]. left.
      split; [|apply Hp, in_or_app; cbn; auto].
      exists pre, o', post. repeat split; auto. intros p Hi; apply Hp, in_or_app; auto.
  - intros [[(pre & o' & post & -> & Hn & Hr & Hp) Ho]|[Hn Hr]].
    + exists pre, o', (post ++ [o]). rewrite <- app_assoc. repeat split; auto.
      intros p Hi. apply in_app_or in Hi as [?|[<-|[]]]; auto.
    + exists ops, o, []. cbn; auto.
Qed.

Lemma last_poller_snoc ops o t :
  last_poller (ops ++ [o]) t <-> o = OPoll t \/ (last_poller ops t /\ ~ is_poll o).
Proof.
  unfold last_poller. split.
  - intros (pre & post & E & Hp).
    destruct post as [|x post _] using rev_ind.
    + apply app_inj_tail in E as [-> ->]. left; auto.
    + rewrite app_comm_cons, app_assoc in E. apply app_inj_tail in E as [-> ->]. right.
      split; [|apply Hp, in_or_app; cbn; auto].
      exists pre, post. repeat split; auto. intros p Hi; apply Hp, in_or_app; auto.
  - intros [->|[(pre & post & -> & Hp) Ho]].
    + exists ops, []. cbn; auto.
    + exists pre, (post ++ [o]). rewrite <- app_assoc. repeat split; auto.
      intros p Hi. apply in_app_or in Hi as [?|[<-|[]]]; auto.
Qed.

Lemma is_poll_dec o : {is_poll o} + {~ is_poll o}.
Proof. destruct o; try (right; intros [? ?]; discriminate). left; eexists; reflexivity. Qed.

(** The state after a history, in terms of the history only. *)
Record sig_inv (ops : list sig_op) : Prop := {
  si_none : sg_signal (sig_after ops) = None <-> never_raised ops;
  si_some : forall s, sg_signal (sig_after ops) = Some s <-> first_raised ops s;
  si_undel : forall s, (sg_notified (sig_after ops) = false /\ sg_signal (sig_after ops) = Some s) <-> undelivered ops s;
  si_notified : sg_notified (sig_after ops) = true -> exists s, sg_signal (sig_after ops) = Some s;
  si_waker : sg_signal (sig_after ops) = None -> forall t, sg_waker (sig_after ops) = Some t <-> last_poller ops t
}.

Lemma first_raised_nil s : ~ first_raised [] s.
Proof. intros (pre & o & post & E & _); destruct pre; discriminate. Qed.
Lemma undelivered_nil s : ~ undelivered [] s.
Proof. intros (pre & o & post & E & _); destruct pre; discriminate. Qed.
Lemma last_poller_nil t : ~ last_poller [] t.
Proof. intros (pre & post & E & _); destruct pre; discriminate. Qed.

Lemma first_raised_not_never ops s : first_raised ops s -> ~ never_raised ops.
Proof.
  intros (pre & o & post & -> & _ & Hr) Hn. apply (Hn o); [apply in_or_app; cbn; auto|].
  unfold is_raise; congruence.
Qed.
Lemma undelivered_first ops s : undelivered ops s -> first_raised ops s.
Proof. intros (pre & o & post & E & Hn & Hr & _). exists pre, o, post; auto. Qed.

Lemma not_poll_raise o : raises o <> None -> ~ is_poll o.
Proof. intros H [t ->]; cbn in H; congruence. Qed.

Lemma sig_inv_all ops : sig_inv ops.
Proof.
  induction ops as [|o ops [I1 I2 I3 I4 I5]] using rev_ind.
  - split; cbn.
    + split; [intros _; exact never_raised_nil|reflexivity].
    + intros s; split; [discriminate|intros H; exfalso; eapply first_raised_nil; eauto].
    + intros s; split; [intros [_ ?]; discriminate|intros H; exfalso; eapply undelivered_nil; eauto].
    + discriminate.
    + intros _ t; split; [discriminate|intros H; exfalso; eapply last_poller_nil; eauto].
  - set (st := sig_after ops) in *.
    assert (Hst : sig_after (ops ++ [o]) = fst (sig_step st o)) by apply sig_after_snoc.
    destruct (raises o) as [s0|] eqn:Er.
    + (* cancel / timeout *)
      assert (Hp : ~ is_poll o) by (apply not_poll_raise; congruence).
      assert (Hs : fst (sig_step st o) =
                match sg_signal st with Some _ => st | None => SigState (sg_notified st) (Some s0) None end).
      { destruct o; inv Er; cbn; unfold sig_cancel, sig_timeout; destruct (sg_signal st); reflexivity. }
      rewrite Hs in Hst. destruct (sg_signal st) as [s1|] eqn:E1.
      * split; rewrite Hst.
        -- rewrite never_raised_snoc, E1. split; [discriminate|intros [_ ?]; congruence].
        -- intros s. rewrite E1, first_raised_snoc, <- I2. split; [tauto|].
           intros [?|[Hn _]]; [assumption|]. apply I1 in Hn. discriminate.
        -- intros s. rewrite E1, undelivered_snoc, <- I3. split; [intros H; left; split; [exact H|exact Hp]|].
           intros [[? _]|[Hn _]]; [assumption|]. apply I1 in Hn. discriminate.
        -- rewrite E1; eauto.
        -- rewrite E1; discriminate.
      * assert (Hn0 : never_raised ops) by (apply I1; reflexivity).
        assert (Hnot : sg_notified st = false).
        { destruct (sg_notified st) eqn:En; [|reflexivity]. destruct (I4 eq_refl); discriminate. }
        split; rewrite Hst; cbn [sg_signal sg_notified sg_waker].
        -- rewrite never_raised_snoc. split; [discriminate|intros [_ ?]; congruence].
        -- intros s. rewrite first_raised_snoc, <- I2. split.
           ++ intros [= <-]; right; auto.
           ++ intros [?|[_ ?]]; congruence.
        -- intros s. rewrite undelivered_snoc, <- I3. split.
           ++ intros [_ [= <-]]; right; auto.
           ++ intros [[[_ ?] _]|[_ ?]]; [discriminate|]. split; congruence.
        -- intros _; eauto.
        -- discriminate.
    + destruct (is_poll_dec o) as [[t ->]|Hp].
      * (* poll *)
        cbn [sig_step] in Hst. unfold sig_poll in Hst.
        assert (Hpoll : is_poll (OPoll t)) by (eexists; reflexivity).
        destruct (sg_notified st) eqn:En.
        { cbn [fst] in Hst. destruct (I4 eq_refl) as [s1 E1].
          split; rewrite Hst.
          - rewrite never_raised_snoc. rewrite I1. tauto.
          - intros s. rewrite first_raised_snoc, I2. cbn. intuition congruence.
          - intros s. rewrite undelivered_snoc, En. cbn. intuition congruence.
          - intros _; eauto.
          - rewrite E1; discriminate. }
        destruct (sg_signal st) as [s1|] eqn:E1; cbn [fst] in Hst.
        { split; rewrite Hst; cbn [sg_signal sg_notified sg_waker].
          - rewrite never_raised_snoc. rewrite <- I1. intuition congruence.
          - intros s. rewrite first_raised_snoc, <- I2. cbn. intuition congruence.
          - intros s. rewrite undelivered_snoc. cbn. intuition congruence.
          - intros _; eauto.
          - discriminate. }
        { split; rewrite Hst; cbn [sg_signal sg_notified sg_waker].
          - rewrite never_raised_snoc. rewrite <- I1. intuition congruence.
          - intros s. rewrite first_raised_snoc, <- I2. cbn. intuition congruence.
          - intros s. rewrite undelivered_snoc. cbn. intuition congruence.
          - congruence.
          - intros _ t'. rewrite last_poller_snoc. split; [intros [= <-]; auto|].
            intros [[= ->]|[_ ?]]; [reflexivity|contradiction]. }
      * (* observers *)
        assert (Hs : fst (sig_step st o) = st).
        { destruct o; cbn in Er |- *; try discriminate; try reflexivity. exfalso; apply Hp; eexists; reflexivity. }
        rewrite Hs in Hst. split; rewrite Hst.
        -- rewrite never_raised_snoc. rewrite I1. tauto.
        -- intros s. rewrite first_raised_snoc, I2. intuition congruence.
        -- intros s. rewrite undelivered_snoc, I3. intuition congruence.
        -- exact I4.
        -- intros Hn t. rewrite last_poller_snoc, I5 by assumption. split; [intros; right; auto|].
           intros [->|[? _]]; [exfalso; apply Hp; eexists; reflexivity|assumption].
Qed.

Lemma raise_output ops o s : raises o = Some s ->
  (never_raised ops -> exists w, sig_output ops o = ORaise (Ok tt) w) /\
  (~ never_raised ops -> sig_output ops o = ORaise (Err already_raised) None /\ sig_after (ops ++ [o]) = sig_after ops).
Proof.
  intros Hr. destruct (sig_inv_all ops) as [I1 _ _ _ _]. rewrite <- I1. unfold sig_output.
  rewrite sig_after_snoc.
  destruct o; inv Hr; cbn; unfold sig_cancel, sig_timeout; destruct (sg_signal (sig_after ops)); cbn; split; intros; try congruence; eauto.
Qed.

Lemma is_cancelled_output ops b : sig_output ops OIsCancelled = OBool b <-> (b = true <-> first_raised ops SigCancel).
Proof.
  destruct (sig_inv_all ops) as [_ I2 _ _ _]. unfold sig_output; cbn. rewrite <- I2. unfold sig_is_cancelled.
  destruct (eqb_spec' (sg_signal (sig_after ops)) (Some SigCancel)), b; split; intros; intuition congruence.
Qed.
Lemma is_timeout_output ops b : sig_output ops OIsTimeout = OBool b <-> (b = true <-> first_raised ops SigTimeout).
Proof.
  destruct (sig_inv_all ops) as [_ I2 _ _ _]. unfold sig_output; cbn. rewrite <- I2. unfold sig_is_timeout.
  destruct (eqb_spec' (sg_signal (sig_after ops)) (Some SigTimeout)), b; split; intros; intuition congruence.
Qed.

Lemma first_raised_fun ops s s' : first_raised ops s -> first_raised ops s' -> s = s'.
Proof. destruct (sig_inv_all ops) as [_ I2 _ _ _]. rewrite <- !I2. congruence. Qed.

Lemma poll_output ops t r : sig_output ops (OPoll t) = OPolled r <->
  (forall s, r = Some s <-> undelivered ops s).
Proof.
  destruct (sig_inv_all ops) as [_ _ I3 _ _]. unfold sig_output; cbn. unfold sig_poll.
  destruct (sg_notified (sig_after ops)) eqn:En.
  - cbn. split.
    + intros [= <-] s. rewrite <- I3. intuition congruence.
    + intros H. destruct r as [s|]; [|reflexivity]. assert (undelivered ops s) as Hu by (apply H; reflexivity).
      apply I3 in Hu. intuition congruence.
  - destruct (sg_signal (sig_after ops)) as [s0|] eqn:Es; cbn; split.
    + intros [= <-] s. rewrite <- I3. intuition congruence.
    + intros H. f_equal. symmetry; apply H. apply I3; auto.
    + intros [= <-] s. rewrite <- I3. intuition congruence.
    + intros H. destruct r as [s|]; [|reflexivity]. assert (undelivered ops s) as Hu by (apply H; reflexivity).
      apply I3 in Hu. intuition congruence.
Qed.

Lemma raise_wakes ops o s r w : raises o = Some s -> sig_output ops o = ORaise r w ->
  forall t, w = Some t <-> never_raised ops /\ last_poller ops t.
Proof.
  intros Hr. destruct (sig_inv_all ops) as [I1 _ _ _ I5]. unfold sig_output.
  assert (Hs : snd (sig_step (sig_after ops) o) =
     match sg_signal (sig_after ops) with Some _ => ORaise (Err already_raised) None
     | None => ORaise (Ok tt) (sg_waker (sig_after ops)) end).
  { destruct o; inv Hr; cbn; unfold sig_cancel, sig_timeout; destruct (sg_signal (sig_after ops)); reflexivity. }
  rewrite Hs. destruct (sg_signal (sig_after ops)) eqn:E; intros [= <- <-] t.
  - split; [discriminate|]. intros [Hn _]. apply I1 in Hn. discriminate.
  - rewrite I5 by reflexivity. intuition.
Qed.

(** ** Registry *)
Lemma list_set_length {A} n (x : A) l : length (list_set n x l) = length l.
Proof. revert n; induction l as [|a l IH]; intros [|n]; cbn; auto. Qed.
Lemma nth_error_list_set {A} n (x : A) l k :
  nth_error (list_set n x l) k = if Nat.eq_dec k n then match nth_error l k with Some _ => Some x | None => None end else nth_error l k.
Proof.
  revert n k; induction l as [|a l IH]; intros n k.
  - destruct n, k; cbn [list_set nth_error]; destruct (Nat.eq_dec _ _); reflexivity.
  - destruct n as [|n], k as [|k]; cbn [list_set nth_error].
    + destruct (Nat.eq_dec 0 0); [reflexivity|congruence].
    + destruct (Nat.eq_dec (S k) 0); [discriminate|reflexivity].
    + destruct (Nat.eq_dec 0 (S n)); [discriminate|reflexivity].
    + rewrite IH. destruct (Nat.eq_dec k n), (Nat.eq_dec (S k) (S n)); try reflexivity; exfalso; lia.
Qed.

Lemma sm_after_snoc ops o : sm_after (ops ++ [o]) = fst (sm_step (sm_after ops) o).
Proof. unfold sm_after; rewrite fold_left_snoc; reflexivity. Qed.

Lemma registrations_app a b : registrations (a ++ b) = registrations a + registrations b.
Proof. induction a as [|[] a IH]; cbn; auto. Qed.

Lemma sm_heap_length ops : length (sm_heap (sm_after ops)) = registrations ops.
Proof.
  induction ops as [|o ops IH] using rev_ind; [reflexivity|].
  rewrite sm_after_snoc, registrations_app. unfold sm_step.
  destruct o; cbn; repeat (destr; cbn); rewrite ?list_set_length, ?app_length; cbn; lia.
Qed.

Lemma registered_snoc ops o j a :
  registered (ops ++ [o]) j a <->
  (o = MRegister j /\ a = registrations ops) \/
  (registered ops j a /\ o <> MRegister j /\ o <> MUnregister j).
Proof.
  unfold registered. split.
  - intros (pre & post & E & Ha & Hp).
    destruct post as [|x post _] using rev_ind.
    + apply app_inj_tail in E as [-> ->]. left; auto.
    + rewrite app_comm_cons, app_assoc in E. apply app_inj_tail in E as [-> ->]. right.
      split; [|apply Hp, in_or_app; cbn; auto].
      exists pre, post. repeat split; auto; apply Hp, in_or_app; auto.
  - intros [[-> ->]|[(pre & post & -> & Ha & Hp) Ho]].
    + exists ops, []. cbn; split; [reflexivity|]. split; [reflexivity|]. intros o [].
    + exists pre, (post ++ [o]). rewrite <- app_assoc. split; [reflexivity|]. split; [assumption|].
      intros p Hi. apply in_app_or in Hi as [?|[<-|[]]]; auto.
Qed.

Lemma registered_nil j a : ~ registered [] j a.
Proof. intros (pre & post & E & _); destruct pre; discriminate. Qed.

Lemma sm_reg_spec ops : forall j a, lookup j (sm_reg (sm_after ops)) = Some a <-> registered ops j a.
Proof.
  induction ops as [|o ops IH] using rev_ind; intros j a.
  - cbn. split; [discriminate|intros H; exfalso; eapply registered_nil; eauto].
  - rewrite sm_after_snoc, registered_snoc, <- IH.
    destruct o as [j0|j0|c j0|c|a0 o0]; cbn [sm_step].
    + cbn [fst sm_reg]. rewrite lookup_insert, sm_heap_length. destruct (eq_dec j j0) as [->|Hne].
      * split; [intros [= <-]; auto|intros [[_ ->]|(_ & H & _)]; [reflexivity|congruence]].
      * split; [intros H; right; repeat split; [exact H|congruence|discriminate]|intros [[[= ->] _]|(H & _)]; [congruence|exact H]].
    + cbn [fst sm_reg]. rewrite lookup_remove. destruct (eq_dec j j0) as [->|Hne].
      * split; [discriminate|intros [[? _]|(_ & _ & H)]; [discriminate|congruence]].
      * split; [intros H; right; repeat split; [exact H|discriminate|congruence]|intros [[? _]|(H & _)]; [discriminate|exact H]].
    + destruct (lookup j0 (sm_reg (sm_after ops))); cbn [fst sm_reg];
      (split; [intros H; right; repeat split; [exact H|discriminate|discriminate]|intros [[? _]|(H & _)]; [discriminate|exact H]]).
    + repeat (destr; cbn [fst sm_reg]);
      (split; [intros H; right; repeat split; [exact H|discriminate|discriminate]|intros [[? _]|(H & _)]; [discriminate|exact H]]).
    + repeat (destr; cbn [fst sm_reg]);
      (split; [intros H; right; repeat split; [exact H|discriminate|discriminate]|intros [[? _]|(H & _)]; [discriminate|exact H]]).
Qed.

Lemma registered_lt ops j a : registered ops j a -> a < registrations ops.
Proof. intros (pre & post & -> & -> & _). rewrite registrations_app; cbn; lia. Qed.
Lemma registered_fun ops j a a' : registered ops j a -> registered ops j a' -> a = a'.
Proof. rewrite <- !sm_reg_spec; congruence. Qed.

Lemma cancel_job_not_found c j ops :
  (forall a, ~ registered ops j a) -> cancel_job c j ops = (Err (job_not_found j), sm_after ops).
Proof.
  intros H. unfold cancel_job, sm_output, sm_step.
  destruct (lookup j (sm_reg (sm_after ops))) as [a|] eqn:E; [|reflexivity].
  exfalso; apply (H a), sm_reg_spec, E.
Qed.

Lemma cancel_job_found c j ops a : registered ops j a ->
  (signal_at (sm_after ops) a = None ->
     fst (cancel_job c j ops) = Ok tt /\
     signal_at (snd (cancel_job c j ops)) a = Some SigCancel) /\
  (forall s, signal_at (sm_after ops) a = Some s ->
     fst (cancel_job c j ops) = Err already_raised /\
     signal_at (snd (cancel_job c j ops)) a = Some s) /\
  (forall a', a' <> a -> nth_error (sm_heap (snd (cancel_job c j ops))) a' = nth_error (sm_heap (sm_after ops)) a') /\
  sm_reg (snd (cancel_job c j ops)) = sm_reg (sm_after ops).
Proof.
  intros Hr. pose proof (registered_lt _ _ _ Hr) as Hlt. rewrite <- sm_heap_length in Hlt.
  apply sm_reg_spec in Hr. unfold signal_at.
  destruct (nth_error (sm_heap (sm_after ops)) a) as [st|] eqn:Est; [|apply nth_error_None in Est; lia].
  assert (E1 : sm_after (ops ++ [MCancelGet c j]) =
     SigMan (sm_reg (sm_after ops)) (sm_heap (sm_after ops)) (insert c a (sm_pending (sm_after ops)))).
  { rewrite sm_after_snoc; cbn. rewrite Hr; reflexivity. }
  assert (E2 : sm_step (sm_after (ops ++ [MCancelGet c j])) (MCancelFire c) =
     (SigMan (sm_reg (sm_after ops)) (list_set a (fst (fst (sig_cancel st))) (sm_heap (sm_after ops)))
        (remove c (insert c a (sm_pending (sm_after ops)))), MRes (snd (fst (sig_cancel st))))).
  { rewrite E1; cbn. rewrite lookup_insert_eq, Est. destruct (sig_cancel st) as [[? ?] ?]; reflexivity. }
  assert (E3 : cancel_job c j ops = (snd (fst (sig_cancel st)),
      SigMan (sm_reg (sm_after ops)) (list_set a (fst (fst (sig_cancel st))) (sm_heap (sm_after ops)))
        (remove c (insert c a (sm_pending (sm_after ops)))))).
  { unfold cancel_job, sm_output at 1. cbn [sm_step]. rewrite Hr. cbn [snd].
    unfold sm_output. rewrite E2. cbn [snd]. f_equal.
    replace (ops ++ [MCancelGet c j; MCancelFire c]) with ((ops ++ [MCancelGet c j]) ++ [MCancelFire c])
      by (rewrite <- app_assoc; reflexivity).
    rewrite sm_after_snoc, E2. reflexivity. }
  rewrite E3. cbn [fst snd sm_heap sm_reg]. rewrite !nth_error_list_set.
  destruct (Nat.eq_dec a a); [|congruence]. rewrite Est.
  split; [|split; [|split]].
  - intros En. unfold sig_cancel. rewrite En. cbn; auto.
  - intros s Es. unfold sig_cancel. rewrite Es. cbn; auto.
  - intros a' Hne. rewrite nth_error_list_set. destruct (Nat.eq_dec a' a); [contradiction|reflexivity].
  - reflexivity.
Qed.

(** Frame: which operations can change which signal. *)
Lemma signal_at_frame ops o a :
  signal_at (sm_after (ops ++ [o])) a <> signal_at (sm_after ops) a ->
  (exists so s, o = MSignal a so /\ raises so = Some s) \/
  (exists c, o = MCancelFire c /\ lookup c (sm_pending (sm_after ops)) = Some a).
Proof.
  rewrite sm_after_snoc. unfold signal_at. set (m := sm_after ops).
  destruct o as [j0|j0|c j0|c|a0 o0]; cbn [sm_step].
  - cbn [fst sm_heap]. intros H; exfalso; apply H.
    destruct (Nat.lt_ge_cases a (length (sm_heap m))).
    + rewrite nth_error_app1 by assumption; reflexivity.
    + rewrite nth_error_app2 by assumption.
      assert (nth_error (sm_heap m) a = None) as -> by (apply nth_error_None; lia).
      destruct (a - length (sm_heap m)) as [|[|]]; reflexivity.
  - cbn; congruence.
  - destruct (lookup j0 (sm_reg m)); cbn; congruence.
  - destruct (lookup c (sm_pending m)) as [a0|] eqn:E; [|cbn; congruence].
    destruct (nth_error (sm_heap m) a0) as [st|] eqn:Est; [|cbn; congruence].
    destruct (sig_cancel st) as [[st' r] w]; cbn [fst sm_heap]. rewrite nth_error_list_set.
    destruct (Nat.eq_dec a a0) as [->|]; [|congruence]. right; eauto.
  - destruct (nth_error (sm_heap m) a0) as [st|] eqn:Est; [|cbn; congruence].
    destruct (sig_step st o0) as [st' r] eqn:Eo; cbn [fst sm_heap]. rewrite nth_error_list_set.
    destruct (Nat.eq_dec a a0) as [->|]; [|congruence]. rewrite Est. intros H. left. exists o0.
    assert (raises o0 <> None).
    { intros En. apply H. destruct o0; try discriminate; cbn in Eo; inv Eo; try reflexivity.
      unfold sig_poll in H1. destruct (sg_notified st); [inv H1; reflexivity|].
      destruct (sg_signal st) eqn:Es; inv H1; cbn; congruence. }
    destruct (raises o0) as [s|]; [exists s; auto|congruence].
Qed.

Lemma pending_cancel ops c a :
  lookup c (sm_pending (sm_after ops)) = Some a ->
  exists pre post j, ops = pre ++ MCancelGet c j :: post /\ registered pre j a.
Proof.
  induction ops as [|o ops IH] using rev_ind; [cbn; discriminate|].
  rewrite sm_after_snoc. intros H.
  assert (L : lookup c (sm_pending (sm_after ops)) = Some a ->
     exists pre post j, ops ++ [o] = pre ++ MCancelGet c j :: post /\ registered pre j a).
  { intros Hl. destruct (IH Hl) as (pre & post & j & -> & Hr). exists pre, (post ++ [o]), j.
    rewrite <- app_assoc; auto. }
  destruct o as [j0|j0|c0 j0|c0|a0 o0]; cbn [sm_step] in H.
  - apply L, H.
  - apply L, H.
  - destruct (lookup j0 (sm_reg (sm_after ops))) as [a1|] eqn:E; cbn [fst sm_pending] in H; [|apply L, H].
    rewrite lookup_insert in H. destruct (eq_dec c c0) as [->|]; [|apply L, H].
    injection H as ->. exists ops, [], j0. split; [reflexivity|]. apply sm_reg_spec, E.
  - destruct (lookup c0 (sm_pending (sm_after ops))) as [a1|] eqn:E; cbn [fst sm_pending] in H; [|apply L, H].
    destruct (nth_error (sm_heap (sm_after ops)) a1) as [st|] eqn:Est; cbn [fst sm_pending] in H; [|apply L, H].
    destruct (sig_cancel st) as [[? ?] ?]; cbn [fst sm_pending] in H. rewrite lookup_remove in H.
    destruct (eq_dec c c0); [discriminate|apply L, H].
  - destruct (nth_error (sm_heap (sm_after ops)) a0) as [st|] eqn:Est; cbn [fst sm_pending] in H; [|apply L, H].
    destruct (sig_step st o0) as [? ?]; cbn [fst sm_pending] in H. apply L, H.
Qed.

Lemma signal_text_roundtrip s : signal_of_string (show_signal s) = Some s.
Proof. destruct s; reflexivity. Qed.
Lemma signal_of_string_spec t s : signal_of_string t = Some s <-> t = show_signal s.
Proof.
  unfold signal_of_string. destruct (eqb_spec' t "cancel"), (eqb_spec' t "timeout"), s; cbn; split; congruence.
Qed.
Lemma log_type_text_roundtrip t : log_type_of_string (show_log_type t) = t.
Proof. destruct t; reflexivity. Qed.
Lemma log_type_of_string_spec s : log_type_of_string s = LError <-> s = "error".
Proof. unfold log_type_of_string. destruct (eqb_spec' s "error"), (eqb_spec' s "log"); split; congruence. Qed.
