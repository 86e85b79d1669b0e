From Verif Require Import Base Types Signals_model Stream_model Stream_spec.

Lemma stream_after_snoc ops o : stream_after (ops ++ [o]) = fst (stream_step (stream_after ops) o).
Proof. unfold stream_after; rewrite fold_left_snoc; reflexivity. Qed.
Lemma stream_after_app a b : stream_after (a ++ b) = fold_left (fun s o => fst (stream_step s o)) b (stream_after a).
Proof. unfold stream_after; rewrite fold_left_app; reflexivity. Qed.
Lemma stream_outputs_app s a b :
  stream_outputs s (a ++ b) = stream_outputs s a ++ stream_outputs (fold_left (fun s o => fst (stream_step s o)) a s) b.
Proof. revert s; induction a as [|o a IH]; intros s; cbn; [reflexivity|f_equal; apply IH]. Qed.
Lemma obtained_app a b : obtained (a ++ b) = obtained a ++ obtained b.
Proof. induction a as [|[| p | |] a IH]; cbn; auto. destruct p; cbn; congruence. Qed.
Lemma sent_app a b : sent (a ++ b) = sent a ++ sent b.
Proof. induction a as [|[] a IH]; cbn; congruence. Qed.

Lemma got_snoc ops o :
  got (ops ++ [o]) = got ops ++ match stream_output ops o with SOPolled (PItem l) => [l] | _ => [] end.
Proof.
  unfold got. rewrite stream_outputs_app, obtained_app. f_equal.
Qed.

Record stream_inv (ops : list stream_op) : Prop := {
  sv_logs : ss_logs (stream_after ops) = sent ops;
  sv_index : ss_index (stream_after ops) = length (got ops);
  sv_got : got ops = firstn (length (got ops)) (sent ops);
  sv_le : length (got ops) <= length (sent ops) }.

Lemma stream_inv_all ops : stream_inv ops.
Proof.
  induction ops as [|o ops [I1 I2 I3 I4]] using rev_ind.
  - split; cbn; reflexivity || lia.
  - assert (Hst := stream_after_snoc ops o).
    pose proof (got_snoc ops o) as Hg. unfold stream_output in Hg.
    set (s := stream_after ops) in *.
    assert (Keep : sent (ops ++ [o]) = sent ops -> ss_logs (fst (stream_step s o)) = ss_logs s ->
       ss_index (fst (stream_step s o)) = ss_index s -> got (ops ++ [o]) = got ops -> stream_inv (ops ++ [o])).
    { intros E1 E2 E3 E4. split; rewrite ?Hst, ?E1, ?E2, ?E3, ?E4; auto. }
    assert (Push : forall l, sent (ops ++ [o]) = sent ops ++ [l] -> ss_logs (fst (stream_step s o)) = ss_logs s ++ [l] ->
       ss_index (fst (stream_step s o)) = ss_index s -> got (ops ++ [o]) = got ops -> stream_inv (ops ++ [o])).
    { intros l E1 E2 E3 E4. split; rewrite ?Hst, ?E1, ?E2, ?E3, ?E4; auto.
      - congruence.
      - rewrite firstn_app. replace (length (got ops) - length (sent ops)) with 0 by lia.
        cbn [firstn]. rewrite app_nil_r. exact I3.
      - rewrite app_length; cbn; lia. }
    destruct o as [m|m|c r|c|t| |].
    + apply (Push (Log LLog m)); cbn in *; rewrite ?sent_app, ?app_nil_r in *; auto.
    + apply (Push (Log LError m)); cbn in *; rewrite ?sent_app, ?app_nil_r in *; auto.
    + apply Keep; cbn in *; rewrite ?sent_app, ?app_nil_r in *; auto; unfold stream_end_check; destruct (ss_result s); auto.
    + apply Keep; cbn in *; rewrite ?sent_app, ?app_nil_r in *; cbn; auto; unfold stream_end_commit in *; destruct (lookup c (ss_enders s)); cbn in *; rewrite ?app_nil_r in *; auto.
    + cbn [stream_step] in *. unfold stream_poll in *.
      destruct (nth_error (ss_logs s) (ss_index s)) as [l|] eqn:En.
      * cbn in Hg, Hst. rewrite I1, I2 in En.
        assert (Hlt : length (got ops) < length (sent ops)) by (apply nth_error_Some; congruence).
        assert (Hs : sent (ops ++ [SPoll t]) = sent ops) by (rewrite sent_app; cbn; apply app_nil_r).
        split; rewrite ?Hst, ?Hg, ?Hs; cbn; auto.
        -- rewrite app_length; cbn; lia.
        -- rewrite app_length; cbn. rewrite Nat.add_1_r. rewrite (firstn_S_nth _ _ _ En). congruence.
        -- rewrite app_length; cbn; lia.
      * apply Keep; [rewrite sent_app; cbn; apply app_nil_r| | |rewrite Hg];
        cbn [stream_step]; unfold stream_poll; rewrite ?En; destruct (ss_result s); cbn; rewrite ?app_nil_r; reflexivity.
    + apply Keep; cbn in *; rewrite ?sent_app, ?app_nil_r in *; auto.
    + apply Keep; cbn in *; rewrite ?sent_app, ?app_nil_r in *; auto.
Qed.

Lemma got_prefix ops : exists rest, sent ops = got ops ++ rest.
Proof.
  destruct (stream_inv_all ops) as [_ _ I3 _]. exists (skipn (length (got ops)) (sent ops)).
  rewrite <- (firstn_skipn (length (got ops)) (sent ops)) at 1. rewrite <- I3. reflexivity.
Qed.

Lemma ended_iff ops : ended ops <-> ss_result (stream_after ops) <> None.
Proof.
  unfold ended, stream_output; cbn. destruct (ss_result (stream_after ops)); split; intros H; try congruence; eauto.
  destruct H; discriminate.
Qed.

Lemma poll_outcome ops t :
  (forall l, stream_output ops (SPoll t) = SOPolled (PItem l) <->
     exists rest, sent ops = got ops ++ l :: rest) /\
  (stream_output ops (SPoll t) = SOPolled PEnd <-> got ops = sent ops /\ ended ops) /\
  (stream_output ops (SPoll t) = SOPolled PPending <-> got ops = sent ops /\ ~ ended ops).
Proof.
  destruct (stream_inv_all ops) as [I1 I2 I3 I4]. rewrite ended_iff.
  unfold stream_output; cbn. unfold stream_poll. rewrite I1, I2.
  destruct (got_prefix ops) as [rest Hrest].
  destruct rest as [|l0 rest].
  - assert (En : nth_error (sent ops) (length (got ops)) = None).
    { apply nth_error_None. rewrite Hrest, app_nil_r; lia. }
    rewrite En. rewrite app_nil_r in Hrest.
    split; [|destruct (ss_result (stream_after ops)); cbn; intuition congruence].
    intros l; split.
    + destruct (ss_result (stream_after ops)); cbn; discriminate.
    + intros [r Hr]. rewrite Hrest in Hr. exfalso. apply (f_equal (@length _)) in Hr.
      rewrite app_length in Hr; cbn in Hr; lia.
  - assert (En : nth_error (sent ops) (length (got ops)) = Some l0).
    { rewrite Hrest, nth_error_app2 by lia. rewrite Nat.sub_diag; reflexivity. }
    rewrite En. cbn.
    assert (Hne : got ops <> sent ops).
    { rewrite Hrest. intros C. apply (f_equal (@length _)) in C. rewrite app_length in C; cbn in C; lia. }
    split; [|intuition congruence].
    intros l; split.
    + intros [= <-]; eauto.
    + intros [r Hr]. rewrite Hrest in Hr. apply app_inv_head in Hr. congruence.
Qed.

Lemma stream_poll_keeps t s :
  ss_logs (fst (stream_step s (SPoll t))) = ss_logs s /\
  ss_result (fst (stream_step s (SPoll t))) = ss_result s /\
  ss_enders (fst (stream_step s (SPoll t))) = ss_enders s /\
  ss_waker (fst (stream_step s (SPoll t))) = Some t.
Proof.
  cbn. unfold stream_poll. destruct (nth_error (ss_logs s) (ss_index s)); [cbn; auto|].
  destruct (ss_result s) eqn:E; cbn; auto.
Qed.

(** ** end *)
Lemma ended_mono ops o : ended ops -> ended (ops ++ [o]).
Proof.
  rewrite !ended_iff, stream_after_snoc. intros H. set (s := stream_after ops) in *.
  destruct o as [m|m|c r|c|t| |]; cbn; auto.
  - unfold stream_end_check; destruct (ss_result s) eqn:?; cbn; congruence.
  - unfold stream_end_commit; destruct (lookup c (ss_enders s)); cbn; congruence.
  - destruct (stream_poll_keeps t s) as (_ & E & _). cbn in E. rewrite E; exact H.
Qed.

Lemma atomic_ends_inv ops rs : atomic_ends ops rs ->
  ss_enders (stream_after ops) = [] /\ ss_result (stream_after ops) = hd_error rs.
Proof.
  induction 1 as [|ops rs c r H [IH1 IH2]|ops rs o H [IH1 IH2] Hn1 Hn2].
  - split; reflexivity.
  - rewrite stream_after_app. cbn [fold_left stream_step fst]. set (s := stream_after ops) in *.
    unfold stream_end_check, stream_end_commit. destruct (ss_result s) as [r0|] eqn:E.
    + rewrite IH1. cbn. split; [assumption|]. rewrite E, IH2. destruct rs; [discriminate|reflexivity].
    + cbn [ss_enders ss_result]. rewrite IH1. cbn [insert lookup remove fst].
      destruct (eq_dec c c); [|congruence]. cbn. destruct rs; [auto|discriminate].
  - rewrite stream_after_snoc. set (s := stream_after ops) in *.
    destruct o as [m|m|c r|c|t| |]; cbn; auto.
    + exfalso; eapply Hn1; reflexivity.
    + exfalso; eapply Hn2; reflexivity.
    + destruct (stream_poll_keeps t s) as (_ & E & E' & _). cbn in E, E'. rewrite E, E'; auto.
Qed.

(** Under any interleaving: a written result comes from an end call whose check came before
    every write. *)
Lemma enders_from ops c r :
  lookup c (ss_enders (stream_after ops)) = Some r ->
  exists pre post, ops = pre ++ SEndCheck c r :: post /\ ~ ended pre.
Proof.
  induction ops as [|o ops IH] using rev_ind; [cbn; discriminate|].
  rewrite stream_after_snoc. intros H. set (s := stream_after ops) in *.
  assert (L : lookup c (ss_enders s) = Some r ->
    exists pre post, ops ++ [o] = pre ++ SEndCheck c r :: post /\ ~ ended pre).
  { intros Hl. destruct (IH Hl) as (pre & post & -> & Hn). exists pre, (post ++ [o]).
    rewrite <- app_assoc; auto. }
  destruct o as [m|m|c0 r0|c0|t| |]; cbn in H; auto.
  - unfold stream_end_check in H. destruct (ss_result s) eqn:E; [auto|]. cbn in H.
    rewrite lookup_insert in H. destruct (eq_dec c c0) as [->|]; [|auto].
    injection H as ->. exists ops, []. split; [reflexivity|]. rewrite ended_iff. fold s. congruence.
  - unfold stream_end_commit in H. destruct (lookup c0 (ss_enders s)) eqn:E; cbn in H; auto.
    rewrite lookup_remove in H. destruct (eq_dec c c0); [discriminate|auto].
  - destruct (stream_poll_keeps t s) as (_ & _ & E & _). cbn in E. rewrite E in H; auto.
Qed.

Lemma result_from ops r :
  ss_result (stream_after ops) = Some r ->
  exists c pre mid post, ops = pre ++ SEndCheck c r :: mid ++ SEndCommit c :: post /\ ~ ended pre.
Proof.
  induction ops as [|o ops IH] using rev_ind; [cbn; discriminate|].
  rewrite stream_after_snoc. intros H. set (s := stream_after ops) in *.
  assert (L : ss_result s = Some r ->
    exists c pre mid post, ops ++ [o] = pre ++ SEndCheck c r :: mid ++ SEndCommit c :: post /\ ~ ended pre).
  { intros Hl. destruct (IH Hl) as (c & pre & mid & post & -> & Hn). exists c, pre, mid, (post ++ [o]).
    split; [|exact Hn]. rewrite <- !app_assoc; cbn. rewrite <- !app_assoc. reflexivity. }
  destruct o as [m|m|c0 r0|c0|t| |]; cbn in H; auto.
  - unfold stream_end_check in H. destruct (ss_result s) eqn:E; cbn in H; [|discriminate].
    apply L. congruence.
  - unfold stream_end_commit in H. destruct (lookup c0 (ss_enders s)) eqn:E; cbn in H; auto.
    injection H as ->. apply enders_from in E as (pre & post & -> & Hn).
    exists c0, pre, post, []. split; [rewrite <- app_assoc; reflexivity|exact Hn].
  - destruct (stream_poll_keeps t s) as (_ & E & _ & _). cbn in E. rewrite E in H; auto.
Qed.

(** ** waking *)
Lemma asleep_waker pre t post :
  stream_output pre (SPoll t) = SOPolled PPending ->
  (forall o, In o post -> ~ is_spoll o) ->
  (forall p1 o p2, post = p1 ++ o :: p2 -> stream_output (pre ++ SPoll t :: p1) o <> SOWoke (Some t)) ->
  let ops := pre ++ SPoll t :: post in
  ss_waker (stream_after ops) = Some t /\ got ops = sent ops /\ ~ ended ops.
Proof.
  intros Hp. induction post as [|o post IH] using rev_ind; intros Hnp Hnw; cbn zeta.
  - pose proof (poll_outcome pre t) as (_ & _ & H3). apply H3 in Hp as Hp'. destruct Hp' as [Hg Hne].
    split; [|split].
    + rewrite stream_after_snoc. apply stream_poll_keeps.
    + rewrite got_snoc, Hp, app_nil_r, sent_app; cbn. rewrite app_nil_r; exact Hg.
    + intros He. apply Hne. apply ended_iff. apply ended_iff in He. rewrite stream_after_snoc in He.
      destruct (stream_poll_keeps t (stream_after pre)) as (_ & E & _). congruence.
  - specialize (IH (fun o' Ho' => Hnp o' (in_or_app _ _ _ (or_introl Ho')))).
    assert (Hnw' : forall p1 o' p2, post = p1 ++ o' :: p2 -> stream_output (pre ++ SPoll t :: p1) o' <> SOWoke (Some t)).
    { intros p1 o' p2 ->. apply (Hnw p1 o' (p2 ++ [o])). rewrite <- app_assoc; reflexivity. }
    specialize (IH Hnw'). cbn zeta in IH. destruct IH as (Hw & Hg & Hne).
    assert (Hlast : stream_output (pre ++ SPoll t :: post) o <> SOWoke (Some t)) by (apply (Hnw post o []); reflexivity).
    replace (pre ++ SPoll t :: post ++ [o]) with ((pre ++ SPoll t :: post) ++ [o])
      by (rewrite <- app_assoc; reflexivity).
    set (h := pre ++ SPoll t :: post) in *.
    rewrite ended_iff, stream_after_snoc, got_snoc, sent_app.
    rewrite ended_iff in Hne. unfold stream_output in Hlast |- *. set (s := stream_after h) in *.
    destruct o as [m|m|c r|c|t0| |]; cbn in Hlast |- *; rewrite ?app_nil_r; auto.
    + congruence.
    + congruence.
    + unfold stream_end_check. destruct (ss_result s) eqn:E; [exfalso; apply Hne; congruence|]. cbn. auto.
    + unfold stream_end_commit in Hlast |- *. destruct (lookup c (ss_enders s)); cbn in *; rewrite ?app_nil_r; [congruence|auto].
    + exfalso. apply (Hnp (SPoll t0)); [apply in_or_app; cbn; auto|eexists; reflexivity].
Qed.

Lemma asleep_nothing_pending ops t : asleep ops t -> got ops = sent ops /\ ~ ended ops.
Proof.
  intros (pre & post & -> & H1 & H2 & H3).
  destruct (asleep_waker pre t post H1 H2 H3) as (_ & H). exact H.
Qed.

Lemma asleep_woken ops t o :
  asleep ops t ->
  (exists m, o = SLog m \/ o = SError m) \/ (exists c r, o = SEndCommit c /\ lookup c (ss_enders (stream_after ops)) = Some r) ->
  stream_output ops o = SOWoke (Some t).
Proof.
  intros (pre & post & -> & H1 & H2 & H3) Ho.
  destruct (asleep_waker pre t post H1 H2 H3) as (Hw & _). cbn zeta in Hw.
  unfold stream_output. destruct Ho as [[m [->| ->]]|(c & r & -> & Hl)]; cbn.
  - rewrite Hw; reflexivity.
  - rewrite Hw; reflexivity.
  - unfold stream_end_commit. rewrite Hl; cbn. rewrite Hw; reflexivity.
Qed.

(** an uninterrupted end call on a stream that was not ended wakes the sleeper *)
Lemma asleep_end_check ops t c r : asleep ops t ->
  asleep (ops ++ [SEndCheck c r]) t /\ lookup c (ss_enders (stream_after (ops ++ [SEndCheck c r]))) = Some r.
Proof.
  intros Ha. pose proof (asleep_nothing_pending _ _ Ha) as [_ Hne].
  destruct Ha as (pre & post & -> & H1 & H2 & H3). split.
  - exists pre, (post ++ [SEndCheck c r]). split; [rewrite <- app_assoc; reflexivity|]. split; [exact H1|]. split.
    + intros o Ho. apply in_app_or in Ho as [?|[<-|[]]]; [auto|]. intros [? ?]; discriminate.
    + intros p1 o p2 E. destruct p2 as [|x p2 _] using rev_ind.
      * apply app_inj_tail in E as [-> <-]. unfold stream_output; cbn. congruence.
      * rewrite app_comm_cons, app_assoc in E. apply app_inj_tail in E as [-> _]. eapply H3; reflexivity.
  - rewrite stream_after_snoc. cbn. unfold stream_end_check. rewrite ended_iff in Hne.
    destruct (ss_result (stream_after _)); [exfalso; apply Hne; congruence|]. cbn. apply lookup_insert_eq.
Qed.

(** ** draining *)
Lemma drain ops t : ended ops -> forall unread, sent ops = got ops ++ unread ->
  stream_outputs (stream_after ops) (repeat (SPoll t) (S (length unread)))
    = map (fun l => SOPolled (PItem l)) unread ++ [SOPolled PEnd].
Proof.
  intros He unread. revert ops He. induction unread as [|l unread IH]; intros ops He Hs.
  - cbn [length repeat stream_outputs map app]. f_equal.
    fold (stream_output ops (SPoll t)). apply (poll_outcome ops t).
    rewrite app_nil_r in Hs. auto.
  - assert (Hp : stream_output ops (SPoll t) = SOPolled (PItem l)) by (apply (poll_outcome ops t); eauto).
    specialize (IH (ops ++ [SPoll t]) (ended_mono _ _ He)).
    rewrite got_snoc, Hp, sent_app in IH. cbn [sent] in IH. rewrite app_nil_r, <- app_assoc in IH. specialize (IH Hs).
    cbn [length] in *. change (repeat (SPoll t) (S (S (length unread)))) with (SPoll t :: repeat (SPoll t) (S (length unread))).
    cbn [stream_outputs map app]. fold (stream_output ops (SPoll t)). rewrite Hp. f_equal.
    rewrite <- stream_after_snoc. exact IH.
Qed.
