From Verif Require Import Base Types Ids_model Ids_spec.
From Coq Require Import DecimalString DecimalN DecimalFacts.
From Coq Require Import ZifyBool ZifyN.

(** ** split *)
Lemma split_free c s : free_of c s -> split c s = [s].
Proof.
  induction s as [|a s IH]; cbn; [reflexivity|]. intros [Hn Hf].
  destruct (Ascii.eqb_spec a c); [contradiction|]. rewrite (IH Hf); reflexivity.
Qed.

Lemma split_app c a b : free_of c a -> split c (a +++ String c b) = a :: split c b.
Proof.
  induction a as [|x a IH]; cbn.
  - intros _. destruct (Ascii.eqb_spec c c); congruence.
  - intros [Hn Hf]. destruct (Ascii.eqb_spec x c); [contradiction|]. rewrite (IH Hf); reflexivity.
Qed.

Lemma split_cons c s : exists h t, split c s = h :: t.
Proof. destruct s as [|a s]; cbn; [eauto|]. destruct (Ascii.eqb a c); [eauto|]. destruct (split c s); eauto. Qed.

(** Inversion: the parts are free of the separator and join back to the input. *)
Lemma split_inv c s : forall h t, split c s = h :: t ->
  free_of c h /\ match t with [] => s = h | _ => exists s', s = h +++ String c s' /\ split c s' = t end.
Proof.
  induction s as [|a s IH]; cbn; intros h t E.
  - injection E as <- <-; cbn; auto.
  - destruct (Ascii.eqb_spec a c) as [->|Hn].
    + injection E as <- <-. cbn; split; [exact I|].
      destruct (split_cons c s) as (h' & t' & E'). rewrite E'. exists s; split; [reflexivity|exact E'].
    + destruct (split_cons c s) as (h' & t' & E'). rewrite E' in E. injection E as <- <-.
      destruct (IH _ _ E') as [Hf Ht]. split; [cbn; auto|].
      destruct t' as [|x t']; [cbn; congruence|].
      destruct Ht as (s' & -> & Es'). exists s'; split; [reflexivity|exact Es'].
Qed.

Lemma split_length c s : length (split c s) = S (count_char c s).
Proof.
  induction s as [|a s IH]; cbn; [reflexivity|].
  destruct (Ascii.eqb a c); cbn; [rewrite IH; reflexivity|].
  destruct (split c s) eqn:E; cbn in *; lia.
Qed.

Lemma split_2 c s a b : split c s = [a; b] <-> s = a +++ String c b /\ free_of c a /\ free_of c b.
Proof.
  split.
  - intros E. destruct (split_inv _ _ _ _ E) as [Ha (s' & -> & E')].
    destruct (split_inv _ _ _ _ E') as [Hb ->]. auto.
  - intros (-> & Ha & Hb). rewrite split_app by assumption. rewrite split_free by assumption; reflexivity.
Qed.

Lemma split_3 c s a b d :
  split c s = [a; b; d] <-> s = a +++ String c (b +++ String c d) /\ free_of c a /\ free_of c b /\ free_of c d.
Proof.
  split.
  - intros E. destruct (split_inv _ _ _ _ E) as [Ha (s' & -> & E')].
    apply split_2 in E' as (-> & Hb & Hd). auto.
  - intros (-> & Ha & Hb & Hd). rewrite split_app by assumption.
    f_equal. apply split_2; auto.
Qed.

(** ** decimal digits *)
Lemma digit_of_spec c d : digit_of c = Some d <-> is_digit c d.
Proof.
  unfold digit_of, is_digit. split.
  - destruct (_ && _)%bool eqn:E; [|discriminate]. intros [= <-].
    apply andb_prop in E as [E1 E2]. apply N.leb_le in E1; apply N.leb_le in E2.
    split; [lia|]. replace (48 + (N_of_ascii c - 48))%N with (N_of_ascii c) by lia.
    symmetry; apply ascii_N_embedding.
  - intros [Hd ->]. rewrite N_ascii_embedding by lia.
    assert (E1 : (48 <=? 48 + d)%N = true) by (apply N.leb_le; lia).
    assert (E2 : (48 + d <=? 57)%N = true) by (apply N.leb_le; lia).
    rewrite E1, E2; cbn [andb]. f_equal; lia.
Qed.

Lemma is_digit_fun c d d' : is_digit c d -> is_digit c d' -> d = d'.
Proof. rewrite <- !digit_of_spec; congruence. Qed.

Lemma is_digit_not_plus c d : is_digit c d -> c <> "+"%char.
Proof. intros H ->. apply digit_of_spec in H. discriminate. Qed.
Lemma is_digit_not_slash c d : is_digit c d -> c <> "/"%char.
Proof. intros H ->. apply digit_of_spec in H. discriminate. Qed.

(** value of a possibly empty digit string *)
Inductive digits : string -> N -> Prop :=
| digits_nil : digits "" 0
| digits_cons c d s v : is_digit c d -> digits s v ->
    digits (String c s) (d * 10 ^ N.of_nat (String.length s) + v)%N.

Lemma decimal_digits s v : decimal s v <-> digits s v /\ s <> "".
Proof.
  split.
  - induction 1 as [c d Hd|c d s v Hd Hs [IH _]].
    + split; [|congruence]. replace d with (d * 10 ^ N.of_nat (String.length "") + 0)%N by (cbn; lia).
      constructor; [assumption|constructor].
    + split; [constructor; assumption|congruence].
  - intros [H Hne]. induction H as [|c d s v Hd Hs IH]; [congruence|].
    destruct s as [|c' s'].
    + inv Hs. cbn [String.length]. replace (d * 10 ^ N.of_nat 0 + 0)%N with d by (cbn; lia). constructor; assumption.
    + constructor; [assumption|apply IH; congruence].
Qed.

Lemma digits_bound s v : digits s v -> (v < 10 ^ N.of_nat (String.length s))%N.
Proof.
  induction 1 as [|c d s v [Hd _] Hs IH]; [cbn; lia|].
  cbn [String.length]. rewrite Nat2N.inj_succ, N.pow_succ_r'.
  set (p := (10 ^ N.of_nat (String.length s))%N) in *. nia.
Qed.

Lemma parse_digits_spec s : forall acc r, (acc < usize_limit)%N ->
  (parse_digits acc s = Some r <->
   exists v, digits s v /\ r = (acc * 10 ^ N.of_nat (String.length s) + v)%N /\ (r < usize_limit)%N).
Proof.
  induction s as [|c s IH]; intros acc r Hacc; cbn [parse_digits String.length].
  - split.
    + intros [= <-]. exists 0%N. split; [constructor|]. cbn; split; [lia|assumption].
    + intros (v & Hd & -> & _). inv Hd. f_equal. cbn; lia.
  - rewrite Nat2N.inj_succ, N.pow_succ_r'. set (p := (10 ^ N.of_nat (String.length s))%N) in *.
    assert (Hp : (1 <= p)%N) by (subst p; pose proof (N.pow_nonzero 10 (N.of_nat (String.length s))); lia).
    destruct (digit_of c) as [d|] eqn:Ed.
    + apply digit_of_spec in Ed as Hd.
      split.
      * destruct (N.ltb_spec (acc * 10) usize_limit) as [H1|]; [|discriminate].
        destruct (N.ltb_spec (acc * 10 + d) usize_limit) as [H2|]; [|discriminate].
        intros E. apply (IH _ _ H2) in E as (v & Hv & -> & Hlt).
        exists (d * p + v)%N. split; [constructor; assumption|]. fold p. fold p in Hlt. split; nia.
      * intros (v & Hv & -> & Hlt). inversion Hv as [|c' d' s' v' Hd' Hs' Ec Ev]; subst. fold p in Hlt |- *.
        assert (d' = d) by eauto using is_digit_fun; subst d'.
        destruct (N.ltb_spec (acc * 10) usize_limit) as [H1|H1]; [|exfalso; nia].
        destruct (N.ltb_spec (acc * 10 + d) usize_limit) as [H2|H2]; [|exfalso; nia].
        apply (IH _ _ H2). eexists; split; [eassumption|]. fold p. split; nia.
    + split; [discriminate|]. intros (v & Hv & _). inv Hv.
      match goal with H : is_digit c _ |- _ => apply digit_of_spec in H end. congruence.
Qed.

Lemma parse_usize_spec s v : parse_usize s = Some v <-> usize_text s v.
Proof.
  assert (H0 : forall t, (exists w, digits t w /\ v = (0 * 10 ^ N.of_nat (String.length t) + w)%N /\ (v < usize_limit)%N)
                 <-> (v < 2 ^ 64)%N /\ digits t v).
  { intros t; split.
    - intros (w & Hw & -> & Hl). rewrite N.mul_0_l, N.add_0_l in *. split; [exact Hl|exact Hw].
    - intros [Hl Hw]. exists v. rewrite N.mul_0_l, N.add_0_l. auto. }
  assert (Hz : (0 < usize_limit)%N) by reflexivity.
  unfold parse_usize, usize_text. destruct s as [|c s].
  - split; [discriminate|]. intros [_ [H|(t & E & _)]]; [|discriminate]. inv H.
  - destruct (Ascii.eqb_spec c "+"%char) as [->|Hn].
    + destruct s as [|c' s'].
      * split; [discriminate|]. intros [_ [H|(t & E & H)]].
        -- apply decimal_digits in H as [H _]. inv H. exfalso; eapply is_digit_not_plus; eauto.
        -- injection E as <-. inv H.
      * rewrite (parse_digits_spec _ _ _ Hz), H0. split.
        -- intros [Hl Hd]. split; [exact Hl|]. right; eexists; split; [reflexivity|].
           apply decimal_digits; split; [exact Hd|congruence].
        -- intros [Hl [H|(t & E & H)]].
           ++ apply decimal_digits in H as [H _]. inv H. exfalso; eapply is_digit_not_plus; eauto.
           ++ injection E as <-. apply decimal_digits in H as [H _]. auto.
    + rewrite (parse_digits_spec _ _ _ Hz), H0. split.
      * intros [Hl Hd]. split; [exact Hl|]. left. apply decimal_digits; split; [exact Hd|congruence].
      * intros [Hl [H|(t & E & H)]]; [apply decimal_digits in H as [H _]; auto|congruence].
Qed.

(** ** printing *)
Lemma is_digit_const k : (k < 10)%N -> is_digit (ascii_of_N (48 + k)) k.
Proof. intros H; split; [exact H|reflexivity]. Qed.

Lemma digits_string_of_uint d :
  exists v, digits (NilEmpty.string_of_uint d) v /\ Pos.of_uint d = v /\
    forall acc, Npos (Pos.of_uint_acc d acc)
                = (Npos acc * 10 ^ N.of_nat (String.length (NilEmpty.string_of_uint d)) + v)%N.
Proof.
  assert (Step : forall (c : ascii) k d0 (P : positive -> positive),
     is_digit c k ->
     (forall acc, Npos (P acc) = (k + 10 * Npos acc)%N) ->
     (exists v, digits (NilEmpty.string_of_uint d0) v /\ Pos.of_uint d0 = v /\
        forall acc, Npos (Pos.of_uint_acc d0 acc)
                = (Npos acc * 10 ^ N.of_nat (String.length (NilEmpty.string_of_uint d0)) + v)%N) ->
     forall (x : N), (x = if (k =? 0)%N then Pos.of_uint d0 else Npos (Pos.of_uint_acc d0 (N.succ_pos (N.pred k)))) ->
     exists v, digits (String c (NilEmpty.string_of_uint d0)) v /\ x = v /\
        forall acc, Npos (Pos.of_uint_acc d0 (P acc))
                = (Npos acc * 10 ^ N.of_nat (String.length (String c (NilEmpty.string_of_uint d0))) + v)%N).
  { intros c k d0 P Hc HP (v & Hv & Hu & Ha) x Hx.
    exists (k * 10 ^ N.of_nat (String.length (NilEmpty.string_of_uint d0)) + v)%N.
    split; [constructor; assumption|]. split.
    - subst x. destruct (N.eqb_spec k 0) as [->|Hk]; [rewrite Hu; lia|].
      rewrite Ha, N.succ_pos_spec, N.succ_pred by assumption. reflexivity.
    - intros acc. rewrite Ha, HP. cbn [String.length]. rewrite Nat2N.inj_succ, N.pow_succ_r'.
      set (q := (10 ^ _)%N). nia. }
  induction d as [|d IH|d IH|d IH|d IH|d IH|d IH|d IH|d IH|d IH|d IH].
  - exists 0%N. split; [constructor|]. split; [reflexivity|]. intros acc; cbn; lia.
  - exact (Step _ 0%N d (fun a => (10 * a)%positive) (is_digit_const 0 eq_refl) (fun a => ltac:(cbn beta; lia)) IH _ eq_refl).
  - exact (Step _ 1%N d (fun a => (1 + 10 * a)%positive) (is_digit_const 1 eq_refl) (fun a => ltac:(cbn beta; lia)) IH _ eq_refl).
  - exact (Step _ 2%N d (fun a => (2 + 10 * a)%positive) (is_digit_const 2 eq_refl) (fun a => ltac:(cbn beta; lia)) IH _ eq_refl).
  - exact (Step _ 3%N d (fun a => (3 + 10 * a)%positive) (is_digit_const 3 eq_refl) (fun a => ltac:(cbn beta; lia)) IH _ eq_refl).
  - exact (Step _ 4%N d (fun a => (4 + 10 * a)%positive) (is_digit_const 4 eq_refl) (fun a => ltac:(cbn beta; lia)) IH _ eq_refl).
  - exact (Step _ 5%N d (fun a => (5 + 10 * a)%positive) (is_digit_const 5 eq_refl) (fun a => ltac:(cbn beta; lia)) IH _ eq_refl).
  - exact (Step _ 6%N d (fun a => (6 + 10 * a)%positive) (is_digit_const 6 eq_refl) (fun a => ltac:(cbn beta; lia)) IH _ eq_refl).
  - exact (Step _ 7%N d (fun a => (7 + 10 * a)%positive) (is_digit_const 7 eq_refl) (fun a => ltac:(cbn beta; lia)) IH _ eq_refl).
  - exact (Step _ 8%N d (fun a => (8 + 10 * a)%positive) (is_digit_const 8 eq_refl) (fun a => ltac:(cbn beta; lia)) IH _ eq_refl).
  - exact (Step _ 9%N d (fun a => (9 + 10 * a)%positive) (is_digit_const 9 eq_refl) (fun a => ltac:(cbn beta; lia)) IH _ eq_refl).
Qed.

Lemma show_usize_decimal n : decimal (show_usize n) n.
Proof.
  unfold show_usize. apply decimal_digits.
  destruct (digits_string_of_uint (N.to_uint n)) as (v & Hv & Hu & _).
  assert (Hn : Pos.of_uint (N.to_uint n) = n) by apply (Unsigned.of_to n).
  rewrite Hn in Hu; subst v.
  destruct (N.to_uint n) eqn:E; cbn [NilZero.string_of_uint]; (split; [try exact Hv|cbn; congruence]).
  assert (n = 0)%N by (rewrite <- Hn; reflexivity). subst n. inv E.
Qed.

Lemma decimal_slash_free s v : decimal s v -> free_of "/"%char s.
Proof.
  induction 1; cbn; split; eauto using is_digit_not_slash.
Qed.

Lemma decimal_fun s v v' : decimal s v -> decimal s v' -> v = v'.
Proof.
  rewrite !decimal_digits. intros [H _] [H' _]. revert v' H'.
  induction H as [|c d s v Hd Hs IH]; intros v' H'; inv H'; [reflexivity|].
  match goal with Hx : is_digit c ?x |- _ => assert (x = d) by eauto using is_digit_fun end.
  match goal with Hx : digits s ?x |- _ => assert (v = x) by auto end. subst. reflexivity.
Qed.

Lemma show_usize_inj a b : show_usize a = show_usize b -> a = b.
Proof.
  intros E. pose proof (show_usize_decimal a) as Ha. pose proof (show_usize_decimal b) as Hb.
  rewrite E in Ha. eauto using decimal_fun.
Qed.

Lemma parse_show_usize n : (n < 2 ^ 64)%N -> parse_usize (show_usize n) = Some n.
Proof. intros H. apply parse_usize_spec. split; [exact H|left; apply show_usize_decimal]. Qed.

(** ** properties *)
Lemma parse_workflow_id_ok s w : parse_workflow_id s = Ok w <-> s <> "" /\ w = WorkflowId s.
Proof. destruct s; cbn; (split; [intros E; inv E; split; congruence|intros [H ->]; congruence]). Qed.

Lemma parse_job_id_ok s j :
  parse_job_id s = Ok j <->
  s = jid_0 j +++ "/" +++ jid_1 j /\ slash_free (jid_0 j) /\ slash_free (jid_1 j).
Proof.
  destruct j as [a b]; cbn [jid_0 jid_1].
  change (s = a +++ "/" +++ b) with (s = a +++ String slash b). unfold slash_free.
  change ("/"%char) with slash. rewrite <- split_2. unfold parse_job_id.
  destruct (split slash s) as [|x [|y [|z l]]]; split; congruence.
Qed.

Lemma parse_step_id_ok s i :
  parse_step_id s = Ok i <->
  exists n, s = sid_0 i +++ "/" +++ sid_1 i +++ "/" +++ n /\
            slash_free (sid_0 i) /\ slash_free (sid_1 i) /\ usize_text n (sid_2 i).
Proof.
  destruct i as [a b k]; cbn [sid_0 sid_1 sid_2]. split.
  - unfold parse_step_id. destruct (split slash s) as [|x [|y [|n [|? ?]]]] eqn:E; try discriminate.
    destruct (parse_usize n) as [k'|] eqn:En; [|discriminate]. intros [= -> -> ->].
    apply split_3 in E as (-> & Ha & Hb & Hn). apply parse_usize_spec in En. exists n; auto.
  - intros (n & -> & Ha & Hb & Hn). unfold parse_step_id.
    assert (Hf : slash_free n).
    { destruct Hn as [_ [Hn|(t & -> & Hn)]]; [eapply decimal_slash_free; eauto|].
      split; [discriminate|eapply decimal_slash_free; eauto]. }
    assert (E : split slash (a +++ "/" +++ b +++ "/" +++ n) = [a; b; n]) by (apply split_3; auto).
    rewrite E. apply parse_usize_spec in Hn. rewrite Hn. reflexivity.
Qed.

Lemma parse_workflow_id_err s e : parse_workflow_id s = Err e <->
  s = "" /\ e = InternalRuntimeError "WorkflowId cannot be empty".
Proof. destruct s; cbn; split; intros H; [inv H; auto|destruct H; subst; reflexivity|discriminate|destruct H; discriminate]. Qed.

Lemma parse_job_id_err s e : parse_job_id s = Err e <->
  count_char "/"%char s <> 1 /\
  e = InternalRuntimeError "JobId must be in the format of <workflow_id>/<job_key>".
Proof.
  unfold parse_job_id. pose proof (split_length slash s) as L. change slash with "/"%char in *.
  destruct (split "/"%char s) as [|x [|y [|z l]]]; cbn in L;
    (split; [intros H; inv H; (split; [lia|reflexivity])|intros [H ->]; try reflexivity; exfalso; lia]).
Qed.

Lemma parse_step_id_err s e : parse_step_id s = Err e <->
  (count_char "/"%char s <> 2 /\
   e = InternalRuntimeError "StepId must be in the format of <workflow_id>/<job_key>/<step_number>") \/
  (exists a b n, s = a +++ "/" +++ b +++ "/" +++ n /\ slash_free a /\ slash_free b /\ slash_free n /\
     (forall v, ~ usize_text n v) /\ e = InternalRuntimeError "Step number must be a number").
Proof.
  unfold parse_step_id. pose proof (split_length slash s) as L. change slash with "/"%char in *.
  destruct (split "/"%char s) as [|x [|y [|n [|? ?]]]] eqn:E; cbn in L;
    try solve [split; [intros H; inv H; left; split; [lia|reflexivity]
            |intros [[_ ->]|(a & b & m & Es & Ha & Hb & Hm & _)]; [reflexivity|];
             assert (E2 : split "/"%char s = [a; b; m]) by (apply split_3; auto); congruence]].
  destruct (parse_usize n) as [k|] eqn:En.
  - split; [discriminate|]. intros [[H _]|(a & b & m & Es & Ha & Hb & Hm & Hv & _)]; [exfalso; lia|].
    assert (E2 : split "/"%char s = [a; b; m]) by (apply split_3; auto).
    rewrite E in E2; injection E2 as -> -> ->. apply parse_usize_spec in En. exfalso; eapply Hv; eauto.
  - split.
    + intros H; inv H. right. apply split_3 in E as (-> & Ha & Hb & Hn). exists x, y, n.
      repeat split; auto. intros v Hv. apply parse_usize_spec in Hv. congruence.
    + intros [[H _]|(a & b & m & Es & Ha & Hb & Hm & Hv & ->)]; [exfalso; lia|reflexivity].
Qed.

Lemma workflow_id_roundtrip w : parse_workflow_id (show_workflow_id w) = Ok w <-> wid_0 w <> "".
Proof.
  rewrite parse_workflow_id_ok. destruct w as [s]; cbn. split; [tauto|auto].
Qed.

Lemma job_id_roundtrip j :
  parse_job_id (show_job_id j) = Ok j <-> slash_free (jid_0 j) /\ slash_free (jid_1 j).
Proof. rewrite parse_job_id_ok. unfold show_job_id. split; [tauto|auto]. Qed.

Lemma step_id_roundtrip i : (sid_2 i < 2 ^ 64)%N ->
  (parse_step_id (show_step_id i) = Ok i <-> slash_free (sid_0 i) /\ slash_free (sid_1 i)).
Proof.
  intros Hlt. rewrite parse_step_id_ok. unfold show_step_id. split.
  - intros (n & _ & Ha & Hb & _); auto.
  - intros [Ha Hb]. exists (show_usize (sid_2 i)). repeat split; auto. left; apply show_usize_decimal.
Qed.

(** the first '/' separates *)
Lemma free_app_inj c a b a' b' : free_of c a -> free_of c a' ->
  a +++ String c b = a' +++ String c b' -> a = a' /\ b = b'.
Proof.
  revert a'; induction a as [|x a IH]; intros [|y a']; cbn.
  - intros _ _ E; injection E; auto.
  - intros _ [Hn _] E; injection E; intros; congruence.
  - intros [Hn _] _ E; injection E; intros; congruence.
  - intros [Hn Ha] [Hn' Ha'] E; injection E as -> E. destruct (IH _ Ha Ha' E); subst; auto.
Qed.

Lemma append_cons_free_r_inj c a b a' b' : free_of c b -> free_of c b' ->
  a +++ String c b = a' +++ String c b' -> a = a' /\ b = b'.
Proof.
  assert (N : forall x y, free_of c x -> x = y +++ String c b' -> False).
  { intros x y; revert x; induction y as [|y0 y IH]; intros x Hx ->; cbn in Hx; [tauto|].
    destruct Hx as [_ Hx]. eapply IH; eauto. }
  assert (N' : forall x y, free_of c x -> x = y +++ String c b -> False).
  { intros x y; revert x; induction y as [|y0 y IH]; intros x Hx ->; cbn in Hx; [tauto|].
    destruct Hx as [_ Hx]. eapply IH; eauto. }
  intros Hb Hb'. revert a'; induction a as [|x a IH]; intros [|y a']; cbn; intros E.
  - injection E; auto.
  - injection E as _ E. exfalso; eapply N; [apply Hb|exact E].
  - injection E as _ E. exfalso; eapply N'; [apply Hb'|symmetry; exact E].
  - injection E as -> E. destruct (IH _ E); subst; auto.
Qed.

Lemma show_job_id_inj j j' :
  (slash_free (jid_0 j) /\ slash_free (jid_0 j')) \/ (slash_free (jid_1 j) /\ slash_free (jid_1 j')) ->
  show_job_id j = show_job_id j' -> j = j'.
Proof.
  destruct j as [a b], j' as [a' b']; unfold show_job_id; cbn [jid_0 jid_1].
  intros [[H H']|[H H']] E.
  - apply free_app_inj in E as [-> ->]; auto.
  - apply append_cons_free_r_inj in E as [-> ->]; auto.
Qed.

Lemma show_step_id_inj i i' :
  (slash_free (sid_0 i) /\ slash_free (sid_0 i')) \/ (slash_free (sid_1 i) /\ slash_free (sid_1 i')) ->
  show_step_id i = show_step_id i' -> i = i'.
Proof.
  destruct i as [a b n], i' as [a' b' n']; unfold show_step_id; cbn [sid_0 sid_1 sid_2].
  intros H E.
  assert (E' : (a +++ String slash b) +++ String slash (show_usize n)
             = (a' +++ String slash b') +++ String slash (show_usize n')) by (rewrite !append_assoc; exact E).
  apply append_cons_free_r_inj in E' as [E1 E2]; try (eapply decimal_slash_free; apply show_usize_decimal).
  apply show_usize_inj in E2. subst n'.
  assert (E3 : JobId a b = JobId a' b') by (apply show_job_id_inj; auto).
  congruence.
Qed.
