From Verif Require Import Base Types Runner_model Text_model Text_spec.
From Coq Require Import Zify ZifyN.
Ltac Zify.zify_post_hook ::= Z.to_euclidean_division_equations.
Local Open Scope N_scope.

Lemma byte_chr n : n < 256 -> byte (chr n) = n.
Proof. apply N_ascii_embedding. Qed.
Lemma chr_byte a : chr (byte a) = a.
Proof. apply ascii_N_embedding. Qed.
Lemma byte_lt a : byte a < 256.
Proof. apply N_ascii_bounded. Qed.
Lemma in_range_iff lo hi a : in_range lo hi a = true <-> lo <= byte a <= hi.
Proof. unfold in_range. rewrite andb_true_iff, !N.leb_le. reflexivity. Qed.

(** The encodings, one after the other. *)
Lemma encoded_encode1 c bs : c < 1114112 -> encoded c bs -> bytes bs = encode1 c.
Proof.
  intros Hc E. destruct E as [a H|a b H1 H2 H3|a b c H1 H2 H3 H4|a b c d H1 H2 H3 H4 H5]; unfold encode1.
  - rewrite (proj2 (N.ltb_lt _ _) H). reflexivity.
  - destruct (N.ltb_spec (a * 64 + b) 128); [lia|]. destruct (N.ltb_spec (a * 64 + b) 2048); [|lia].
    replace ((a * 64 + b) / 64) with a by lia. replace ((a * 64 + b) mod 64) with b by lia. reflexivity.
  - set (x := a * 4096 + b * 64 + c). destruct (N.ltb_spec x 128); [lia|]. destruct (N.ltb_spec x 2048); [lia|]. destruct (N.ltb_spec x 65536); [|lia].
    replace (x / 4096) with a by lia. replace (x / 64 mod 64) with b by lia. replace (x mod 64) with c by lia. reflexivity.
  - set (x := a * 262144 + b * 4096 + c * 64 + d) in *. destruct (N.ltb_spec x 128); [lia|]. destruct (N.ltb_spec x 2048); [lia|]. destruct (N.ltb_spec x 65536); [lia|].
    replace (x / 262144) with a by lia. replace (x / 4096 mod 64) with b by lia. replace (x / 64 mod 64) with c by lia. replace (x mod 64) with d by lia. reflexivity.
Qed.
Lemma encode1_encoded c : c < 1114112 -> exists bs, encoded c bs /\ encode1 c = bytes bs.
Proof.
  intros Hc. cut (exists bs, encoded c bs); [intros (bs & E); exists bs; split; [exact E|symmetry; apply encoded_encode1; assumption]|].
  destruct (N.lt_ge_cases c 128); [eexists; apply enc_1; assumption|].
  destruct (N.lt_ge_cases c 2048).
  { exists [192 + c / 64; 128 + c mod 64]. replace c with (c / 64 * 64 + c mod 64) at 1 by lia. apply enc_2; lia. }
  destruct (N.lt_ge_cases c 65536).
  { exists [224 + c / 4096; 128 + c / 64 mod 64; 128 + c mod 64]. replace c with (c / 4096 * 4096 + c / 64 mod 64 * 64 + c mod 64) at 1 by lia. apply enc_3; lia. }
  exists [240 + c / 262144; 128 + c / 4096 mod 64; 128 + c / 64 mod 64; 128 + c mod 64].
  replace c with (c / 262144 * 262144 + c / 4096 mod 64 * 4096 + c / 64 mod 64 * 64 + c mod 64) at 1 by lia. apply enc_4; lia.
Qed.

Lemma decode_cons c bs s : scalar c -> encoded c bs -> decode (bytes bs +++ s) = option_map (cons c) (decode s).
Proof.
  intros Sc E. destruct E as [a H|a b H1 H2 H3|a b c H1 H2 H3 H4|a b c d H1 H2 H3 H4 H5]; cbn [bytes append]; fold (chr) in *.
  - cbn [decode]. rewrite byte_chr by lia. rewrite (proj2 (N.ltb_lt _ _) H). reflexivity.
  - cbn [decode]. change ascii_of_N with chr. unfold cont, in_range. rewrite !byte_chr by lia.
    destruct (N.ltb_spec (192 + a) 128); [lia|]. rewrite (proj2 (N.leb_le 194 (192 + a))) by lia. rewrite (proj2 (N.leb_le (192 + a) 223)) by lia.
    rewrite (proj2 (N.leb_le 128 (128 + b))) by lia. rewrite (proj2 (N.leb_le (128 + b) 191)) by lia. cbn [andb].
    f_equal. f_equal. lia.
  - cbn [decode]. change ascii_of_N with chr. unfold cont, in_range. rewrite !byte_chr by lia. unfold scalar in Sc.
    destruct (N.ltb_spec (224 + a) 128); [lia|]. rewrite (proj2 (N.leb_le 194 (224 + a))) by lia. rewrite (proj2 (N.leb_gt (224 + a) 223)) by lia. cbn [andb].
    rewrite (proj2 (N.leb_le 224 (224 + a))) by lia. rewrite (proj2 (N.leb_le (224 + a) 239)) by lia. cbn [andb].
    rewrite (proj2 (N.leb_le 128 (128 + c))) by lia. rewrite (proj2 (N.leb_le (128 + c) 191)) by lia.
    replace ((if 224 + a =? 224 then 160 else 128) <=? 128 + b) with true by (symmetry; apply N.leb_le; destruct (N.eqb_spec (224 + a) 224); lia).
    replace (128 + b <=? (if 224 + a =? 237 then 159 else 191)) with true by (symmetry; apply N.leb_le; destruct (N.eqb_spec (224 + a) 237); lia).
    cbn [andb]. f_equal. f_equal. lia.
  - cbn [decode]. change ascii_of_N with chr. unfold cont, in_range. rewrite !byte_chr by lia. unfold scalar in Sc.
    destruct (N.ltb_spec (240 + a) 128); [lia|]. rewrite (proj2 (N.leb_le 194 (240 + a))) by lia. rewrite (proj2 (N.leb_gt (240 + a) 223)) by lia. cbn [andb].
    rewrite (proj2 (N.leb_le 224 (240 + a))) by lia. rewrite (proj2 (N.leb_gt (240 + a) 239)) by lia. cbn [andb].
    rewrite (proj2 (N.leb_le 240 (240 + a))) by lia. rewrite (proj2 (N.leb_le (240 + a) 244)) by lia.
    rewrite (proj2 (N.leb_le 128 (128 + c))) by lia. rewrite (proj2 (N.leb_le (128 + c) 191)) by lia.
    rewrite (proj2 (N.leb_le 128 (128 + d))) by lia. rewrite (proj2 (N.leb_le (128 + d) 191)) by lia.
    replace ((if 240 + a =? 240 then 144 else 128) <=? 128 + b) with true by (symmetry; apply N.leb_le; destruct (N.eqb_spec (240 + a) 240); lia).
    replace (128 + b <=? (if 240 + a =? 244 then 143 else 191)) with true by (symmetry; apply N.leb_le; destruct (N.eqb_spec (240 + a) 244); lia).
    cbn [andb]. f_equal. f_equal. lia.
Qed.

Lemma utf8_decode s cs : utf8 s cs -> decode s = Some cs.
Proof. induction 1 as [|c bs s cs Sc E U IH]; [reflexivity|]. rewrite (decode_cons c bs s Sc E), IH. reflexivity. Qed.

Lemma bytes_of_chars a r : String a r = bytes [byte a] +++ r.
Proof. cbn. change ascii_of_N with chr. rewrite chr_byte. reflexivity. Qed.

Lemma decode_utf8_len n : forall s cs, (String.length s <= n)%nat -> decode s = Some cs -> utf8 s cs.
Proof.
  induction n as [|n IH]; intros s cs Hl E.
  - destruct s; [|cbn in Hl; lia]. injection E as <-. constructor.
  - destruct s as [|a r]; [injection E as <-; constructor|]. cbn [String.length] in Hl. cbn [decode] in E. assert (La := byte_lt a).
    destruct (N.ltb_spec (byte a) 128) as [L|L].
    { destruct (decode r) as [l|] eqn:D; [|discriminate]. injection E as <-. rewrite bytes_of_chars. constructor; [unfold scalar; lia|apply enc_1, L|apply IH; [lia|exact D]]. }
    destruct r as [|b r]; [discriminate|]. cbn [String.length] in Hl. assert (Lb := byte_lt b).
    destruct (in_range 194 223 a) eqn:R1.
    { apply in_range_iff in R1. destruct (cont b) eqn:R2; [|discriminate]. apply in_range_iff in R2. destruct (decode r) as [l|] eqn:D; [|discriminate]. injection E as <-.
      replace (String a (String b r)) with (bytes [192 + (byte a - 192); 128 + (byte b - 128)] +++ r).
      2:{ cbn [bytes append]. change ascii_of_N with chr. replace (192 + (byte a - 192)) with (byte a) by lia. replace (128 + (byte b - 128)) with (byte b) by lia. rewrite !chr_byte. reflexivity. }
      constructor; [unfold scalar; lia|apply enc_2; lia|apply IH; [lia|exact D]]. }
    destruct r as [|c r]; [discriminate|]. cbn [String.length] in Hl. assert (Lc := byte_lt c).
    destruct (in_range 224 239 a) eqn:R3.
    { apply in_range_iff in R3. destruct (_ && _) eqn:R2; [|discriminate]. apply andb_true_iff in R2 as [R2 R4]. apply in_range_iff in R2. apply in_range_iff in R4. destruct (decode r) as [l|] eqn:D; [|discriminate]. injection E as <-.
      assert (B : 128 <= byte b <= 191 /\ (byte a = 224 -> 160 <= byte b) /\ (byte a = 237 -> byte b <= 159)).
      { destruct (N.eqb_spec (byte a) 224), (N.eqb_spec (byte a) 237); lia. }
      replace (String a (String b (String c r))) with (bytes [224 + (byte a - 224); 128 + (byte b - 128); 128 + (byte c - 128)] +++ r).
      2:{ cbn [bytes append]. change ascii_of_N with chr. replace (224 + (byte a - 224)) with (byte a) by lia. replace (128 + (byte b - 128)) with (byte b) by lia. replace (128 + (byte c - 128)) with (byte c) by lia. rewrite !chr_byte. reflexivity. }
      constructor; [unfold scalar; lia|apply enc_3; lia|apply IH; [lia|exact D]]. }
    destruct r as [|d r]; [discriminate|]. cbn [String.length] in Hl. assert (Ld := byte_lt d).
    destruct (_ && _) eqn:R2; [|discriminate]. apply andb_true_iff in R2 as [R2 R7]. apply andb_true_iff in R2 as [R2 R6]. apply andb_true_iff in R2 as [R2 R5]. apply in_range_iff in R2, R5, R6, R7.
    destruct (decode r) as [l|] eqn:D; [|discriminate]. injection E as <-.
    assert (B : 128 <= byte b <= 191 /\ (byte a = 240 -> 144 <= byte b) /\ (byte a = 244 -> byte b <= 143)).
    { destruct (N.eqb_spec (byte a) 240), (N.eqb_spec (byte a) 244); lia. }
    replace (String a (String b (String c (String d r)))) with (bytes [240 + (byte a - 240); 128 + (byte b - 128); 128 + (byte c - 128); 128 + (byte d - 128)] +++ r).
    2:{ cbn [bytes append]. change ascii_of_N with chr. replace (240 + (byte a - 240)) with (byte a) by lia. replace (128 + (byte b - 128)) with (byte b) by lia. replace (128 + (byte c - 128)) with (byte c) by lia. replace (128 + (byte d - 128)) with (byte d) by lia. rewrite !chr_byte. reflexivity. }
    constructor; [unfold scalar; lia|apply enc_4; lia|apply IH; [lia|exact D]].
Qed.
Lemma decode_spec s cs : decode s = Some cs <-> utf8 s cs.
Proof. split; [apply (decode_utf8_len (String.length s)); lia|apply utf8_decode]. Qed.
Lemma utf8_encode s cs : utf8 s cs <-> Forall scalar cs /\ s = encode cs.
Proof.
  split.
  - induction 1 as [|c bs s cs Sc E U [IH1 IH2]]; [split; [constructor|reflexivity]|]. split; [constructor; assumption|]. cbn [encode].
    rewrite <- (encoded_encode1 c bs), IH2; [reflexivity|unfold scalar in Sc; lia|exact E].
  - intros [F ->]. induction F as [|c cs Sc F IH]; [constructor|]. cbn [encode]. destruct (encode1_encoded c) as (bs & E & ->); [unfold scalar in Sc; lia|]. constructor; assumption.
Qed.
Lemma utf8_ok_spec s : utf8_ok s = true <-> exists cs, utf8 s cs.
Proof. unfold utf8_ok. destruct (decode s) as [cs|] eqn:D; split; [intros _; exists cs; apply decode_spec, D|reflexivity|discriminate|]. intros (cs & U). apply decode_spec in U. congruence. Qed.

(** *** trim *)
Lemma white_spec c : white c = true <-> whitespace c.
Proof.
  unfold white, whitespace. rewrite !orb_true_iff, !andb_true_iff, !N.leb_le, !N.eqb_eq. cbn [In]. split; [intros [[[[[[[[[[H|H]|H]|H]|H]|H]|H]|H]|H]|H]|H]; subst; tauto|].
  intros [H|[H|H]]; [tauto| |tauto]. decompose [or] H; subst; tauto.
Qed.
Lemma white_false c : white c = false <-> ~ whitespace c.
Proof. rewrite <- white_spec. destruct (white c); split; congruence. Qed.
Lemma drop_white_spec cs : exists l, cs = l ++ drop_white cs /\ Forall whitespace l /\ forall c t, drop_white cs = c :: t -> ~ whitespace c.
Proof.
  induction cs as [|c cs (l & E & F & H)]; [exists []; repeat split; [constructor|discriminate]|]. cbn [drop_white]. destruct (white c) eqn:W.
  - exists (c :: l). split; [cbn; rewrite <- E; reflexivity|]. split; [constructor; [apply white_spec, W|exact F]|exact H].
  - exists []. split; [reflexivity|]. split; [constructor|]. intros c' t X. injection X as <- _. apply white_false, W.
Qed.
Lemma trim_trimmed cs : trimmed cs (trim cs).
Proof.
  unfold trim. destruct (drop_white_spec cs) as (l & E & F & H). set (d := drop_white cs) in *. destruct (drop_white_spec (rev d)) as (r & E' & F' & H').
  set (t := drop_white (rev d)) in *. assert (Ed : d = rev t ++ rev r) by (rewrite <- rev_app_distr, <- E', rev_involutive; reflexivity).
  exists l, (rev r). split; [rewrite <- Ed; exact E|]. split; [exact F|]. split; [apply Forall_rev, F'|]. split.
  - intros c t' X. apply (H c (t' ++ rev r)). rewrite Ed, X. reflexivity.
  - intros t' c X. apply (H' c (rev t')). rewrite <- (rev_involutive t), X, rev_app_distr. reflexivity.
Qed.
Lemma trimmed_unique s t t' : trimmed s t -> trimmed s t' -> t = t'.
Proof.
  (* the whitespace at one end is determined unless everything is whitespace *)
  assert (L : forall l l' (a b : list N), l ++ a = l' ++ b -> Forall whitespace l -> Forall whitespace l' ->
    (forall c x, a = c :: x -> ~ whitespace c) -> (forall c x, b = c :: x -> ~ whitespace c) -> a = b \/ (a = [] /\ Forall whitespace b) \/ (b = [] /\ Forall whitespace a)).
  { induction l as [|x l IH]; intros [|y l'] a b E F F' Ha Hb; cbn in E.
    - auto.
    - destruct (Ha y (l' ++ b) E). inversion F'; assumption.
    - destruct (Hb x (l ++ a) (eq_sym E)). inversion F; assumption.
    - injection E as <- E. inversion F; inversion F'; subst. eapply IH; eassumption. }
  intros (l & r & E & F1 & F2 & H1 & H2) (l' & r' & E' & F1' & F2' & H1' & H2').
  (* no scalar of [t] at its ends is whitespace: so nor does an all-whitespace [t] exist unless empty *)
  assert (Nn : forall t, (forall c x, t = c :: x -> ~ whitespace c) -> Forall whitespace t -> t = []).
  { intros [|c x] H F; [reflexivity|]. destruct (H c x eq_refl). inversion F; assumption. }
  destruct (list_eq_dec N.eq_dec t []) as [->|Nt]; destruct (list_eq_dec N.eq_dec t' []) as [->|Nt'].
  - reflexivity.
  - exfalso. apply Nt', Nn; [exact H1'|]. assert (F : Forall whitespace s) by (rewrite E; cbn; apply Forall_app; auto).
    rewrite E' in F. apply Forall_app in F as [_ F]. apply Forall_app in F as [F _]. exact F.
  - exfalso. apply Nt, Nn; [exact H1|]. assert (F : Forall whitespace s) by (rewrite E'; cbn; apply Forall_app; auto).
    rewrite E in F. apply Forall_app in F as [_ F]. apply Forall_app in F as [F _]. exact F.
  - assert (A : t ++ r = t' ++ r').
    { rewrite E in E'. destruct (L l l' _ _ E' F1 F1') as [A|[[A _]|[A _]]].
      - intros c x X. destruct t as [|c' t]; [congruence|]. injection X as <- _. eapply H1; reflexivity.
      - intros c x X. destruct t' as [|c' t']; [congruence|]. injection X as <- _. eapply H1'; reflexivity.
      - exact A.
      - apply app_eq_nil in A as [A _]. contradiction.
      - apply app_eq_nil in A as [A _]. contradiction. }
    apply (f_equal (@rev N)) in A. rewrite !rev_app_distr in A.
    assert (R : forall u, (forall x c, u = x ++ [c] -> ~ whitespace c) -> forall c x, rev u = c :: x -> ~ whitespace c).
    { intros u H c x X. apply (H (rev x)). rewrite <- (rev_involutive u), X. reflexivity. }
    destruct (L (rev r) (rev r') _ _ A (Forall_rev F2) (Forall_rev F2') (R _ H2) (R _ H2')) as [B|[[B _]|[B _]]].
    + rewrite <- (rev_involutive t), B. apply rev_involutive.
    + apply (f_equal (@rev N)) in B. rewrite rev_involutive in B. contradiction.
    + apply (f_equal (@rev N)) in B. rewrite rev_involutive in B. contradiction.
Qed.
Lemma trim_spec s t : trim s = t <-> trimmed s t.
Proof. split; [intros <-; apply trim_trimmed|]. intros H. eapply trimmed_unique; [apply trim_trimmed|exact H]. Qed.
