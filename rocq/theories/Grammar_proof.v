(** Proofs: the reader accepts exactly the JSON texts. *)
From Verif Require Import Base Types Ids_model Ids_spec Ids_proof Serde_model Serde_spec Json_model Json_spec Paths_proof Json_proof Grammar_spec.
From Verif Require Text_model Text_spec Text_proof.

(** ** White space *)
Lemma is_ws_iff c : is_ws c = true <-> exists n, In n [32; 9; 10; 13] /\ c = ascii_of_nat n.
Proof.
  split.
  - intros H. exists (nat_of_ascii c). split; [|symmetry; apply ascii_nat_embedding]. unfold is_ws in H. destruct c as [[] [] [] [] [] [] [] []]; vm_compute in H; try discriminate H; cbn; auto.
  - intros (n & H & ->). cbn in H. destruct H as [<-|[<-|[<-|[<-|[]]]]]; reflexivity.
Qed.
Definition head_ok (s : string) : Prop := match s with String c _ => is_ws c = false | "" => True end.
Lemma skip_ws_split s : exists w, white w /\ s = w +++ skip_ws s /\ head_ok (skip_ws s).
Proof.
  induction s as [|c s (w & W & E & H)]; [exists ""; repeat split; constructor|]. cbn [skip_ws]. destruct (is_ws c) eqn:Ec.
  - exists (String c w). split; [|split; [cbn [append]; congruence|exact H]]. apply is_ws_iff in Ec as (n & Hn & ->). constructor; assumption.
  - exists "". split; [constructor|]. split; [reflexivity|exact Ec].
Qed.
Lemma skip_ws_white w r : white w -> skip_ws (w +++ r) = skip_ws r.
Proof. induction 1 as [|n s H _ IH]; [reflexivity|]. cbn [append skip_ws]. rewrite (proj2 (is_ws_iff _) (ex_intro _ n (conj H eq_refl))). exact IH. Qed.
Lemma skip_ws_head s : head_ok s -> skip_ws s = s.
Proof. destruct s as [|c r]; [reflexivity|]. cbn [head_ok skip_ws]. intros ->. reflexivity. Qed.
Lemma white_app a b : white a -> white b -> white (a +++ b).
Proof. induction 1; intros Hb; cbn [append]; [exact Hb|constructor; auto]. Qed.
Lemma white_stops w r : white w -> stops r -> stops (w +++ r).
Proof. intros W S. destruct W as [|n s H _]; [exact S|]. cbn in H. destruct H as [<-|[<-|[<-|[<-|[]]]]]; repeat split. Qed.

(** ** Escapes *)
Lemma hex_value_iff c n : hex_value c = Some n <-> hex c n.
Proof.
  split.
  - assert (D : forall m, (m <? 10)%N = true -> hex (ascii_of_N (48 + m)) m) by (intros m Hm; constructor; lia).
    assert (L : forall m, ((10 <=? m) && (m <? 16))%N = true -> hex (ascii_of_N (97 + (m - 10))) m) by (intros m Hm; apply hex_low; lia).
    assert (U : forall m, ((10 <=? m) && (m <? 16))%N = true -> hex (ascii_of_N (65 + (m - 10))) m) by (intros m Hm; apply hex_up; lia).
    intros H. destruct c as [[] [] [] [] [] [] [] []]; vm_compute in H; try discriminate H; injection H as <-;
      match goal with |- hex _ ?m => first [exact (D m eq_refl)|exact (L m eq_refl)|exact (U m eq_refl)] end.
  - intros [m Hm|m Hm|m Hm]; destruct m as [|p]; try lia; try reflexivity; do 4 (destruct p as [p|p|]; try lia; try reflexivity).
Qed.
Lemma parse_hex4_sound s n r : parse_hex4 s = Some (n, r) -> exists h, s = h +++ r /\ hex4 h n.
Proof.
  unfold parse_hex4. destruct s as [|a [|b [|c [|d s]]]]; try discriminate. destruct (hex_value a) as [x|] eqn:Ea; [|discriminate]. destruct (hex_value b) as [y|] eqn:Eb; [|discriminate].
  destruct (hex_value c) as [z|] eqn:Ec; [|discriminate]. destruct (hex_value d) as [t|] eqn:Ed; [|discriminate]. cbn [bind_opt]. intros H. injection H as <- <-.
  exists (String a (String b (String c (String d "")))). split; [reflexivity|]. replace (((x * 16 + y) * 16 + z) * 16 + t)%N with (x * 4096 + y * 256 + z * 16 + t)%N by lia. constructor; apply hex_value_iff; assumption.
Qed.
Lemma parse_hex4_complete h n r : hex4 h n -> parse_hex4 (h +++ r) = Some (n, r).
Proof.
  intros [a b c d x y z t Ha Hb Hc Hd]. apply hex_value_iff in Ha, Hb, Hc, Hd. cbn [append parse_hex4]. rewrite Ha, Hb, Hc, Hd. cbn [bind_opt]. f_equal. f_equal. lia.
Qed.
Lemma hex_bound c n : hex c n -> (n < 16)%N.
Proof. intros []; lia. Qed.
Lemma hex4_bound h n : hex4 h n -> (n < 65536)%N.
Proof. intros [a b c d x y z t Ha Hb Hc Hd]. apply hex_bound in Ha, Hb, Hc, Hd. lia. Qed.
Lemma utf8_encode1 n : utf8 n = Text_model.encode1 n.
Proof. reflexivity. Qed.
Lemma utf8_ok n : (n < 1114112)%N -> utf8_form n (utf8 n).
Proof. intros H. rewrite utf8_encode1. exact (Text_proof.encode1_encoded n H). Qed.
Lemma utf8_unique n s : (n < 1114112)%N -> utf8_form n s -> s = utf8 n.
Proof. intros H (bs & E & ->). rewrite utf8_encode1. apply Text_proof.encoded_encode1; assumption. Qed.

(** After the backslash. *)
Inductive escape_text : string -> string -> Prop :=
| et_escape e n : In (e, n) escapes -> escape_text (String e "") (String (ascii_of_nat n) "")
| et_unicode h n s : hex4 h n -> ~ high n -> ~ low n -> utf8_form n s -> escape_text (String "u" h) s
| et_pair h h' n n' s : hex4 h n -> hex4 h' n' -> high n -> low n' -> utf8_form (65536 + (n - 55296) * 1024 + (n' - 56320)) s ->
    escape_text (String "u" h +++ backslash (String "u" h')) s.
Lemma parse_escape_simple c s : c <> "u"%char -> (exists n, In (c, n) escapes /\ parse_escape (String c s) = Some (String (ascii_of_nat n) "", s)) \/ parse_escape (String c s) = None.
Proof.
  intros H. assert (L : forall n, existsb (fun e => Ascii.eqb c (fst e) && Nat.eqb n (snd e)) escapes = true -> In (c, n) escapes).
  { intros n E. apply existsb_exists in E as ([c' n'] & Hi & E). apply andb_true_iff in E as [E1 E2]. apply Ascii.eqb_eq in E1. apply Nat.eqb_eq in E2. cbn [fst snd] in *. subst. exact Hi. }
  destruct c as [[] [] [] [] [] [] [] []];
    first [right; reflexivity|destruct (H eq_refl)|left; first [exists 34; split; [exact (L 34 eq_refl)|reflexivity]|exists 92; split; [exact (L 92 eq_refl)|reflexivity]|exists 47; split; [exact (L 47 eq_refl)|reflexivity]
      |exists 8; split; [exact (L 8 eq_refl)|reflexivity]|exists 12; split; [exact (L 12 eq_refl)|reflexivity]|exists 10; split; [exact (L 10 eq_refl)|reflexivity]|exists 13; split; [exact (L 13 eq_refl)|reflexivity]|exists 9; split; [exact (L 9 eq_refl)|reflexivity]]].
Qed.
Lemma parse_escape_sound s x r : parse_escape s = Some (x, r) -> exists t, s = t +++ r /\ escape_text t x.
Proof.
  destruct s as [|c s]; [discriminate|]. intros H.
  assert (Hc : (exists n, In (c, n) escapes /\ Some (String (ascii_of_nat n) "", s) = Some (x, r)) \/ c = "u"%char).
  { destruct (ascii_dec c "u") as [E|E]; [right; exact E|left]. destruct (parse_escape_simple c s E) as [(n & Hn & En)|En]; [|congruence]. exists n. split; [exact Hn|congruence]. }
  destruct Hc as [(n & Hn & E)| ->].
  { injection E as <- <-. exists (String c ""). split; [reflexivity|]. constructor. exact Hn. }
  unfold parse_escape in H. change (nat_of_ascii "u") with 117 in H. cbn iota in H. destruct (parse_hex4 s) as [[n r1]|] eqn:Eh; [|discriminate H]. cbn [bind_opt fst snd] in H.
  apply parse_hex4_sound in Eh as (h & -> & Hh). pose proof (hex4_bound _ _ Hh) as B.
  destruct ((56320 <=? n) && (n <=? 57343))%N eqn:El; [discriminate H|]. destruct ((55296 <=? n) && (n <=? 56319))%N eqn:Ehi.
  - destruct r1 as [|b [|u r2]]; try discriminate H. destruct (Ascii.eqb b (chr 92) && Ascii.eqb u "u") eqn:Ebu; [|discriminate H]. apply andb_true_iff in Ebu as [Eb Eu]. apply Ascii.eqb_eq in Eb, Eu. subst b u.
    destruct (parse_hex4 r2) as [[n2 r3]|] eqn:Eh2; [|discriminate H]. cbn [bind_opt fst snd] in H. apply parse_hex4_sound in Eh2 as (h2 & -> & Hh2).
    destruct ((56320 <=? n2) && (n2 <=? 57343))%N eqn:El2; [|discriminate H].
    assert (U : utf8_form (65536 + (n - 55296) * 1024 + (n2 - 56320)) (utf8 (65536 + (n - 55296) * 1024 + (n2 - 56320)))) by (apply utf8_ok; lia).
    revert H U. generalize (utf8 (65536 + (n - 55296) * 1024 + (n2 - 56320))) as y. intros y H U. injection H as <- <-. exists (String "u" h +++ backslash (String "u" h2)).
    split; [cbn [append]; rewrite append_assoc_s; reflexivity|]. eapply et_pair; [exact Hh|exact Hh2|unfold high; lia|unfold low; lia|exact U].
  - assert (U : utf8_form n (utf8 n)) by (apply utf8_ok; lia). revert H U. generalize (utf8 n) as y. intros y H U. injection H as <- <-. exists (String "u" h). split; [reflexivity|].
    eapply et_unicode; [exact Hh|unfold high; lia|unfold low; lia|exact U].
Qed.
Lemma parse_escape_complete t x r : escape_text t x -> parse_escape (t +++ r) = Some (x, r).
Proof.
  intros [e n H|h n s Hh Nh Nl U|h h' n n' s Hh Hh' Hn Hl U].
  - cbn in H. repeat (destruct H as [H|H]; [injection H as <- <-; reflexivity|]). destruct H.
  - cbn [append parse_escape]. change (nat_of_ascii "u") with 117. cbn iota. rewrite (parse_hex4_complete _ _ _ Hh). cbn [bind_opt fst snd]. apply utf8_unique in U as ->; [|apply hex4_bound in Hh; lia]. unfold high, low in *.
    replace ((56320 <=? n) && (n <=? 57343))%N with false by lia. replace ((55296 <=? n) && (n <=? 56319))%N with false by lia. reflexivity.
  - cbn [append parse_escape]. change (nat_of_ascii "u") with 117. cbn iota. rewrite append_assoc_s, (parse_hex4_complete _ _ _ Hh). cbn [bind_opt fst snd]. apply utf8_unique in U as ->; [|unfold high, low in *; lia]. unfold high, low, backslash in *. cbn [append].
    replace ((56320 <=? n) && (n <=? 57343))%N with false by lia. replace ((55296 <=? n) && (n <=? 56319))%N with true by lia.
    change (Ascii.eqb (ascii_of_nat 92) (chr 92) && Ascii.eqb "u" "u") with true. cbn iota. rewrite (parse_hex4_complete _ _ _ Hh'). cbn [bind_opt fst snd]. replace ((56320 <=? n') && (n' <=? 57343))%N with true by lia. reflexivity.
Qed.
Lemma piece_cases t x : piece t x <-> (exists c, t = String c "" /\ x = String c "" /\ 32 <= nat_of_ascii c /\ nat_of_ascii c <> 34 /\ nat_of_ascii c <> 92) \/ (exists t', t = backslash t' /\ escape_text t' x).
Proof.
  split.
  - intros [c H1 H2 H3|e n H|h n s Hh Nh Nl U|h h' n n' s Hh Hh' Hn Hl U]; [left; eauto 10|right..].
    + exists (String e ""). split; [reflexivity|]. constructor. exact H.
    + exists (String "u" h). split; [reflexivity|]. eapply et_unicode; eassumption.
    + exists (String "u" h +++ backslash (String "u" h')). split; [reflexivity|]. eapply et_pair; eassumption.
  - intros [(c & -> & -> & H)|(t' & -> & [e n H|h n s Hh Nh Nl U|h h' n n' s Hh Hh' Hn Hl U])].
    + constructor; tauto. + constructor; assumption. + econstructor; eassumption. + change (backslash (String "u" h +++ backslash (String "u" h'))) with (backslash (String "u" h) +++ backslash (String "u" h')). econstructor; eassumption.
Qed.

(** ** Strings *)
Lemma nat_ascii_ne c n : n < 256 -> Ascii.eqb c (chr n) = false -> nat_of_ascii c <> n.
Proof. intros B E H. apply Ascii.eqb_neq in E. apply E. unfold chr. rewrite <- H. symmetry. apply ascii_nat_embedding. Qed.
Lemma parse_string_sound : forall n s x r, parse_string n s = Some (x, r) -> exists t, s = t +++ String (chr 34) r /\ inside t x.
Proof.
  induction n as [|n IH]; intros s x r H; [discriminate H|]. destruct s as [|c s]; [discriminate H|]. cbn [parse_string] in H.
  destruct (Ascii.eqb c (chr 34)) eqn:E1; [apply Ascii.eqb_eq in E1; injection H as <- <-; subst c; exists ""; split; [reflexivity|constructor]|].
  destruct (Ascii.eqb c (chr 92)) eqn:E2.
  - apply Ascii.eqb_eq in E2. subst c. destruct (parse_escape s) as [[y r1]|] eqn:Ee; [|discriminate H]. cbn [bind_opt fst snd] in H. destruct (parse_string n r1) as [[z r2]|] eqn:Es; [|discriminate H]. cbn [bind_opt fst snd] in H. injection H as <- <-.
    apply parse_escape_sound in Ee as (t & -> & Ht). apply IH in Es as (t' & -> & Ht'). exists (backslash t +++ t'). split; [unfold backslash; cbn [append]; rewrite append_assoc_s; reflexivity|].
    constructor; [apply piece_cases; right; eauto|exact Ht'].
  - destruct (Nat.ltb (nat_of_ascii c) 32) eqn:E3; [discriminate H|]. apply Nat.ltb_ge in E3. destruct (parse_string n s) as [[z r2]|] eqn:Es; [|discriminate H]. cbn [bind_opt fst snd] in H. injection H as <- <-.
    apply IH in Es as (t' & -> & Ht'). exists (String c "" +++ t'). split; [reflexivity|]. change (String c z) with (String c "" +++ z). constructor; [|exact Ht'].
    constructor; [exact E3| |]; eapply nat_ascii_ne; try eassumption; lia.
Qed.
Lemma escape_text_nonempty t x : escape_text t x -> 1 <= String.length t.
Proof. intros []; cbn; lia. Qed.
Lemma parse_string_complete t x : inside t x -> forall n r, String.length t < n -> parse_string n (t +++ String (chr 34) r) = Some (x, r).
Proof.
  induction 1 as [|t s t' s' P _ IH]; intros n r L; (destruct n as [|n]; [lia|]); [reflexivity|].
  rewrite length_append_s in L. apply piece_cases in P as [(c & -> & -> & H1 & H2 & H3)|(u & -> & E)]; cbn [String.length] in L.
  - cbn [append parse_string]. destruct (Ascii.eqb_spec c (chr 34)) as [->|_]; [destruct H2; reflexivity|]. destruct (Ascii.eqb_spec c (chr 92)) as [->|_]; [destruct H3; reflexivity|].
    replace (Nat.ltb (nat_of_ascii c) 32) with false by (symmetry; apply Nat.ltb_ge; exact H1). rewrite IH by lia. reflexivity.
  - unfold backslash in *. cbn [append parse_string String.length] in *. change (Ascii.eqb (ascii_of_nat 92) (chr 34)) with false. change (Ascii.eqb (ascii_of_nat 92) (chr 92)) with true. cbn iota.
    rewrite append_assoc_s, (parse_escape_complete _ _ _ E). cbn [bind_opt fst snd]. rewrite IH by lia. reflexivity.
Qed.

(** ** Numbers *)
Lemma take_digits_split s d r : take_digits s = (d, r) -> s = d +++ r /\ exists v, digits d v.
Proof.
  revert d r. induction s as [|c s IH]; intros d r H; cbn [take_digits] in H; [injection H as <- <-; split; [reflexivity|exists 0%N; constructor]|].
  destruct (is_dig c) eqn:E; [|injection H as <- <-; split; [reflexivity|exists 0%N; constructor]]. destruct (take_digits s) as [d' r'] eqn:E'. injection H as <- <-. destruct (IH _ _ eq_refl) as [-> (v & V)].
  split; [reflexivity|]. unfold is_dig in E. destruct (digit_of c) as [x|] eqn:Ex; [|discriminate E]. apply digit_of_spec in Ex. eexists. econstructor; eassumption.
Qed.
Lemma take_int_sound s i r : take_int s = Some (i, r) -> s = i +++ r /\ no_leading_zero i /\ decimal i (digits_value 0 i).
Proof.
  unfold take_int. destruct (take_digits s) as [d r'] eqn:E. apply take_digits_split in E as [-> (v & V)]. intros H.
  assert (K : d <> "" /\ (i, r) = (d, r') /\ no_leading_zero d).
  { destruct d as [|c [|c2 d]]; [discriminate H|injection H as <- <-; split; [discriminate|]; split; [reflexivity|]; intros u Hu; injection Hu as _ <-; reflexivity|].
    destruct (Ascii.eqb_spec c "0"); [discriminate H|]. injection H as <- <-. split; [discriminate|]. split; [reflexivity|]. intros u Hu. injection Hu as Hc _. contradiction. }
  destruct K as (N & K & Z). injection K as -> ->. split; [reflexivity|]. split; [exact Z|]. apply decimal_digits. split; [|exact N]. rewrite (digits_value_spec _ _ V). replace (0 * _ + v)%N with v by lia. exact V.
Qed.
Definition frac_text (fr : string) : Prop := fr = "" \/ exists d, fr = String "." d /\ digit_text d.
Definition exp_text (ex : string) : Prop := ex = "" \/ exists e sg d, ex = String e (sg +++ d) /\ (e = "e"%char \/ e = "E"%char) /\ (sg = "" \/ sg = "+" \/ sg = "-") /\ digit_text d.
Lemma take_frac_sound s f r : take_frac s = Some (f, r) -> s = f +++ r /\ frac_text f.
Proof.
  unfold take_frac. destruct s as [|c s]; [intros H; injection H as <- <-; split; [reflexivity|left; reflexivity]|]. destruct (Ascii.eqb_spec c "."); [|intros H; injection H as <- <-; split; [reflexivity|left; reflexivity]].
  subst c. destruct (take_digits s) as [d r'] eqn:E. apply take_digits_split in E as [-> (v & V)]. destruct (eqb d "") eqn:Ed; [discriminate|]. intros H. injection H as <- <-. split; [reflexivity|]. right. exists d. split; [reflexivity|].
  exists v. apply decimal_digits. split; [exact V|]. apply (proj1 (eqb_false _ _)) in Ed. exact Ed.
Qed.
Lemma take_exp_sound s f r : take_exp s = Some (f, r) -> s = f +++ r /\ exp_text f.
Proof.
  unfold take_exp. destruct s as [|c s]; [intros H; injection H as <- <-; split; [reflexivity|left; reflexivity]|]. destruct (Ascii.eqb c "e" || Ascii.eqb c "E") eqn:Ec; [|intros H; injection H as <- <-; split; [reflexivity|left; reflexivity]].
  assert (Hc : c = "e"%char \/ c = "E"%char) by (apply orb_true_iff in Ec as [Ec|Ec]; apply Ascii.eqb_eq in Ec; auto).
  assert (S : exists sg r1, (match s with String c1 r1 => if Ascii.eqb c1 "+" || Ascii.eqb c1 "-" then (String c1 "", r1) else ("", s) | "" => ("", s) end) = (sg, r1) /\ s = sg +++ r1 /\ (sg = "" \/ sg = "+" \/ sg = "-")).
  { destruct s as [|c1 s]; [exists "", ""; auto|]. destruct (Ascii.eqb_spec c1 "+"); [subst; exists "+", s; auto|]. destruct (Ascii.eqb_spec c1 "-"); [subst; exists "-", s; auto|]. exists "", (String c1 s). auto. }
  destruct S as (sg & r1 & -> & -> & Hsg). destruct (take_digits r1) as [d r'] eqn:E. apply take_digits_split in E as [-> (v & V)]. destruct (eqb d "") eqn:Ed; [discriminate|]. intros H. injection H as <- <-. split; [cbn [append]; rewrite append_assoc_s; reflexivity|].
  right. exists c, sg, d. split; [reflexivity|]. split; [exact Hc|]. split; [exact Hsg|]. exists v. apply decimal_digits. split; [exact V|]. apply (proj1 (eqb_false _ _)) in Ed. exact Ed.
Qed.

Section Json.
Variable read_f64_text : string -> option spec_float.
Notation parse_number := (parse_number read_f64_text).
Notation parse_value := (parse_value read_f64_text).
Notation parse_elements := (parse_elements read_f64_text).
Notation parse_members := (parse_members read_f64_text).
Notation number_text := (number_text read_f64_text).
Notation value_text := (value_text read_f64_text).
Notation elements_text := (elements_text read_f64_text).
Notation members_text := (members_text read_f64_text).

Lemma parse_number_sound s v r : parse_number s = Some (v, r) -> exists t, s = t +++ r /\ number_text t v.
Proof.
  unfold Json_model.parse_number.
  assert (S : exists neg s1, (match s with String c r => if Ascii.eqb c "-" then (true, r) else (false, s) | "" => (false, s) end) = (neg, s1) /\ s = (if neg : bool then "-" else "") +++ s1).
  { destruct s as [|c s]; [exists false, ""; auto|]. destruct (Ascii.eqb_spec c "-"); [subst; exists true, s; auto|exists false, (String c s); auto]. }
  destruct S as (neg & s1 & -> & ->). destruct (take_int s1) as [[i r1]|] eqn:Ei; [|discriminate]. cbn [bind_opt fst snd]. apply take_int_sound in Ei as (-> & Zi & Di).
  destruct (take_frac r1) as [[f r2]|] eqn:Ef; [|discriminate]. cbn [bind_opt fst snd]. apply take_frac_sound in Ef as (-> & Hf).
  destruct (take_exp r2) as [[e r3]|] eqn:Ee; [|discriminate]. cbn [bind_opt fst snd]. apply take_exp_sound in Ee as (-> & He).
  set (n := digits_value 0 i) in *. intros H.
  destruct (eqb (f +++ e) "") eqn:Efe.
  - apply (proj1 (eqb_true _ _)) in Efe. assert (f = "" /\ e = "") as [-> ->] by (destruct f; [split; [reflexivity|exact Efe]|discriminate Efe]).
    cbn [append andb] in *. rewrite append_nil_r in H. exists ((if neg then "-" else "") +++ i).
    destruct neg; cbn [append] in *.
    + destruct ((0 <? n)%N && (n <=? 2 ^ 63)%N) eqn:B.
      * injection H as <- <-. split; [reflexivity|]. apply number_neg; [exact Di|exact Zi|]. apply andb_true_iff in B as [B1 B2]. apply N.ltb_lt in B1. apply N.leb_le in B2. split; assumption.
      * destruct (read_f64_text (String "-" i)) as [x|] eqn:Ex; [|discriminate H]. injection H as <- <-. split; [reflexivity|]. eapply number_small; [exact Di|exact Zi| |exact Ex].
        apply andb_false_iff in B as [B|B]; [apply N.ltb_ge in B; left; lia|apply N.leb_gt in B; right; exact B].
    + destruct (n <? 2 ^ 64)%N eqn:B.
      * injection H as <- <-. split; [reflexivity|]. apply number_nat; [exact Di|exact Zi|]. apply N.ltb_lt in B. exact B.
      * destruct (read_f64_text i) as [x|] eqn:Ex; [|discriminate H]. injection H as <- <-. split; [reflexivity|]. eapply number_big; [exact Di|exact Zi| |exact Ex]. apply N.ltb_ge in B. exact B.
  - cbn [andb] in H. destruct (read_f64_text ((if neg then "-" else "") +++ i +++ f +++ e)) as [x|] eqn:Ex; [|discriminate H]. injection H as <- <-. exists ((if neg then "-" else "") +++ i +++ f +++ e).
    split; [rewrite !append_assoc_s; reflexivity|]. apply number_float; [|exact Ex]. constructor; [destruct neg; auto|eexists; exact Di|exact Zi|exact Hf|exact He|].
    apply (proj1 (eqb_false _ _)) in Efe. destruct f; [right; exact Efe|left; discriminate].
Qed.
Lemma parse_plain (neg : bool) i n rest : decimal i n -> no_leading_zero i -> stops rest ->
  parse_number ((if neg then "-" else "") +++ i +++ rest) =
    (if (if neg then (0 <? n)%N && (n <=? 2 ^ 63)%N else (n <? 2 ^ 64)%N) then Some (VInt (if neg then - Z.of_N n else Z.of_N n), rest)
     else let! x := read_f64_text ((if neg then "-" else "") +++ i) in Some (VFloat x, rest)).
Proof.
  intros D Z S. assert (T : take_int (i +++ rest) = Some (i, rest)) by (eapply take_int_spec; [apply D|exact Z|apply stops_not_digit, S]).
  assert (V : digits_value 0 i = n) by (destruct (proj1 (decimal_digits _ _) D) as [Dn _]; rewrite (digits_value_spec _ _ Dn); lia).
  unfold Json_model.parse_number. destruct neg; cbn [append].
  - change (Ascii.eqb "-" "-") with true. cbn iota. rewrite T. cbn [bind_opt fst snd]. rewrite take_frac_stops by exact S. cbn [bind_opt fst snd]. rewrite take_exp_stops by exact S. cbn [bind_opt fst snd append]. rewrite V, append_nil_r. change (eqb "" "") with true. reflexivity.
  - destruct (decimal_head _ _ D) as (c & t & Ec & Hc). apply is_dig_facts in Hc as (Hm & _).
    assert (Em : (match i +++ rest with String c r => if Ascii.eqb c "-" then (true, r) else (false, i +++ rest) | "" => (false, i +++ rest) end) = (false, i +++ rest)) by (rewrite Ec; cbn [append]; rewrite Hm; reflexivity).
    rewrite Em, T. cbn [bind_opt fst snd]. rewrite take_frac_stops by exact S. cbn [bind_opt fst snd]. rewrite take_exp_stops by exact S. cbn [bind_opt fst snd append]. rewrite V, append_nil_r. change (eqb "" "") with true. reflexivity.
Qed.
Lemma parse_number_complete t v rest : number_text t v -> stops rest -> parse_number (t +++ rest) = Some (v, rest).
Proof.
  intros [i n D Z B|i n D Z B|i n x D Z B R|i n x D Z B R|u x F R] S.
  - pose proof (parse_plain false i n rest D Z S) as P. cbn [append] in P. rewrite P. clear P. cbn iota. replace (n <? 2 ^ 64)%N with true by (symmetry; apply N.ltb_lt; exact B). reflexivity.
  - change (String "-" i +++ rest) with ("-" +++ i +++ rest). pose proof (parse_plain true i n rest D Z S) as P. cbn [append] in *. rewrite P. clear P. cbn iota. replace (0 <? n)%N with true by (symmetry; apply N.ltb_lt; apply B). replace (n <=? 2 ^ 63)%N with true by (symmetry; apply N.leb_le; apply B). reflexivity.
  - pose proof (parse_plain false i n rest D Z S) as P. cbn [append] in P. rewrite P. clear P. cbn iota. replace (n <? 2 ^ 64)%N with false by (symmetry; apply N.ltb_ge; exact B). cbn [append]. rewrite R. reflexivity.
  - change (String "-" i +++ rest) with ("-" +++ i +++ rest). pose proof (parse_plain true i n rest D Z S) as P. cbn [append] in *. rewrite P. clear P. cbn iota.
    replace ((0 <? n) && (n <=? 2 ^ 63))%N with false. 2: { symmetry. apply andb_false_iff. destruct B as [->|B]; [left; reflexivity|right; apply N.leb_gt; exact B]. }
    cbn [append]. rewrite R. reflexivity.
  - apply (parse_float read_f64_text); assumption.
Qed.
Lemma number_text_head t v : number_text t v -> exists c r, t = String c r /\ is_number_head c = true.
Proof.
  assert (D : forall i n, decimal i n -> exists c r, i = String c r /\ is_number_head c = true) by (intros i n D; destruct (decimal_head _ _ D) as (c & u & -> & H); exists c, u; unfold is_number_head; rewrite H; auto).
  intros [i n H Z B|i n H Z B|i n x H Z B R|i n x H Z B R|u x F R]; try (eapply D; eassumption); try (eexists _, _; split; reflexivity). apply float_text_head, F.
Qed.

(** ** Values *)
Lemma literal_sound w s r : literal w s = Some r -> s = w +++ r.
Proof.
  unfold literal. destruct (String.prefix w s) eqn:E; [|discriminate]. intros H. injection H as <-. revert s E. induction w as [|c w IH]; intros s E.
  - cbn [String.length append]. rewrite Nat.sub_0_r. clear. induction s; cbn; congruence.
  - destruct s as [|c' s]; [discriminate E|]. cbn [String.prefix] in E. destruct (ascii_dec c c'); [|discriminate E]. subst. cbn [String.length append String.substring]. f_equal. rewrite <- (IH s E) at 1. reflexivity.
Qed.
Lemma bind_opt_some {A B} (x : option A) (f : A -> option B) y : bind_opt x f = Some y -> exists a, x = Some a /\ f a = Some y.
Proof. destruct x; [eauto|discriminate]. Qed.
Lemma parse_str_ok t x r : inside t x -> is_text x -> parse_str (t +++ String (chr 34) r) = Some (x, r).
Proof.
  intros H U. unfold parse_str. rewrite (parse_string_complete _ _ H) by (rewrite length_append_s; cbn [String.length]; lia). cbn [bind_opt fst]. apply Text_proof.utf8_ok_spec in U. rewrite U. reflexivity.
Qed.
Lemma parse_str_sound s x r : parse_str s = Some (x, r) -> exists t, s = t +++ String (chr 34) r /\ inside t x /\ is_text x.
Proof.
  intros H. apply bind_opt_some in H as ([y r1] & E & H). cbn [fst] in H. destruct (Text_model.utf8_ok y) eqn:U; [|discriminate H]. injection H as -> ->. apply parse_string_sound in E as (t & -> & T). exists t. split; [reflexivity|]. split; [exact T|].
  apply Text_proof.utf8_ok_spec. exact U.
Qed.

Definition value_sound (n : nat) : Prop := forall d s v r, 1 <= d -> parse_value n d s = Some (v, r) -> exists w t, s = w +++ t +++ r /\ white w /\ value_text t v /\ nesting v < d.
Definition elements_sound (n : nat) : Prop := forall d s l r, 1 <= d -> parse_elements n d s = Some (l, r) -> exists t, s = t +++ "]" +++ r /\ elements_text t l /\ max_list (map nesting l) < d.
Definition members_sound (n : nat) : Prop := forall d s m r, 1 <= d -> parse_members n d s = Some (m, r) -> exists t, s = t +++ "}" +++ r /\ members_text t m /\ max_list (map (fun e => nesting (snd e)) m) < d.
Lemma value_step n : elements_sound n -> members_sound n -> value_sound (S n).
Proof.
  intros ES MS d s v r D H. rewrite parse_value_S in H. destruct (skip_ws_split s) as (w & W & E & Hh). destruct (skip_ws s) as [|c u] eqn:Eu; [discriminate H|]. rewrite E. clear E Eu s. exists w.
  destruct (Ascii.eqb_spec c (chr 34)) as [->|N1].
  { apply bind_opt_some in H as ([x r1] & Ex & H). cbn [fst snd] in H. injection H as <- <-. apply parse_str_sound in Ex as (t & -> & T & U). exists (String (chr 34) (t +++ String (chr 34) "")).
    split; [cbn [append]; rewrite append_assoc_s; reflexivity|]. split; [exact W|]. split; [constructor; constructor; assumption|exact D]. }
  destruct (Ascii.eqb_spec c "[") as [->|N2].
  { destruct d as [|[|d]]; try discriminate H. destruct (skip_ws u) as [|c1 r1] eqn:Eu; [discriminate H|]. destruct (Ascii.eqb_spec c1 "]") as [->|N3].
    - injection H as <- <-. destruct (skip_ws_split u) as (w1 & W1 & E & _). rewrite Eu in E. exists ("[" +++ w1 +++ "]"). split; [rewrite E; cbn [append]; rewrite append_assoc_s; reflexivity|]. split; [exact W|]. split; [constructor; exact W1|cbn; lia].
    - apply bind_opt_some in H as ([l r2] & El & H). cbn [fst snd] in H. injection H as <- <-. apply ES in El as (t & -> & T & B); [|lia]. exists ("[" +++ t +++ "]"). split; [cbn [append]; rewrite append_assoc_s; reflexivity|].
      split; [exact W|]. split; [constructor; exact T|]. cbn [nesting]. lia. }
  destruct (Ascii.eqb_spec c "{") as [->|N3].
  { destruct d as [|[|d]]; try discriminate H. destruct (skip_ws u) as [|c1 r1] eqn:Eu; [discriminate H|]. destruct (Ascii.eqb_spec c1 "}") as [->|N4].
    - injection H as <- <-. destruct (skip_ws_split u) as (w1 & W1 & E & _). rewrite Eu in E. exists ("{" +++ w1 +++ "}"). split; [rewrite E; cbn [append]; rewrite append_assoc_s; reflexivity|]. split; [exact W|]. split; [constructor; exact W1|cbn; lia].
    - apply bind_opt_some in H as ([l r2] & El & H). cbn [fst snd] in H. injection H as <- <-. apply MS in El as (t & -> & T & B); [|lia]. exists ("{" +++ t +++ "}"). split; [cbn [append]; rewrite append_assoc_s; reflexivity|].
      split; [exact W|]. split; [constructor; exact T|]. cbn [nesting]. lia. }
  destruct (Ascii.eqb_spec c "n") as [->|N4].
  { apply bind_opt_some in H as (r1 & El & H). injection H as <- <-. apply literal_sound in El as ->. exists "null". split; [reflexivity|]. split; [exact W|]. split; [constructor|exact D]. }
  destruct (Ascii.eqb_spec c "t") as [->|N5].
  { apply bind_opt_some in H as (r1 & El & H). injection H as <- <-. apply literal_sound in El as ->. exists "true". split; [reflexivity|]. split; [exact W|]. split; [constructor|exact D]. }
  destruct (Ascii.eqb_spec c "f") as [->|N6].
  { apply bind_opt_some in H as (r1 & El & H). injection H as <- <-. apply literal_sound in El as ->. exists "false". split; [reflexivity|]. split; [exact W|]. split; [constructor|exact D]. }
  apply parse_number_sound in H as (t & -> & T). exists t. split; [reflexivity|]. split; [exact W|]. split; [constructor; exact T|]. destruct T; exact D.
Qed.
Lemma elements_step n : value_sound n -> elements_sound n -> elements_sound (S n).
Proof.
  intros VS ES d s l r D H. rewrite parse_elements_S in H. apply bind_opt_some in H as ([v r1] & Ev & H). cbn [fst snd] in H. apply VS in Ev as (w & t & -> & W & T & B); [|exact D].
  destruct (skip_ws_split r1) as (w2 & W2 & E & _). destruct (skip_ws r1) as [|c r2]; [discriminate H|]. subst r1. destruct (Ascii.eqb_spec c "]") as [->|N1].
  - injection H as <- <-. exists (w +++ t +++ w2). split; [rewrite !append_assoc_s; reflexivity|]. split; [constructor; assumption|]. cbn. lia.
  - destruct (Ascii.eqb_spec c ",") as [->|N2]; [|discriminate H]. apply bind_opt_some in H as ([l2 r3] & El & H). cbn [fst snd] in H. injection H as <- <-. apply ES in El as (u & -> & U & Bu); [|exact D].
    exists (w +++ t +++ w2 +++ "," +++ u). split; [rewrite !append_assoc_s; reflexivity|]. split; [constructor; assumption|]. cbn [map max_list fold_right] in *. fold (max_list (map nesting l2)). lia.
Qed.
Lemma members_step n : value_sound n -> members_sound n -> members_sound (S n).
Proof.
  intros VS MS d s l r D H. rewrite parse_members_S in H. destruct (skip_ws_split s) as (w & W & E & _). destruct (skip_ws s) as [|q r0]; [discriminate H|]. subst s. destruct (Ascii.eqb_spec q (chr 34)) as [->|N0]; [|discriminate H].
  apply bind_opt_some in H as ([k r1] & Ek & H). cbn [fst snd] in H. apply parse_str_sound in Ek as (tk & -> & Tk & Uk). assert (K : string_text (String (ascii_of_nat 34) (tk +++ String (ascii_of_nat 34) "")) k) by (constructor; assumption).
  destruct (skip_ws_split r1) as (w2 & W2 & E & _). destruct (skip_ws r1) as [|c r2]; [discriminate H|]. subst r1. destruct (Ascii.eqb_spec c ":") as [->|N1]; [|discriminate H].
  apply bind_opt_some in H as ([v r3] & Ev & H). cbn [fst snd] in H. apply VS in Ev as (w3 & t & -> & W3 & T & B); [|exact D].
  destruct (skip_ws_split r3) as (w4 & W4 & E & _). destruct (skip_ws r3) as [|c2 r4]; [discriminate H|]. subst r3. destruct (Ascii.eqb_spec c2 "}") as [->|N2].
  - injection H as <- <-. exists (w +++ String (ascii_of_nat 34) (tk +++ String (ascii_of_nat 34) "") +++ w2 +++ ":" +++ w3 +++ t +++ w4). split; [repeat first [rewrite append_assoc_s|progress cbn [append]]; reflexivity|]. split; [constructor; assumption|]. cbn. lia.
  - destruct (Ascii.eqb_spec c2 ",") as [->|N3]; [|discriminate H]. apply bind_opt_some in H as ([l2 r5] & El & H). cbn [fst snd] in H. injection H as <- <-. apply MS in El as (u & -> & U & Bu); [|exact D].
    exists (w +++ String (ascii_of_nat 34) (tk +++ String (ascii_of_nat 34) "") +++ w2 +++ ":" +++ w3 +++ t +++ w4 +++ "," +++ u). split; [repeat first [rewrite append_assoc_s|progress cbn [append]]; reflexivity|]. split; [constructor; assumption|].
    cbn [map max_list fold_right snd] in *. fold (max_list (map (fun e : value * value => nesting (snd e)) l2)). lia.
Qed.
Lemma all_sound n : value_sound n /\ elements_sound n /\ members_sound n.
Proof.
  induction n as [|n (V & E & M)]; [repeat split; intros d s v r _ H; discriminate H|]. split; [apply value_step; assumption|]. split; [apply elements_step; assumption|apply members_step; assumption].
Qed.

(** The other direction. *)
Lemma value_text_head t v : value_text t v -> exists c r, t = String c r /\ is_ws c = false /\ Ascii.eqb c "]" = false.
Proof.
  intros [ | | |u x H|u x [y z H U]|u H|u l H|u H|u m H]; try (eexists _, _; repeat split; reflexivity). apply number_text_head in H as (c & r & -> & H). destruct (number_not_close _ H). eauto.
Qed.
Lemma value_text_length t v : value_text t v -> 1 <= String.length t.
Proof. intros H. apply value_text_head in H as (c & r & -> & _). cbn. lia. Qed.
Scheme vt_ind := Minimality for Grammar_spec.value_text Sort Prop with et_ind := Minimality for Grammar_spec.elements_text Sort Prop with mt_ind := Minimality for Grammar_spec.members_text Sort Prop.
Combined Scheme texts_ind from vt_ind, et_ind, mt_ind.
Lemma parse_value_white n d w s : white w -> parse_value n d (w +++ s) = parse_value n d s.
Proof. intros W. destruct n; [reflexivity|]. rewrite !parse_value_S, skip_ws_white by exact W. reflexivity. Qed.
Lemma parse_elements_white n d w s : white w -> parse_elements n d (w +++ s) = parse_elements n d s.
Proof. intros W. destruct n; [reflexivity|]. rewrite !parse_elements_S, parse_value_white by exact W. reflexivity. Qed.
Lemma parse_members_white n d w s : white w -> parse_members n d (w +++ s) = parse_members n d s.
Proof. intros W. destruct n; [reflexivity|]. rewrite !parse_members_S, skip_ws_white by exact W. reflexivity. Qed.
Lemma elements_text_head t l : elements_text t l -> exists w c r, t = w +++ String c r /\ white w /\ is_ws c = false /\ Ascii.eqb c "]" = false.
Proof.
  intros [w1 t' w2 v W1 W2 T|w1 t' w2 v r l' W1 W2 T R]; destruct (value_text_head _ _ T) as (c & u & -> & H1 & H2); exists w1, c; eexists; (split; [cbn [append]; reflexivity|auto]).
Qed.
Lemma members_text_head t l : members_text t l -> exists w r, t = w +++ String (chr 34) r /\ white w.
Proof.
  intros [w1 k s w2 w3 t' w4 v W1 W2 W3 W4 [tk s' Tk Uk] T|w1 k s w2 w3 t' w4 v r m W1 W2 W3 W4 [tk s' Tk Uk] T R]; exists w1; eexists; (split; [cbn [append]; reflexivity|auto]).
Qed.
Lemma all_complete :
  (forall t v, value_text t v -> forall n d r, 2 * String.length t <= n -> nesting v < d -> stops r -> parse_value n d (t +++ r) = Some (v, r)) /\
  (forall t l, elements_text t l -> forall n d r, 2 * String.length t + 1 <= n -> max_list (map nesting l) < d -> parse_elements n d (t +++ "]" +++ r) = Some (l, r)) /\
  (forall t m, members_text t m -> forall n d r, 2 * String.length t + 1 <= n -> max_list (map (fun e => nesting (snd e)) m) < d -> parse_members n d (t +++ "}" +++ r) = Some (m, r)).
Proof.
  apply texts_ind.
  - intros [|n] d r L B St; [cbn in L; lia|]. cbn [append]. rewrite parse_value_S. cbn [skip_ws]. change (is_ws "n") with false. cbn iota. change (Ascii.eqb "n" (chr 34)) with false. change (Ascii.eqb "n" "[") with false. change (Ascii.eqb "n" "{") with false. change (Ascii.eqb "n" "n") with true. cbn iota.
    change (String "u" (String "l" (String "l" r))) with ("ull" +++ r). rewrite literal_ok. reflexivity.
  - intros [|n] d r L B St; [cbn in L; lia|]. cbn [append]. rewrite parse_value_S. cbn [skip_ws]. change (is_ws "t") with false. cbn iota. change (Ascii.eqb "t" (chr 34)) with false. change (Ascii.eqb "t" "[") with false. change (Ascii.eqb "t" "{") with false. change (Ascii.eqb "t" "n") with false. change (Ascii.eqb "t" "t") with true. cbn iota.
    change (String "r" (String "u" (String "e" r))) with ("rue" +++ r). rewrite literal_ok. reflexivity.
  - intros [|n] d r L B St; [cbn in L; lia|]. cbn [append]. rewrite parse_value_S. cbn [skip_ws]. change (is_ws "f") with false. cbn iota. change (Ascii.eqb "f" (chr 34)) with false. change (Ascii.eqb "f" "[") with false. change (Ascii.eqb "f" "{") with false. change (Ascii.eqb "f" "n") with false. change (Ascii.eqb "f" "t") with false. change (Ascii.eqb "f" "f") with true. cbn iota.
    change (String "a" (String "l" (String "s" (String "e" r)))) with ("alse" +++ r). rewrite literal_ok. reflexivity.
  - intros t v T n d r L B St. assert (P := parse_number_complete _ _ r T St). destruct (number_text_head _ _ T) as (c & u & -> & H). destruct n as [|n]; [cbn in L; lia|]. cbn [append] in *. rewrite parse_value_number by exact H. exact P.
  - intros t s [t' s' T U] n d r L B St. destruct n as [|n]; [cbn in L; lia|]. cbn [append]. rewrite append_assoc_s. rewrite parse_value_S. cbn [skip_ws append]. change (is_ws (ascii_of_nat 34)) with false. cbn iota. change (Ascii.eqb (ascii_of_nat 34) (chr 34)) with true. cbn iota.
    change (ascii_of_nat 34) with (chr 34). rewrite (parse_str_ok _ _ r T U). reflexivity.
  - intros w W n d r L B St. destruct n as [|n]; [cbn in L; lia|]. cbn [nesting map max_list fold_right] in B. destruct d as [|[|d]]; [lia|lia|]. cbn [append]. rewrite append_assoc_s, parse_value_S. cbn [skip_ws]. change (is_ws "[") with false. cbn iota. change (Ascii.eqb "[" (chr 34)) with false. change (Ascii.eqb "[" "[") with true. cbn iota.
    rewrite (skip_ws_white _ _ W). reflexivity.
  - intros t l T IH n d r L B St. destruct n as [|n]; [cbn in L; lia|]. cbn [nesting] in B. destruct d as [|[|d]]; [lia|lia|]. cbn [append String.length] in *. rewrite length_append_s in L. cbn [String.length] in L.
    rewrite append_assoc_s, parse_value_S. cbn [skip_ws]. change (is_ws "[") with false. cbn iota. change (Ascii.eqb "[" (chr 34)) with false. change (Ascii.eqb "[" "[") with true. cbn iota.
    change ("]" +++ r) with (String "]" r). rewrite (IH n (S d) r) by lia. destruct (elements_text_head _ _ T) as (w & c & u & -> & W & H1 & H2). rewrite append_assoc_s, (skip_ws_white _ _ W). cbn [append skip_ws]. rewrite H1, H2. reflexivity.
  - intros w W n d r L B St. destruct n as [|n]; [cbn in L; lia|]. cbn [nesting map max_list fold_right] in B. destruct d as [|[|d]]; [lia|lia|]. cbn [append]. rewrite append_assoc_s, parse_value_S. cbn [skip_ws]. change (is_ws "{") with false. cbn iota. change (Ascii.eqb "{" (chr 34)) with false. change (Ascii.eqb "{" "[") with false. change (Ascii.eqb "{" "{") with true. cbn iota.
    rewrite (skip_ws_white _ _ W). reflexivity.
  - intros t l T IH n d r L B St. destruct n as [|n]; [cbn in L; lia|]. cbn [nesting] in B. destruct d as [|[|d]]; [lia|lia|]. cbn [append String.length] in *. rewrite length_append_s in L. cbn [String.length] in L.
    rewrite append_assoc_s, parse_value_S. cbn [skip_ws]. change (is_ws "{") with false. cbn iota. change (Ascii.eqb "{" (chr 34)) with false. change (Ascii.eqb "{" "[") with false. change (Ascii.eqb "{" "{") with true. cbn iota.
    change ("}" +++ r) with (String "}" r). rewrite (IH n (S d) r) by lia. destruct (members_text_head _ _ T) as (w & u & -> & W). rewrite append_assoc_s, (skip_ws_white _ _ W). reflexivity.
  - intros w1 t w2 v W1 W2 T IH n d r L B. rewrite !length_append_s in L. destruct n as [|n]; [lia|]. cbn [map max_list fold_right] in B. rewrite !append_assoc_s, parse_elements_white by exact W1. rewrite parse_elements_S.
    rewrite (IH n d) by (first [lia|apply white_stops; [exact W2|repeat split]]). cbn [bind_opt fst snd]. rewrite (skip_ws_white _ _ W2). reflexivity.
  - intros w1 t w2 v r0 l W1 W2 T IH R IHr n d r L B. rewrite !length_append_s in L. cbn [String.length] in L. destruct n as [|n]; [lia|]. cbn [map max_list fold_right] in B. fold (max_list (map nesting l)) in B. rewrite !append_assoc_s, parse_elements_white by exact W1. rewrite parse_elements_S.
    rewrite (IH n d) by (first [lia|apply white_stops; [exact W2|repeat split]]). cbn [bind_opt fst snd]. rewrite (skip_ws_white _ _ W2). cbn [append skip_ws]. change (is_ws ",") with false. cbn iota. change (Ascii.eqb "," "]") with false. change (Ascii.eqb "," ",") with true. cbn iota.
    change (String "]" r) with ("]" +++ r). rewrite (IHr n d r) by lia. reflexivity.
  - intros w1 k s w2 w3 t w4 v W1 W2 W3 W4 [tk s' Tk Uk] T IH n d r L B. rewrite !length_append_s in L. cbn [String.length] in L. destruct n as [|n]; [lia|]. cbn [map max_list fold_right snd] in B. rewrite !append_assoc_s, parse_members_white by exact W1. rewrite parse_members_S.
    cbn [append skip_ws]. change (is_ws (ascii_of_nat 34)) with false. cbn iota. change (Ascii.eqb (ascii_of_nat 34) (chr 34)) with true. cbn iota. rewrite append_assoc_s. change (ascii_of_nat 34) with (chr 34). cbn [append]. rewrite (parse_str_ok _ _ _ Tk Uk). cbn [bind_opt fst snd].
    rewrite (skip_ws_white _ _ W2). cbn [skip_ws]. change (is_ws ":") with false. cbn iota. change (Ascii.eqb ":" ":") with true. cbn iota. rewrite (parse_value_white _ _ _ _ W3).
    rewrite (IH n d) by (first [lia|apply white_stops; [exact W4|repeat split]]). cbn [bind_opt fst snd]. rewrite (skip_ws_white _ _ W4). reflexivity.
  - intros w1 k s w2 w3 t w4 v r0 m W1 W2 W3 W4 [tk s' Tk Uk] T IH R IHr n d r L B. rewrite !length_append_s in L. cbn [String.length] in L. destruct n as [|n]; [lia|]. cbn [map max_list fold_right snd] in B. fold (max_list (map (fun e : value * value => nesting (snd e)) m)) in B. rewrite !append_assoc_s, parse_members_white by exact W1. rewrite parse_members_S.
    cbn [append skip_ws]. change (is_ws (ascii_of_nat 34)) with false. cbn iota. change (Ascii.eqb (ascii_of_nat 34) (chr 34)) with true. cbn iota. rewrite append_assoc_s. change (ascii_of_nat 34) with (chr 34). cbn [append]. rewrite (parse_str_ok _ _ _ Tk Uk). cbn [bind_opt fst snd].
    rewrite (skip_ws_white _ _ W2). cbn [skip_ws]. change (is_ws ":") with false. cbn iota. change (Ascii.eqb ":" ":") with true. cbn iota. rewrite (parse_value_white _ _ _ _ W3).
    rewrite (IH n d) by (first [lia|apply white_stops; [exact W4|repeat split]]). cbn [bind_opt fst snd]. rewrite (skip_ws_white _ _ W4). cbn [skip_ws]. change (is_ws ",") with false. cbn iota. change (Ascii.eqb "," "}") with false. change (Ascii.eqb "," ",") with true. cbn iota.
    change (String "}" r) with ("}" +++ r). rewrite (IHr n d r) by lia. reflexivity.
Qed.

Lemma parse_iff s v : parse read_f64_text s = Some v <-> json_text read_f64_text s v /\ nesting v <= 127.
Proof.
  unfold parse. split.
  - intros H. apply bind_opt_some in H as ([v' r] & E & H). cbn [fst snd] in H. destruct (eqb (skip_ws r) "") eqn:Er; [|discriminate H]. injection H as ->. apply (proj1 (eqb_true _ _)) in Er.
    destruct (skip_ws_split r) as (w2 & W2 & E2 & _). rewrite Er, append_nil_r in E2. subst r. apply (proj1 (all_sound _)) in E as (w1 & t & -> & W1 & T & B); [|lia]. split; [constructor; assumption|lia].
  - intros [[w1 t w2 v' W1 W2 T] B]. rewrite parse_value_white by exact W1. rewrite (proj1 all_complete _ _ T) by (first [rewrite !length_append_s; lia|lia|rewrite <- (append_nil_r w2); apply white_stops; [exact W2|exact I]]).
    cbn [bind_opt fst snd]. rewrite <- (append_nil_r w2), (skip_ws_white _ _ W2). reflexivity.
Qed.
End Json.
