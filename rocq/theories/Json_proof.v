(** Proofs: what is written is read back. *)
From Verif Require Import Base Types Ids_model Ids_spec Ids_proof Plugins_model Serde_model Serde_spec Serde_proof Json_model Json_spec Paths_proof.
From Verif Require Text_model Text_spec Text_proof.
From Coq Require DecimalN DecimalFacts.

Section ValueInd.
Variable P : value -> Prop.
Hypothesis Hnull : P VNull. Hypothesis Hbool : forall b, P (VBool b). Hypothesis Hint : forall z, P (VInt z).
Hypothesis Hfloat : forall f, P (VFloat f). Hypothesis Hstr : forall s, P (VStr s).
Hypothesis Hseq : forall l, Forall P l -> P (VSeq l). Hypothesis Hmap : forall m, Forall (fun e => P (fst e) /\ P (snd e)) m -> P (VMap m).
Fixpoint value_ind' (v : value) : P v :=
  match v with
  | VNull => Hnull | VBool b => Hbool b | VInt z => Hint z | VFloat f => Hfloat f | VStr s => Hstr s
  | VSeq l => Hseq l ((fix go l := match l return Forall P l with [] => Forall_nil _ | x :: r => Forall_cons _ (value_ind' x) (go r) end) l)
  | VMap m => Hmap m ((fix go m := match m return Forall (fun e => P (fst e) /\ P (snd e)) m with [] => Forall_nil _ | x :: r => Forall_cons _ (conj (value_ind' (fst x)) (value_ind' (snd x))) (go r) end) m)
  end.
End ValueInd.

(** ** Strings *)
Lemma parse_string_char c n s : parse_string (S n) (escape c +++ s) = bind_opt (parse_string n s) (fun x => Some (String c (fst x), snd x)).
Proof. destruct c as [[] [] [] [] [] [] [] []]; reflexivity. Qed.
Lemma escape_nonempty c : 1 <= String.length (escape c).
Proof. destruct c as [[] [] [] [] [] [] [] []]; apply Nat.leb_le; reflexivity. Qed.
Lemma parse_string_spec s : forall n rest, String.length s < n -> parse_string n (escape_all s +++ String (chr 34) rest) = Some (s, rest).
Proof.
  induction s as [|c s IH]; intros [|n] rest L; cbn [String.length] in L; try lia.
  - reflexivity.
  - cbn [escape_all]. rewrite append_assoc_s, parse_string_char. rewrite IH by lia. reflexivity.
Qed.
Lemma length_append_s a b : String.length (a +++ b) = String.length a + String.length b.
Proof. induction a; cbn; congruence. Qed.
Lemma length_escape_all s : String.length s <= String.length (escape_all s).
Proof. induction s as [|c s IH]; cbn [escape_all String.length]; [lia|]. rewrite length_append_s. pose proof (escape_nonempty c). lia. Qed.

(** ** Numbers *)
Definition not_digit (rest : string) : Prop := match rest with String c _ => is_dig c = false | "" => True end.
Definition stops (rest : string) : Prop :=
  match rest with String c _ => is_dig c = false /\ Ascii.eqb c "." = false /\ Ascii.eqb c "e" = false /\ Ascii.eqb c "E" = false | "" => True end.
Lemma stops_not_digit rest : stops rest -> not_digit rest.
Proof. destruct rest; [trivial|]. intros H. apply H. Qed.
Lemma take_digits_spec s v rest : digits s v -> not_digit rest -> take_digits (s +++ rest) = (s, rest).
Proof.
  intros H Hr. induction H as [|c d s v Hd Hs IH]; cbn [append take_digits].
  - destruct rest as [|c r]; [reflexivity|]. cbn in *. rewrite Hr. reflexivity.
  - unfold is_dig. apply digit_of_spec in Hd. rewrite Hd, IH. reflexivity.
Qed.
Lemma digits_value_spec s v : digits s v -> forall acc, digits_value acc s = (acc * 10 ^ N.of_nat (String.length s) + v)%N.
Proof.
  induction 1 as [|c d s v Hd Hs IH]; intros acc; cbn [digits_value].
  - cbn. lia.
  - apply digit_of_spec in Hd. rewrite Hd, IH. cbn [String.length]. rewrite Nat2N.inj_succ, N.pow_succ_r'. set (p := (10 ^ _)%N). nia.
Qed.
Lemma show_usize_head n r : show_usize n = String "0" r -> r = "".
Proof.
  unfold show_usize. intros H. assert (E : Decimal.unorm (N.to_uint n) = N.to_uint n).
  { rewrite <- (DecimalN.Unsigned.to_of (N.to_uint n)), (DecimalN.Unsigned.of_to n). reflexivity. }
  destruct (N.to_uint n) as [|u|u|u|u|u|u|u|u|u|u]; cbn in H; try discriminate H.
  - injection H as <-. reflexivity.
  - injection H as <-. unfold Decimal.unorm in E. cbn [Decimal.nzhead] in E. destruct (Decimal.nzhead u) eqn:Eu.
    + injection E as <-. reflexivity.
    + exfalso. injection E as E. eapply DecimalFacts.nzhead_nonzero; eauto.
    + discriminate E. + discriminate E. + discriminate E. + discriminate E. + discriminate E. + discriminate E. + discriminate E. + discriminate E. + discriminate E.
Qed.
Definition no_leading_zero (i : string) : Prop := forall r, i = String "0" r -> r = "".
Lemma take_int_spec i v rest : decimal i v -> no_leading_zero i -> not_digit rest -> take_int (i +++ rest) = Some (i, rest).
Proof.
  intros D Z Hr. apply decimal_digits in D as [D N]. unfold take_int. rewrite (take_digits_spec _ _ _ D Hr).
  destruct i as [|c [|c2 r]]; [contradiction|reflexivity|]. destruct (Ascii.eqb_spec c "0"); [|reflexivity]. subst. specialize (Z _ eq_refl). discriminate Z.
Qed.
Lemma digit_not_sign s v r c : decimal s v -> s +++ r = String c (match s with String _ s' => s' | "" => "" end +++ r) -> True.
Proof. trivial. Qed.
Lemma decimal_head s v : decimal s v -> exists c t, s = String c t /\ is_dig c = true.
Proof. intros D. assert (H : exists c d t, s = String c t /\ is_digit c d) by (inversion D; eauto). destruct H as (c & d & t & -> & Hd). exists c, t. split; [reflexivity|]. apply digit_of_spec in Hd. unfold is_dig. rewrite Hd. reflexivity. Qed.
Lemma is_dig_facts c : is_dig c = true -> Ascii.eqb c "-" = false /\ Ascii.eqb c "+" = false /\ Ascii.eqb c "." = false /\ Ascii.eqb c "e" = false /\ Ascii.eqb c "E" = false /\
  is_ws c = false /\ Ascii.eqb c (chr 34) = false /\ Ascii.eqb c "[" = false /\ Ascii.eqb c "{" = false /\ Ascii.eqb c "n" = false /\ Ascii.eqb c "t" = false /\ Ascii.eqb c "f" = false /\ Ascii.eqb c "]" = false.
Proof. destruct c as [[] [] [] [] [] [] [] []]; intros H; vm_compute in H; try discriminate H; repeat split. Qed.

Section Json.
Variable show_f64 : spec_float -> string.
Variable read_f64_text : string -> option spec_float.
Variable rf : spec_float -> spec_float.
Hypothesis codec : float_codec show_f64 read_f64_text rf.
Notation w := (wire rf).
Notation print := (print show_f64).
Notation parse_number := (parse_number read_f64_text).
Notation parse_value := (parse_value read_f64_text).
Notation parse_elements := (parse_elements read_f64_text).
Notation parse_members := (parse_members read_f64_text).

Lemma parse_value_S n depth s : parse_value (S n) depth s = (
      match skip_ws s with
      | "" => None
      | String c r =>
          if Ascii.eqb c (chr 34) then let! x := parse_str r in Some (VStr (fst x), snd x)
          else if Ascii.eqb c "[" then
            match depth with
            | S (S d) =>
                match skip_ws r with
                | String c1 r1 => if Ascii.eqb c1 "]" then Some (VSeq [], r1) else let! x := parse_elements n (S d) r in Some (VSeq (fst x), snd x)
                | "" => None
                end
            | _ => None
            end
          else if Ascii.eqb c "{" then
            match depth with
            | S (S d) =>
                match skip_ws r with
                | String c1 r1 => if Ascii.eqb c1 "}" then Some (VMap [], r1) else let! x := parse_members n (S d) r in Some (VMap (fst x), snd x)
                | "" => None
                end
            | _ => None
            end
          else if Ascii.eqb c "n" then let! r := literal "ull" r in Some (VNull, r)
          else if Ascii.eqb c "t" then let! r := literal "rue" r in Some (VBool true, r)
          else if Ascii.eqb c "f" then let! r := literal "alse" r in Some (VBool false, r)
          else parse_number (String c r)
      end).
Proof. reflexivity. Qed.
Lemma parse_elements_S n depth s : parse_elements (S n) depth s = (
      let! x := parse_value n depth s in
      match skip_ws (snd x) with
      | String c r => if Ascii.eqb c "]" then Some ([fst x], r) else if Ascii.eqb c "," then let! y := parse_elements n depth r in Some (fst x :: fst y, snd y) else None
      | "" => None
      end).
Proof. reflexivity. Qed.
Lemma parse_members_S n depth s : parse_members (S n) depth s = (
      match skip_ws s with
      | String q r0 =>
          if Ascii.eqb q (chr 34) then
            let! k := parse_str r0 in
            match skip_ws (snd k) with
            | String c r1 =>
                if Ascii.eqb c ":" then
                  let! x := parse_value n depth r1 in
                  match skip_ws (snd x) with
                  | String c2 r2 =>
                      if Ascii.eqb c2 "}" then Some ([(VStr (fst k), fst x)], r2)
                      else if Ascii.eqb c2 "," then let! y := parse_members n depth r2 in Some ((VStr (fst k), fst x) :: fst y, snd y) else None
                  | "" => None
                  end
                else None
            | "" => None
            end
          else None
      | "" => None
      end).
Proof. reflexivity. Qed.

Lemma take_frac_stops rest : stops rest -> take_frac rest = Some ("", rest).
Proof. destruct rest as [|c r]; [reflexivity|]. intros (_ & H & _). cbn. rewrite H. reflexivity. Qed.
Lemma take_exp_stops rest : stops rest -> take_exp rest = Some ("", rest).
Proof. destruct rest as [|c r]; [reflexivity|]. intros (_ & _ & H1 & H2). cbn. rewrite H1, H2. reflexivity. Qed.
Lemma parse_int z rest : (- 2 ^ 63 <= z < 2 ^ 64)%Z -> stops rest -> parse_number (show_Z z +++ rest) = Some (VInt z, rest).
Proof.
  intros R S. assert (D : forall n, decimal (show_usize n) n) by apply show_usize_decimal.
  assert (T : forall n, take_int (show_usize n +++ rest) = Some (show_usize n, rest)) by (intros n; eapply take_int_spec; [apply D|intros r; apply show_usize_head|apply stops_not_digit, S]).
  assert (V : forall n, digits_value 0 (show_usize n) = n) by (intros n; destruct (proj1 (decimal_digits _ _) (D n)) as [Dn _]; rewrite (digits_value_spec _ _ Dn); lia).
  destruct (Z.ltb_spec z 0) as [Hz|Hz].
  - destruct z as [|p|p]; try lia. unfold show_Z, Json_model.parse_number. cbn [append]. change (Ascii.eqb "-" "-") with true. cbn [bind_opt]. rewrite T. cbn [bind_opt fst snd].
    rewrite take_frac_stops by exact S. cbn [bind_opt fst snd]. rewrite take_exp_stops by exact S. cbn [bind_opt fst snd append]. rewrite V. change (eqb "" "") with true. cbn [andb].
    replace (0 <? N.pos p)%N with true by reflexivity. replace (N.pos p <=? 2 ^ 63)%N with true by (symmetry; apply N.leb_le; lia). reflexivity.
  - assert (E : show_Z z = show_usize (Z.to_N z)) by (destruct z; [reflexivity|reflexivity|lia]). rewrite E. unfold Json_model.parse_number.
    destruct (decimal_head _ _ (D (Z.to_N z))) as (c & t & Ec & Hc). apply is_dig_facts in Hc as (Hm & _).
    assert (Em : (match show_usize (Z.to_N z) +++ rest with String c r => if Ascii.eqb c "-" then (true, r) else (false, show_usize (Z.to_N z) +++ rest) | "" => (false, show_usize (Z.to_N z) +++ rest) end) = (false, show_usize (Z.to_N z) +++ rest)) by (rewrite Ec; cbn [append]; rewrite Hm; reflexivity).
    rewrite Em. rewrite T. cbn [bind_opt fst snd]. rewrite take_frac_stops by exact S. cbn [bind_opt fst snd]. rewrite take_exp_stops by exact S. cbn [bind_opt fst snd append]. rewrite V. change (eqb "" "") with true. cbn [andb].
    replace (Z.to_N z <? 2 ^ 64)%N with true by (symmetry; apply N.ltb_lt; lia). rewrite Z2N.id by lia. reflexivity.
Qed.
Lemma parse_float t x rest : float_text t -> read_f64_text t = Some x -> stops rest -> parse_number (t +++ rest) = Some (VFloat x, rest).
Proof.
  intros F E S. destruct F as [neg i fr ex Hn [n Di] Zi Hf He Ne].
  assert (Sx : not_digit (ex +++ rest) /\ take_exp (ex +++ rest) = Some (ex, rest)).
  { destruct He as [->|(e & sg & d & -> & He & Hs & [m Dd])]; [split; [apply stops_not_digit, S|apply take_exp_stops, S]|]. split; [destruct He as [->| ->]; reflexivity|].
    destruct (decimal_head _ _ Dd) as (c & u & Ec & Hc). apply is_dig_facts in Hc as (Hc1 & Hc2 & _). apply decimal_digits in Dd as [Dd _].
    assert (Td := take_digits_spec _ _ rest Dd (stops_not_digit _ S)). cbn [append take_exp]. replace (Ascii.eqb e "e" || Ascii.eqb e "E") with true by (destruct He as [->| ->]; reflexivity).
    rewrite append_assoc_s. destruct Hs as [->|[->| ->]]; cbn [append].
    - rewrite Ec. cbn [append]. rewrite Hc1, Hc2. cbn [orb]. change (String c (u +++ rest)) with (String c u +++ rest). rewrite <- Ec, Td. rewrite Ec. reflexivity.
    - change (Ascii.eqb "+" "+" || Ascii.eqb "+" "-") with true. cbn iota. rewrite Td, Ec. reflexivity.
    - change (Ascii.eqb "-" "+" || Ascii.eqb "-" "-") with true. cbn iota. rewrite Td, Ec. reflexivity. }
  destruct Sx as [Sx1 Sx2].
  assert (Sf : not_digit (fr +++ ex +++ rest) /\ take_frac (fr +++ ex +++ rest) = Some (fr, ex +++ rest)).
  { destruct Hf as [->|(d & -> & [m Dd])].
    - cbn [append]. split; [exact Sx1|]. destruct He as [->|(e & sg & d & -> & He & Hs & _)]; [apply take_frac_stops, S|]. cbn [append take_frac]. replace (Ascii.eqb e ".") with false by (destruct He as [->| ->]; reflexivity). reflexivity.
    - split; [reflexivity|]. cbn [append take_frac]. change (Ascii.eqb "." ".") with true. cbn iota. destruct (decimal_head _ _ Dd) as (c & u & Ec & _). apply decimal_digits in Dd as [Dd _].
      rewrite (take_digits_spec _ _ _ Dd Sx1). rewrite Ec. reflexivity. }
  destruct Sf as [Sf1 Sf2].
  assert (Ti : take_int (i +++ fr +++ ex +++ rest) = Some (i, fr +++ ex +++ rest)) by (eapply take_int_spec; [exact Di|exact Zi|exact Sf1]).
  destruct (decimal_head _ _ Di) as (c & u & Ec & Hc). apply is_dig_facts in Hc as (Hc1 & _).
  assert (Nz : eqb (fr +++ ex) "" = false) by (apply eqb_false; destruct fr; [destruct ex; [destruct Ne; contradiction|discriminate]|discriminate]).
  rewrite !append_assoc_s. unfold Json_model.parse_number. destruct Hn as [->| ->]; cbn [append] in *.
  - assert (Em : (match i +++ fr +++ ex +++ rest with String c r => if Ascii.eqb c "-" then (true, r) else (false, i +++ fr +++ ex +++ rest) | "" => (false, i +++ fr +++ ex +++ rest) end) = (false, i +++ fr +++ ex +++ rest)) by (rewrite Ec; cbn [append]; rewrite Hc1; reflexivity).
    rewrite Em, Ti. cbn [bind_opt fst snd]. rewrite Sf2. cbn [bind_opt fst snd]. rewrite Sx2. cbn [bind_opt fst snd]. rewrite Nz. cbn [andb append]. rewrite E. reflexivity.
  - change (Ascii.eqb "-" "-") with true. cbn iota. rewrite Ti. cbn [bind_opt fst snd]. rewrite Sf2. cbn [bind_opt fst snd]. rewrite Sx2. cbn [bind_opt fst snd]. rewrite Nz. cbn [andb append]. rewrite E. reflexivity.
Qed.

(** ** Values *)
Fixpoint needs (l : list nat) : nat := match l with [] => 0 | x :: r => S (Nat.max x (needs r)) end.
Fixpoint need (v : value) : nat :=
  match v with VSeq l => S (needs (map need l)) | VMap m => S (needs (map (fun e => need (snd e)) m)) | _ => 1 end.
Lemma concat_cons a b l : String.concat "," (a :: b :: l) = a +++ "," +++ String.concat "," (b :: l).
Proof. reflexivity. Qed.
Lemma show_Z_length z : 1 <= String.length (show_Z z).
Proof.
  unfold show_Z. assert (D : forall n, 1 <= String.length (show_usize n)) by (intros n; destruct (decimal_head _ _ (show_usize_decimal n)) as (c & t & -> & _); cbn; lia).
  destruct z; try apply D. cbn. lia.
Qed.
Lemma float_text_length t : float_text t -> 1 <= String.length t.
Proof. intros [neg i fr ex Hn [n Di] _ _ _ _]. destruct (decimal_head _ _ Di) as (c & u & -> & _). rewrite length_append_s. cbn [append String.length]. lia. Qed.
Lemma needs_bound {A} (f : A -> nat) (g : A -> string) l : Forall (fun x => f x <= 2 * String.length (g x)) l -> needs (map f l) <= 2 * String.length (String.concat "," (map g l)) + 1.
Proof.
  induction 1 as [|x l Hx Hl IH]; [cbn; lia|]. destruct l as [|y l].
  - cbn [map needs String.concat]. lia.
  - cbn [map] in *. rewrite concat_cons, !length_append_s. cbn [needs String.length]. cbn [needs] in IH. lia.
Qed.
Lemma need_bound v : document v -> need v <= 2 * String.length (print v).
Proof.
  induction v as [| | | | |l IH|m IH] using value_ind'; intros D; cbn [need Json_model.print].
  - cbn. lia.
  - destruct b; cbn; lia.
  - pose proof (show_Z_length z). lia.
  - inv D. destruct (codec f) as [F _]; [assumption|]. pose proof (float_text_length _ F). lia.
  - unfold quote. cbn [String.length]. lia.
  - inv D. rewrite !length_append_s. cbn [String.length].
    assert (B := needs_bound need print l). assert (Fl : Forall (fun x => need x <= 2 * String.length (print x)) l).
    { rewrite Forall_forall in *. intros x Hx. auto. }
    specialize (B Fl). lia.
  - inv D. rewrite !length_append_s. cbn [String.length].
    assert (B := needs_bound (fun e => need (snd e)) (fun e => print (fst e) +++ ":" +++ print (snd e)) m).
    assert (Fl : Forall (fun x => need (snd x) <= 2 * String.length (print (fst x) +++ ":" +++ print (snd x))) m).
    { rewrite Forall_forall in *. intros x Hx. rewrite !length_append_s. destruct (IH x Hx) as [_ Hs]. match goal with Hm : forall x, In x m -> _ |- _ => destruct (Hm x Hx) as [_ Hd] end. specialize (Hs Hd). lia. }
    specialize (B Fl). lia.
Qed.

(** The first character of a text decides the branch. *)
Definition is_number_head (c : ascii) : bool := is_dig c || Ascii.eqb c "-".
Lemma parse_value_number c r n d : is_number_head c = true -> parse_value (S n) d (String c r) = parse_number (String c r).
Proof. intros H. unfold is_number_head in H. destruct c as [[] [] [] [] [] [] [] []]; vm_compute in H; try discriminate H; reflexivity. Qed.
Lemma show_Z_head z : exists c r, show_Z z = String c r /\ is_number_head c = true.
Proof.
  unfold show_Z. assert (D : forall n, exists c r, show_usize n = String c r /\ is_number_head c = true).
  { intros n. destruct (decimal_head _ _ (show_usize_decimal n)) as (c & t & -> & H). exists c, t. unfold is_number_head. rewrite H. auto. }
  destruct z; try apply D. eauto.
Qed.
Lemma float_text_head t : float_text t -> exists c r, t = String c r /\ is_number_head c = true.
Proof.
  intros [neg i fr ex [->| ->] [n Di] _ _ _ _].
  - destruct (decimal_head _ _ Di) as (c & u & -> & H). cbn [append]. exists c, (u +++ fr +++ ex). unfold is_number_head. rewrite H. auto.
  - cbn [append]. eauto.
Qed.
Lemma number_not_close c : is_number_head c = true -> is_ws c = false /\ Ascii.eqb c "]" = false.
Proof. intros H. unfold is_number_head in H. destruct c as [[] [] [] [] [] [] [] []]; vm_compute in H; try discriminate H; split; reflexivity. Qed.
Lemma print_head v : document v -> exists c r, print v = String c r /\ is_ws c = false /\ Ascii.eqb c "]" = false.
Proof.
  intros D. destruct v as [|b|z|f|s|l|m]; cbn [Json_model.print]; try (eexists _, _; repeat split; fail).
  - destruct b; eexists _, _; repeat split.
  - destruct (show_Z_head z) as (c & r & -> & H). destruct (number_not_close _ H). eauto.
  - inv D. destruct (codec f) as [F _]; [assumption|]. destruct (float_text_head _ F) as (c & r & -> & H). destruct (number_not_close _ H). eauto.
Qed.

Definition good (v : value) : Prop := forall n d rest, need v <= n -> nesting v < d -> stops rest -> parse_value n d (print v +++ rest) = Some (w v, rest).
Lemma elements_ok l : l <> [] -> Forall document l -> Forall good l -> forall n d rest, needs (map need l) <= n -> max_list (map nesting l) < d ->
  parse_elements n d (String.concat "," (map print l) +++ "]" +++ rest) = Some (map w l, rest).
Proof.
  induction l as [|x l IH]; [contradiction|]. intros _ Dl G n d rest Hn Hd. inv Dl. inv G. destruct n as [|n]; [cbn in Hn; lia|]. cbn [map needs] in Hn. cbn [map max_list fold_right] in Hd. fold (max_list (map nesting l)) in Hd.
  destruct l as [|y l].
  - cbn [map String.concat]. rewrite parse_elements_S. match goal with Gx : good x |- _ => rewrite (Gx n d ("]" +++ rest)) end; [reflexivity|lia|lia|repeat split].
  - cbn [map]. rewrite concat_cons, append_assoc_s. rewrite parse_elements_S. match goal with Gx : good x |- _ => rewrite (Gx n d (("," +++ String.concat "," (print y :: map print l)) +++ "]" +++ rest)) end; [|lia|lia|repeat split].
    cbn [bind_opt snd fst append skip_ws]. change (is_ws ",") with false. cbn iota. change (Ascii.eqb "," "]") with false. change (Ascii.eqb "," ",") with true. cbn iota.
    change (print y :: map print l) with (map print (y :: l)). change (String "]" rest) with ("]" +++ rest). rewrite IH; [reflexivity|discriminate|assumption|assumption| |]; cbn [map needs max_list fold_right] in *; lia.
Qed.
Lemma key_ok s rest : is_text s -> parse_str (escape_all s +++ String (chr 34) rest) = Some (s, rest).
Proof.
  intros T. unfold parse_str. rewrite parse_string_spec by (rewrite length_append_s; cbn [String.length]; pose proof (length_escape_all s); lia). cbn [bind_opt fst].
  apply Text_proof.utf8_ok_spec in T. rewrite T. reflexivity.
Qed.
Lemma quote_append s rest : quote s +++ rest = String (chr 34) (escape_all s +++ String (chr 34) rest).
Proof. unfold quote. cbn [append]. rewrite append_assoc_s. reflexivity. Qed.
Lemma members_ok m : m <> [] -> Forall (fun e => (exists s, fst e = VStr s /\ is_text s) /\ document (snd e)) m -> Forall (fun e => good (snd e)) m -> forall n d rest,
  needs (map (fun e => need (snd e)) m) <= n -> max_list (map (fun e => nesting (snd e)) m) < d ->
  parse_members n d (String.concat "," (map (fun e => print (fst e) +++ ":" +++ print (snd e)) m) +++ "}" +++ rest) = Some (map (fun e => (fst e, w (snd e))) m, rest).
Proof.
  induction m as [|[k x] m IH]; [contradiction|]. intros _ Dl G n d rest Hn Hd. inv Dl. inv G. cbn [fst snd] in *. match goal with H : (exists s, _) /\ _ |- _ => destruct H as [(s & -> & Ts) Dx] end.
  destruct n as [|n]; [cbn in Hn; lia|]. cbn [map needs snd] in Hn. cbn [map max_list fold_right snd] in Hd. fold (max_list (map (fun e : value * value => nesting (snd e)) m)) in Hd.
  destruct m as [|e m].
  - cbn [map String.concat fst snd Json_model.print]. rewrite !append_assoc_s, quote_append. rewrite parse_members_S. cbn [skip_ws]. change (is_ws (chr 34)) with false. cbn iota. change (Ascii.eqb (chr 34) (chr 34)) with true. cbn iota.
    rewrite key_ok by exact Ts. cbn [bind_opt fst snd append skip_ws]. change (is_ws ":") with false. cbn iota. change (Ascii.eqb ":" ":") with true. cbn iota.
    match goal with Gx : good x |- _ => rewrite (Gx n d (String "}" rest)) end; [reflexivity|lia|lia|repeat split].
  - cbn [map]. rewrite concat_cons. cbn [fst snd Json_model.print]. rewrite !append_assoc_s, quote_append. rewrite parse_members_S. cbn [skip_ws]. change (is_ws (chr 34)) with false. cbn iota. change (Ascii.eqb (chr 34) (chr 34)) with true. cbn iota.
    rewrite key_ok by exact Ts. cbn [bind_opt fst snd append skip_ws]. change (is_ws ":") with false. cbn iota. change (Ascii.eqb ":" ":") with true. cbn iota.
    match goal with Gx : good x |- context [print x +++ ?r] => rewrite (Gx n d r) end; [|lia|lia|repeat split].
    cbn [bind_opt snd fst skip_ws]. change (is_ws ",") with false. cbn iota. change (Ascii.eqb "," "}") with false. change (Ascii.eqb "," ",") with true. cbn iota.
    change (String "}" rest) with ("}" +++ rest).
    match goal with |- context [String.concat "," ?l] => change l with (map (fun e : value * value => print (fst e) +++ ":" +++ print (snd e)) (e :: m)) end.
    rewrite IH; [reflexivity|discriminate|assumption|assumption| |]; cbn [map needs max_list fold_right] in *; lia.
Qed.
Lemma literal_ok u r : literal u (u +++ r) = Some r.
Proof.
  unfold literal. replace (String.prefix u (u +++ r)) with true.
  - rewrite length_append_s. replace (String.length u + String.length r - String.length u) with (String.length r) by lia. f_equal. induction u; cbn [append String.length String.substring]; [|assumption]. induction r; cbn; congruence.
  - induction u; cbn [append String.prefix]; [destruct r; reflexivity|]. destruct ascii_dec; [assumption|contradiction].
Qed.
Lemma value_ok v : document v -> good v.
Proof.
  induction v as [| | | | |l IH|m IH] using value_ind'; intros D n d rest Hn Hd St; destruct n as [|n]; try (cbn in Hn; lia).
  - cbn [Json_model.print append]. rewrite parse_value_S. cbn [skip_ws]. change (is_ws "n") with false. cbn iota. change (Ascii.eqb "n" (chr 34)) with false. change (Ascii.eqb "n" "[") with false. change (Ascii.eqb "n" "{") with false. change (Ascii.eqb "n" "n") with true. cbn iota.
    change (String "u" (String "l" (String "l" rest))) with ("ull" +++ rest). rewrite literal_ok. reflexivity.
  - destruct b; cbn [Json_model.print append]; rewrite parse_value_S; cbn [skip_ws].
    + change (is_ws "t") with false. cbn iota. change (Ascii.eqb "t" (chr 34)) with false. change (Ascii.eqb "t" "[") with false. change (Ascii.eqb "t" "{") with false. change (Ascii.eqb "t" "n") with false. change (Ascii.eqb "t" "t") with true. cbn iota.
      change (String "r" (String "u" (String "e" rest))) with ("rue" +++ rest). rewrite literal_ok. reflexivity.
    + change (is_ws "f") with false. cbn iota. change (Ascii.eqb "f" (chr 34)) with false. change (Ascii.eqb "f" "[") with false. change (Ascii.eqb "f" "{") with false. change (Ascii.eqb "f" "n") with false. change (Ascii.eqb "f" "t") with false. change (Ascii.eqb "f" "f") with true. cbn iota.
      change (String "a" (String "l" (String "s" (String "e" rest)))) with ("alse" +++ rest). rewrite literal_ok. reflexivity.
  - inv D. cbn [Json_model.print wire]. destruct (show_Z_head z) as (c & r & E & H). assert (P := parse_int z rest ltac:(assumption) St). rewrite E in *. cbn [append] in *. rewrite parse_value_number by exact H. exact P.
  - inv D. cbn [Json_model.print wire]. destruct (codec f) as [F R]; [assumption|]. destruct (float_text_head _ F) as (c & r & E & H). assert (P := parse_float _ _ rest F R St). rewrite E in *. cbn [append] in *. rewrite parse_value_number by exact H. exact P.
  - cbn [Json_model.print wire]. rewrite quote_append. rewrite parse_value_S. cbn [skip_ws]. change (is_ws (chr 34)) with false. cbn iota. change (Ascii.eqb (chr 34) (chr 34)) with true. cbn iota. inv D. rewrite key_ok by assumption. reflexivity.
  - inv D. cbn [need nesting] in *. destruct d as [|[|d]]; [lia|lia|].
    cbn [Json_model.print wire append]. rewrite parse_value_S. cbn [skip_ws]. change (is_ws "[") with false. cbn iota. change (Ascii.eqb "[" (chr 34)) with false. change (Ascii.eqb "[" "[") with true. cbn iota. rewrite append_assoc_s.
    destruct l as [|x l]; [reflexivity|].
    assert (Hg : Forall good (x :: l)) by (rewrite Forall_forall in *; auto).
    assert (Ex : exists c r, String.concat "," (map print (x :: l)) +++ "]" +++ rest = String c r /\ is_ws c = false /\ Ascii.eqb c "]" = false).
    { match goal with Hl : Forall document (x :: l) |- _ => inversion Hl; subst end. destruct (print_head x) as (c & r & E & Hw & Hb); [assumption|]. cbn [map]. destruct l as [|y l]; [cbn [map String.concat]; rewrite E; cbn; eauto|]. cbn [map]. rewrite concat_cons, E. cbn [append]. eauto. }
    destruct Ex as (c & r & Ex & Hw & Hb).
    assert (P := elements_ok (x :: l) ltac:(discriminate) ltac:(assumption) Hg n (S d) rest ltac:(lia) ltac:(lia)).
    rewrite Ex in *. cbn [skip_ws]. rewrite Hw, Hb, P. reflexivity.
  - inv D. cbn [need nesting] in *. destruct d as [|[|d]]; [lia|lia|].
    cbn [Json_model.print wire]. rewrite !append_assoc_s. match goal with |- context ["{" +++ ?x] => change ("{" +++ x) with (String "{" x) end. rewrite parse_value_S. cbn [skip_ws]. change (is_ws "{") with false. cbn iota. change (Ascii.eqb "{" (chr 34)) with false. change (Ascii.eqb "{" "[") with false. change (Ascii.eqb "{" "{") with true. cbn iota.
    destruct m as [|e m]; [reflexivity|].
    assert (Hg : Forall (fun e => good (snd e)) (e :: m)) by (rewrite Forall_forall in *; intros y Hy; apply IH; [exact Hy|]; match goal with Hm : forall x, In x _ -> (exists s, _) /\ _ |- _ => apply Hm, Hy end).
    assert (Ex : exists r, String.concat "," (map (fun e => print (fst e) +++ ":" +++ print (snd e)) (e :: m)) +++ "}" +++ rest = String (chr 34) r).
    { match goal with Hl : Forall _ (e :: m) |- _ => inversion Hl as [|? ? [(s & Hs & _) _] _]; subst end. cbn [map]. destruct e as [k x]. cbn [fst] in *. subst k. destruct m as [|y m]; [cbn [map String.concat fst snd Json_model.print]; rewrite append_assoc_s, quote_append; eauto|].
      cbn [map]. rewrite concat_cons. cbn [fst snd Json_model.print]. rewrite !append_assoc_s, quote_append. eauto. }
    destruct Ex as (r & Ex).
    assert (P := members_ok (e :: m) ltac:(discriminate) ltac:(assumption) Hg n (S d) rest ltac:(lia) ltac:(lia)).
    rewrite Ex in *. cbn [skip_ws]. change (is_ws (chr 34)) with false. cbn iota. change (Ascii.eqb (chr 34) "}") with false. cbn iota. rewrite P. reflexivity.
Qed.
Lemma parse_print v : document v -> nesting v <= 127 -> parse read_f64_text (print v) = Some (w v).
Proof.
  intros D N. unfold parse. assert (V := value_ok v D (2 * String.length (print v) + 2) 128 ""). rewrite append_nil_r in V.
  rewrite V; [reflexivity| | |exact I]; [pose proof (need_bound v D); lia|lia].
Qed.
End Json.
