(** Proofs: a document nested too deeply is not read back. *)
From Verif Require Import Base Types Ids_model Ids_spec Ids_proof Plugins_model Serde_model Serde_spec Serde_proof Json_model Json_spec Paths_proof Json_proof.

Section Json.
Variable show_f64 : spec_float -> string.
Variable read_f64_text : string -> option spec_float.
Variable rf : spec_float -> spec_float.
Hypothesis codec : float_codec show_f64 read_f64_text rf.
Notation w := (wire rf).
Notation print := (print show_f64).
Notation parse_value := (parse_value read_f64_text).
Notation parse_elements := (parse_elements read_f64_text).
Notation parse_members := (parse_members read_f64_text).
Notation good := (good show_f64 read_f64_text rf).

Definition too_deep (v : value) : Prop := forall n d rest, need v <= n -> 1 <= d <= nesting v -> stops rest -> parse_value n d (print v +++ rest) = None.
Lemma elements_deep l : Forall document l -> Forall too_deep l -> forall n d rest, needs (map need l) <= n -> 1 <= d <= max_list (map nesting l) ->
  parse_elements n d (String.concat "," (map print l) +++ "]" +++ rest) = None.
Proof.
  induction l as [|x l IH]; intros Dl G n d rest Hn Hd; [cbn in Hd; lia|]. inv Dl. inv G. destruct n as [|n]; [cbn in Hn; lia|]. cbn [map needs] in Hn. cbn [map max_list fold_right] in Hd. fold (max_list (map nesting l)) in Hd.
  destruct (Nat.lt_ge_cases (nesting x) d) as [Hx|Hx].
  - destruct l as [|y l]; [cbn in Hd; lia|].
    cbn [map]. rewrite concat_cons, append_assoc_s. rewrite parse_elements_S. rewrite (value_ok _ _ _ codec x ltac:(assumption) n d (("," +++ String.concat "," (print y :: map print l)) +++ "]" +++ rest)) by (try lia; repeat split).
    cbn [bind_opt snd fst append skip_ws]. change (is_ws ",") with false. cbn iota. change (Ascii.eqb "," "]") with false. change (Ascii.eqb "," ",") with true. cbn iota.
    change (print y :: map print l) with (map print (y :: l)). change (String "]" rest) with ("]" +++ rest). rewrite IH; [reflexivity|assumption|assumption| |]; cbn [map needs max_list fold_right] in *; lia.
  - assert (St : stops (match l with [] => "" | _ => "," +++ String.concat "," (map print l) end +++ "]" +++ rest)) by (destruct l; repeat split).
    assert (E : String.concat "," (map print (x :: l)) +++ "]" +++ rest = print x +++ (match l with [] => "" | _ => "," +++ String.concat "," (map print l) end +++ "]" +++ rest)).
    { destruct l as [|y l]; [reflexivity|]. cbn [map]. rewrite concat_cons, append_assoc_s. reflexivity. }
    rewrite E, parse_elements_S. match goal with B : too_deep x |- _ => rewrite (B n d) end; [reflexivity|lia|lia|exact St].
Qed.
Lemma members_deep m : Forall (fun e => (exists s, fst e = VStr s /\ is_text s) /\ document (snd e)) m -> Forall (fun e => too_deep (snd e)) m -> forall n d rest,
  needs (map (fun e => need (snd e)) m) <= n -> 1 <= d <= max_list (map (fun e => nesting (snd e)) m) ->
  parse_members n d (String.concat "," (map (fun e => print (fst e) +++ ":" +++ print (snd e)) m) +++ "}" +++ rest) = None.
Proof.
  induction m as [|[k x] m IH]; intros Dl G n d rest Hn Hd; [cbn in Hd; lia|]. inv Dl. inv G. cbn [fst snd] in *. match goal with H : (exists s, _) /\ _ |- _ => destruct H as [(s & -> & Ts) Dx] end.
  destruct n as [|n]; [cbn in Hn; lia|]. cbn [map needs snd] in Hn. cbn [map max_list fold_right snd] in Hd. fold (max_list (map (fun e : value * value => nesting (snd e)) m)) in Hd.
  set (tail := match m with [] => "" | _ => "," +++ String.concat "," (map (fun e => print (fst e) +++ ":" +++ print (snd e)) m) end +++ "}" +++ rest).
  assert (St : stops tail) by (unfold tail; destruct m; repeat split).
  assert (E : String.concat "," (map (fun e => print (fst e) +++ ":" +++ print (snd e)) ((VStr s, x) :: m)) +++ "}" +++ rest = quote s +++ ":" +++ print x +++ tail).
  { unfold tail. destruct m as [|e m]; cbn [map fst snd Json_model.print]; [cbn [String.concat]|rewrite concat_cons]; rewrite !append_assoc_s; reflexivity. }
  rewrite E, quote_append, parse_members_S. cbn [skip_ws]. change (is_ws (chr 34)) with false. cbn iota. change (Ascii.eqb (chr 34) (chr 34)) with true. cbn iota.
  rewrite key_ok by exact Ts. cbn [bind_opt fst snd append skip_ws]. change (is_ws ":") with false. cbn iota. change (Ascii.eqb ":" ":") with true. cbn iota.
  destruct (Nat.lt_ge_cases (nesting x) d) as [Hx|Hx].
  - rewrite (value_ok _ _ _ codec x Dx n d tail) by (assumption || lia). cbn [bind_opt fst snd]. unfold tail. destruct m as [|e m]; [cbn in Hd; lia|].
    cbn [append skip_ws]. change (is_ws ",") with false. cbn iota. change (Ascii.eqb "," "}") with false. change (Ascii.eqb "," ",") with true. cbn iota. change (String "}" rest) with ("}" +++ rest).
    rewrite IH; [reflexivity|assumption|assumption| |]; cbn [map needs max_list fold_right] in *; lia.
  - match goal with B : too_deep x |- _ => rewrite (B n d) end; [reflexivity|lia|lia|exact St].
Qed.
Lemma value_deep v : document v -> too_deep v.
Proof.
  induction v as [| | | | |l IH|m IH] using value_ind'; intros D n d rest Hn Hd St; try (cbn in Hd; lia); destruct n as [|n]; try (cbn in Hn; lia).
  - inv D. cbn [need nesting] in *.
    cbn [Json_model.print append]. rewrite parse_value_S. cbn [skip_ws]. change (is_ws "[") with false. cbn iota. change (Ascii.eqb "[" (chr 34)) with false. change (Ascii.eqb "[" "[") with true. cbn iota.
    destruct d as [|[|d]]; [lia|reflexivity|]. rewrite append_assoc_s.
    destruct l as [|x l]; [cbn in Hd; lia|].
    assert (Hg : Forall too_deep (x :: l)) by (rewrite Forall_forall in *; auto).
    assert (P := elements_deep (x :: l) ltac:(assumption) Hg n (S d) rest ltac:(lia) ltac:(lia)).
    assert (Ex : exists c r, String.concat "," (map print (x :: l)) +++ "]" +++ rest = String c r /\ is_ws c = false /\ Ascii.eqb c "]" = false).
    { match goal with Hl : Forall document (x :: l) |- _ => inversion Hl; subst end. destruct (print_head _ _ _ codec x) as (c & r & E & Hw & Hb); [assumption|]. cbn [map]. destruct l as [|y l]; [cbn [map String.concat]; rewrite E; cbn; eauto|]. cbn [map]. rewrite concat_cons, E. cbn [append]. eauto. }
    destruct Ex as (c & r & Ex & Hw & Hb). rewrite Ex in *. cbn [skip_ws]. rewrite Hw, Hb, P. reflexivity.
  - inv D. cbn [need nesting] in *.
    cbn [Json_model.print]. rewrite !append_assoc_s. match goal with |- context ["{" +++ ?x] => change ("{" +++ x) with (String "{" x) end. rewrite parse_value_S. cbn [skip_ws]. change (is_ws "{") with false. cbn iota. change (Ascii.eqb "{" (chr 34)) with false. change (Ascii.eqb "{" "[") with false. change (Ascii.eqb "{" "{") with true. cbn iota.
    destruct d as [|[|d]]; [lia|reflexivity|].
    destruct m as [|e m]; [cbn in Hd; lia|].
    assert (Hg : Forall (fun e => too_deep (snd e)) (e :: m)) by (rewrite Forall_forall in *; intros y Hy; apply IH; [exact Hy|]; match goal with Hm : forall x, In x _ -> (exists s, _) /\ _ |- _ => apply Hm, Hy end).
    assert (P := members_deep (e :: m) ltac:(assumption) Hg n (S d) rest ltac:(lia) ltac:(lia)).
    assert (Ex : exists r, String.concat "," (map (fun e => print (fst e) +++ ":" +++ print (snd e)) (e :: m)) +++ "}" +++ rest = String (chr 34) r).
    { match goal with Hl : Forall _ (e :: m) |- _ => inversion Hl as [|? ? [(s & Hs & _) _] _]; subst end. cbn [map]. destruct e as [k x]. cbn [fst] in *. subst k. destruct m as [|y m]; [cbn [map String.concat fst snd Json_model.print]; rewrite append_assoc_s, quote_append; eauto|].
      cbn [map]. rewrite concat_cons. cbn [fst snd Json_model.print]. rewrite !append_assoc_s, quote_append. eauto. }
    destruct Ex as (r & Ex). rewrite Ex in *. cbn [skip_ws]. change (is_ws (chr 34)) with false. cbn iota. change (Ascii.eqb (chr 34) "}") with false. cbn iota. rewrite P. reflexivity.
Qed.
Lemma parse_print_exact v : document v -> parse read_f64_text (print v) = if Nat.leb (nesting v) 127 then Some (w v) else None.
Proof.
  intros D. destruct (Nat.leb_spec (nesting v) 127) as [H|H]; [apply (parse_print _ _ _ codec); assumption|].
  unfold parse. assert (V := value_deep v D (2 * String.length (print v) + 2) 128 ""). rewrite append_nil_r in V.
  rewrite V; [reflexivity| | |exact I]; [pose proof (need_bound _ _ _ codec v D); lia|lia].
Qed.
End Json.
