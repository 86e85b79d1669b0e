(** C62, C75: protocol messages as JSON texts. *)
From Verif Require Import Base Types Ids_model Ids_spec Plugins_model Exec_model Sched_model Config_model Serde_model Serde_spec Serde_proof Json_model Json_spec Paths_proof Ids_proof Json_proof Json_msg.
From Verif Require Text_spec Text_model.

(** A message with its numbers mapped to themselves is the message. *)
Lemma on_env_id g m : (forall f, In f (numbers_env m) -> g f = f) -> on_env g m = m.
Proof.
  induction m as [|[k v] m IH]; intros H; [reflexivity|]. unfold on_env, numbers_env in *. cbn [map fst snd flat_map] in *. f_equal.
  - destruct v; try reflexivity. cbn in H. rewrite H by auto. reflexivity.
  - apply IH. intros f Hf. apply H, in_app_iff. right. exact Hf.
Qed.
Lemma on_step_id g s : (forall f, In f (numbers_env (st_environments s)) -> g f = f) -> on_step g s = s.
Proof. intros H. unfold on_step. rewrite on_env_id by exact H. destruct s; reflexivity. Qed.
Lemma on_command_id g s : (forall f, In f (numbers_env (cmd_environments s)) -> g f = f) -> on_command g s = s.
Proof. intros H. unfold on_command. rewrite on_env_id by exact H. destruct s; reflexivity. Qed.
Lemma map_fixed {A} (g : A -> A) l : (forall x, In x l -> g x = x) -> map g l = l.
Proof. intros H. rewrite <- (map_id l) at 2. apply map_ext_in, H. Qed.
Lemma on_job_id g j : (forall f, In f (numbers_job j) -> g f = f) -> on_job g j = j.
Proof.
  intros H. unfold on_job. rewrite map_fixed; [destruct j; reflexivity|]. intros s Hs. apply on_step_id. intros f Hf. apply H, in_flat_map. eauto.
Qed.
Lemma on_workflow_id g x : (forall f, In f (flat_map (fun e => numbers_job (snd e)) (wf_jobs x)) -> g f = f) -> on_workflow g x = x.
Proof.
  intros H. unfold on_workflow. rewrite map_fixed; [destruct x; reflexivity|]. intros [k j] Hj. cbn [fst snd]. rewrite on_job_id; [reflexivity|]. intros f Hf. apply H, in_flat_map. exists (k, j). auto.
Qed.
Lemma with_numbers_id g m : (forall f, In f (numbers m) -> g f = f) -> with_numbers g m = m.
Proof.
  intros H. destruct m as [|r|c|r|[e|i s]|c]; try reflexivity; cbn [with_numbers numbers] in *.
  - rewrite on_command_id by exact H. destruct c; reflexivity.
  - destruct e as [x|x|x|x|x|x|x|x]; try reflexivity; unfold on_source; cbn [numbers] in H.
    + rewrite on_workflow_id by exact H. destruct x; reflexivity.
    + rewrite on_job_id by exact H. destruct x; reflexivity.
    + rewrite on_step_id by exact H. destruct x; reflexivity.
  - rewrite on_command_id by exact H. reflexivity.
Qed.

(** What the codec of the message's parts that astro-run does not define is assumed to do: the text of every time reads back and is UTF-8, finite numbers are written as JSON numbers that read
    as [rf] of themselves, and the payload type's own serde reads back what it wrote, which is a JSON document other than null and nested at most 125 deep. *)
Record parts_ok (show_f64 : spec_float -> string) (read_f64_text : string -> option spec_float) (rf : spec_float -> spec_float)
    (show_time : time -> string) (read_time_text : string -> option time) (put_payload : payload -> value) (read_payload : value -> option payload) : Prop := {
  ok_floats : float_codec show_f64 read_f64_text rf;
  ok_times : forall t, read_time_text (show_time t) = Some t /\ is_text (show_time t);
  ok_payloads : forall p, read_payload (wire rf (put_payload p)) = Some p /\ put_payload p <> VNull /\ document (put_payload p) /\ nesting (put_payload p) <= 125 }.

(** C75: encoding and decoding a message gives it back with the environment numbers as the number codec reads them, if they are all finite; otherwise it cannot be decoded. *)
Theorem C75_encode_decode : forall show_f64 read_f64_text rf show_time read_time_text put_payload read_payload m,
  parts_ok show_f64 read_f64_text rf show_time read_time_text put_payload read_payload -> valid_message m ->
  (Forall finite_number (numbers m) ->
     json_decode read_f64_text read_time_text read_payload (kind_of m) (json_encode show_f64 show_time put_payload m) = Some (with_numbers rf m)) /\
  (Exists (fun f => ~ finite_number f) (numbers m) ->
     json_decode read_f64_text read_time_text read_payload (kind_of m) (json_encode show_f64 show_time put_payload m) = None).
Proof.
  intros sf rf' rf st rt pp rp m [F T P] V. unfold json_decode, json_encode.
  destruct (shaped_message st (fun t => proj2 (T t)) pp m V) as [D N]; [intros p _; destruct (P p) as (_ & _ & D & N); split; assumption|].
  rewrite (parse_print sf rf' rf F _ D N). cbn [bind_opt].
  rewrite (w_message st rt pp rp rf (fun t => proj1 (T t)) m (proj1 V)); [|intros p _; destruct (P p) as (P1 & P2 & _); split; [exact P1|destruct (pp p); cbn; congruence]].
  split; intros H.
  - replace (forallb is_finite (numbers m)) with true; [reflexivity|]. symmetry. apply forallb_forall. rewrite Forall_forall in H. intros f Hf. apply is_finite_spec, H, Hf.
  - destruct (forallb is_finite (numbers m)) eqn:E; [|reflexivity]. rewrite forallb_forall in E. apply Exists_exists in H as (f & Hf & H). destruct H. apply is_finite_spec, E, Hf.
Qed.
Print Assumptions C75_encode_decode.

(** C62, for messages whose environment numbers are finite and come back from the number codec unchanged. *)
Theorem C62_round_trip_partial : forall show_f64 read_f64_text rf show_time read_time_text put_payload read_payload m,
  parts_ok show_f64 read_f64_text rf show_time read_time_text put_payload read_payload -> valid_message m ->
  (forall f, In f (numbers m) -> finite_number f /\ rf f = f) ->
  json_decode read_f64_text read_time_text read_payload (kind_of m) (json_encode show_f64 show_time put_payload m) = Some m.
Proof.
  intros sf rt' rf st rt pp rp m K V H. rewrite (proj1 (C75_encode_decode sf rt' rf st rt pp rp m K V)).
  - rewrite with_numbers_id; [reflexivity|]. intros f Hf. apply H, Hf.
  - rewrite Forall_forall. intros f Hf. apply H, Hf.
Qed.
Print Assumptions C62_round_trip_partial.

(** Two different messages are never written alike (when their numbers survive). *)
Theorem C62_injective_partial : forall show_f64 read_f64_text rf show_time read_time_text put_payload read_payload m m',
  parts_ok show_f64 read_f64_text rf show_time read_time_text put_payload read_payload -> valid_message m -> valid_message m' -> kind_of m = kind_of m' ->
  (forall f, In f (numbers m) \/ In f (numbers m') -> finite_number f /\ rf f = f) ->
  json_encode show_f64 show_time put_payload m = json_encode show_f64 show_time put_payload m' -> m = m'.
Proof.
  intros sf rt' rf st rt pp rp m m' K V V' Ek H E.
  pose proof (C62_round_trip_partial sf rt' rf st rt pp rp m K V (fun f Hf => H f (or_introl Hf))) as R.
  rewrite Ek, E, (C62_round_trip_partial sf rt' rf st rt pp rp m' K V' (fun f Hf => H f (or_intror Hf))) in R. congruence.
Qed.
Print Assumptions C62_injective_partial.

(** The full claim is false: `.nan` and `.inf` are YAML numbers, are written as null, and null is no environment value. *)
Definition nan_command : command := Command (StepId "w" "j" 0) None None "ls" false [("X", EnvNumber S754_nan)] [] (Duration 60 0).
Theorem C62_nan_number_refuted : exists m, valid_message m /\
  forall show_f64 read_f64_text rf show_time read_time_text put_payload read_payload,
    parts_ok show_f64 read_f64_text rf show_time read_time_text put_payload read_payload ->
    json_decode read_f64_text read_time_text read_payload (kind_of m) (json_encode show_f64 show_time put_payload m) = None.
Proof.
  exists (MCommand nan_command).
  assert (V : valid_message (MCommand nan_command)).
  { split; [|apply lit_texts; vm_compute; reflexivity]. repeat split; try (vm_compute; reflexivity). cbn. constructor; [intros []|constructor]. }
  split; [exact V|]. intros sf rt' rf st rt pp rp K. apply (C75_encode_decode sf rt' rf st rt pp rp _ K V). cbn. constructor. intros [].
Qed.
Print Assumptions C62_nan_number_refuted.

(** ** The hypotheses hold of something: a codec for numbers that writes sign, mantissa and exponent, times as numbers, payloads as the list of their bytes. *)
Definition float_text_of (f : spec_float) : string :=
  match f with
  | S754_zero s => (if s then "-" else "") +++ "0" +++ ".0"
  | S754_finite s m e => (if s then "-" else "") +++ show_usize (Npos m) +++ "e" +++ show_Z e
  | _ => ""
  end.
Definition sign_of (s : string) : bool * string := match s with String c r => if Ascii.eqb c "-" then (true, r) else (false, s) | "" => (false, s) end.
Definition float_of_text (s : string) : option spec_float :=
  let '(neg, s1) := sign_of s in
  let '(d, r) := take_digits s1 in
  match r with
  | String c r1 =>
      if Ascii.eqb c "e" then
        let '(eneg, r2) := sign_of r1 in
        let n := digits_value 0 (fst (take_digits r2)) in
        match digits_value 0 d with Npos m => Some (S754_finite neg m (if eneg then - Z.of_N n else Z.of_N n)) | N0 => None end
      else Some (S754_zero neg)
  | "" => None
  end.
Lemma sign_of_digits s v r : decimal s v -> sign_of (s +++ r) = (false, s +++ r).
Proof.
  intros D. destruct (decimal_head _ _ D) as (c & t & -> & H). cbn [append sign_of]. destruct (Ascii.eqb c "-") eqn:E; [|reflexivity].
  apply Ascii.eqb_eq in E as ->. discriminate H.
Qed.
Lemma sign_of_signed (b : bool) s v r : decimal s v -> sign_of ((if b then "-" else "") +++ s +++ r) = (b, s +++ r).
Proof. intros D. destruct b; [reflexivity|]. apply (sign_of_digits s v r D). Qed.
Lemma take_decimal s v r : decimal s v -> not_digit r -> take_digits (s +++ r) = (s, r).
Proof. intros D. apply (take_digits_spec s v), decimal_digits, D. Qed.
Lemma value_decimal s v : decimal s v -> digits_value 0 s = v.
Proof. intros D. rewrite (digits_value_spec s v) by (apply decimal_digits, D). lia. Qed.
Lemma show_Z_signed e : exists b n, show_Z e = (if b : bool then "-" else "") +++ show_usize n /\ (if b then - Z.of_N n else Z.of_N n)%Z = e.
Proof.
  destruct e as [|p|p]; [exists false, 0%N|exists false, (Npos p)|exists true, (Npos p)]; split; try reflexivity.
Qed.
Lemma some_float_codec : float_codec float_text_of float_of_text (fun f => f).
Proof.
  intros f Hf. destruct f as [s|s| |s m e]; try destruct Hf; cbn [float_text_of].
  - assert (D : decimal "0" 0) by (constructor; exact (is_digit_const 0 eq_refl)). split.
    + replace ".0" with (".0" +++ "") by reflexivity. constructor.
      * destruct s; auto. * exists 0%N. exact D. * intros r E. inv E. reflexivity.
      * right. exists "0". split; [reflexivity|exists 0%N; exact D]. * left. reflexivity. * left. discriminate.
    + destruct s; reflexivity.
  - pose proof (show_usize_decimal (Npos m)) as D. destruct (show_Z_signed e) as (b & n & -> & En). pose proof (show_usize_decimal n) as Dn. split.
    + change (show_usize (N.pos m) +++ "e" +++ (if b then "-" else "") +++ show_usize n) with (show_usize (N.pos m) +++ "" +++ ("e" +++ (if b then "-" else "") +++ show_usize n)). constructor.
      * destruct s; auto. * exists (Npos m). exact D. * apply show_usize_head. * left. reflexivity.
      * right. exists "e"%char, (if b then "-" else ""), (show_usize n). split; [reflexivity|]. split; [auto|]. split; [destruct b; auto|exists n; exact Dn].
      * right. discriminate.
    + unfold float_of_text. rewrite (sign_of_signed s _ _ _ D), (take_decimal _ _ _ D) by (cbn; reflexivity).
      cbn [append]. rewrite Ascii.eqb_refl. rewrite <- (append_nil_r (show_usize n)) at 1. rewrite (sign_of_signed b _ _ _ Dn), (value_decimal _ _ D), (take_decimal _ _ _ Dn) by exact I.
      cbn [fst]. rewrite (value_decimal _ _ Dn), En. reflexivity.
Qed.
Definition some_read_time (s : string) : option time := Some (digits_value 0 s).
Definition some_put_payload (p : payload) : value := VSeq (map (fun c => VInt (Z.of_nat (nat_of_ascii c))) (list_ascii_of_string p)).
Definition some_read_payload (v : value) : option payload :=
  match v with VSeq l => option_map string_of_list_ascii (map_all (fun x => match x with VInt z => Some (ascii_of_nat (Z.to_nat z)) | _ => None end) l) | _ => None end.
Definition c_code (d : N) : N := (48 + d)%N.
Lemma decimal_text s v : decimal s v -> is_text s.
Proof.
  assert (C : forall c d t cs, is_digit c d -> Text_spec.utf8 t cs -> Text_spec.utf8 (String c t) (c_code d :: cs)).
  { intros c d t cs [Hd ->] U. unfold c_code. change (String (ascii_of_N (48 + d)) t) with (Text_spec.bytes [48 + d]%N +++ t). constructor; [left; lia|constructor; lia|exact U]. }
  induction 1 as [c d H|c d s v H _ (cs & U)]; eexists; (eapply C; [eassumption|]); [constructor|exact U].
Qed.
Lemma map_all_map {A B C} (f : B -> option C) (g : A -> B) l : map_all f (map g l) = map_all (fun x => f (g x)) l.
Proof. induction l as [|x l IH]; [reflexivity|]. cbn. rewrite IH. reflexivity. Qed.
Lemma map_all_total {A B} (f : A -> option B) g l : (forall x, f x = Some (g x)) -> map_all f l = Some (map g l).
Proof. intros H. induction l as [|x l IH]; [reflexivity|]. cbn. rewrite H, IH. reflexivity. Qed.
Lemma some_parts_ok : parts_ok float_text_of float_of_text (fun f => f) show_usize some_read_time some_put_payload some_read_payload.
Proof.
  split.
  - exact some_float_codec.
  - intros t. unfold some_read_time. rewrite (value_decimal _ t) by apply show_usize_decimal. split; [reflexivity|]. eapply decimal_text, show_usize_decimal.
  - intros p. unfold some_put_payload. cbn [wire some_read_payload]. split; [|split; [discriminate|split]].
    + rewrite map_map. cbn [wire]. rewrite map_all_map. rewrite map_all_total with (g := fun c => c); [rewrite map_id; cbn [option_map]; rewrite string_of_list_ascii_of_string; reflexivity|].
      intros c. rewrite Nat2Z.id, ascii_nat_embedding. reflexivity.
    + constructor. apply Forall_forall. intros x Hx. apply in_map_iff in Hx as (c & <- & _). constructor. pose proof (nat_ascii_bounded c). lia.
    + cbn [nesting]. rewrite map_map. cbn [nesting]. assert (M : forall (l : list ascii), max_list (map (fun _ => 0) l) = 0) by (induction l as [|y l IH]; [reflexivity|exact IH]). rewrite M. lia.
Qed.
(** A message of every kind of part, and its text. *)
Definition some_step : step :=
  Step (StepId "w" "j" 0) (Some "a ""b""") (Some (CConfig (ConditionConfig (Some (PushCondition (Some ["main"]) None)) None))) (Some (ContainerOptions "img" (Some ["a:b"]) None)) "ls"
    true [("N", EnvNumber (S754_finite true 3 (-1))); ("S", EnvString "x"); ("B", EnvBool false)] ["s"] (Duration 60 5).
Definition some_message : message := MEvent (PEvent (HRunStep (RunEvent some_step (Some (TriggerEvent "push" "o" "r" (Some (-7)%Z) "sha" "main" "ref")) (Some "p")))).
Example C62_nonvacuous : valid_message some_message /\ (forall f, In f (numbers some_message) -> finite_number f /\ f = f) /\ numbers some_message <> [] /\
  json_decode float_of_text some_read_time some_read_payload KEvent (json_encode float_text_of show_usize some_put_payload some_message) = Some some_message.
Proof.
  assert (V : valid_message some_message).
  { split; [|apply lit_texts; vm_compute; reflexivity]. split.
    - split; [reflexivity|]. split; [|split; reflexivity]. cbn. repeat constructor; cbn; intuition discriminate.
    - intros t E. inv E. intros z E. inv E. unfold fits_i64. lia. }
  assert (H : forall f, In f (numbers some_message) -> finite_number f /\ f = f) by (intros f [<-|[]]; split; [exact Logic.I|reflexivity]).
  split; [exact V|]. split; [exact H|]. split; [discriminate|]. exact (C62_round_trip_partial _ _ _ _ _ _ _ some_message some_parts_ok V H).
Qed.
Example C75_text : json_encode float_text_of show_usize some_put_payload (MResponse (RrResult (StepId "w" "j" 0) (RFailed 3))) = "{""Result"":{""step_id"":[""w"",""j"",0],""result"":{""Failed"":{""exit_code"":3}}}}".
Proof. reflexivity. Qed.
