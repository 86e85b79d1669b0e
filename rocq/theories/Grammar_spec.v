(** C123: the JSON texts (RFC 8259) and the values they stand for. Strings are sequences of bytes. *)
From Verif Require Import Base Types Ids_spec Serde_model Serde_spec Json_spec.
From Verif Require Text_spec.

(** RFC 8259, 2: space, tab, line feed, carriage return. *)
Inductive white : string -> Prop :=
| white_nil : white ""
| white_cons n s : In n [32; 9; 10; 13] -> white s -> white (String (ascii_of_nat n) s).

(** The UTF-8 form of a character (RFC 3629, in Text_spec). *)
Definition utf8_form (n : N) (s : string) : Prop := exists bs, Text_spec.encoded n bs /\ s = Text_spec.bytes bs.
(** RFC 8259, 7: four hexadecimal digits. *)
Inductive hex : ascii -> N -> Prop :=
| hex_dec n : (n < 10)%N -> hex (ascii_of_N (48 + n)) n
| hex_low n : (10 <= n < 16)%N -> hex (ascii_of_N (97 + (n - 10))) n
| hex_up n : (10 <= n < 16)%N -> hex (ascii_of_N (65 + (n - 10))) n.
Inductive hex4 : string -> N -> Prop :=
| hex4_intro a b c d x y z t : hex a x -> hex b y -> hex c z -> hex d t ->
    hex4 (String a (String b (String c (String d "")))) (x * 4096 + y * 256 + z * 16 + t).
Definition high (n : N) : Prop := (55296 <= n < 56320)%N.
Definition low (n : N) : Prop := (56320 <= n < 57344)%N.
Definition backslash (s : string) : string := String (ascii_of_nat 92) s.
(** The two-character escapes. *)
Definition escapes : list (ascii * nat) :=
  [(ascii_of_nat 34, 34); (ascii_of_nat 92, 92); ("/"%char, 47); ("b"%char, 8); ("f"%char, 12); ("n"%char, 10); ("r"%char, 13); ("t"%char, 9)].
(** A piece of the inside of a string, and what it stands for. *)
Inductive piece : string -> string -> Prop :=
| piece_raw c : 32 <= nat_of_ascii c -> nat_of_ascii c <> 34 -> nat_of_ascii c <> 92 -> piece (String c "") (String c "")
| piece_escape e n : In (e, n) escapes -> piece (backslash (String e "")) (String (ascii_of_nat n) "")
| piece_unicode h n s : hex4 h n -> ~ high n -> ~ low n -> utf8_form n s -> piece (backslash (String "u" h)) s
| piece_pair h h' n n' s : hex4 h n -> hex4 h' n' -> high n -> low n' -> utf8_form (65536 + (n - 55296) * 1024 + (n' - 56320)) s ->
    piece (backslash (String "u" h) +++ backslash (String "u" h')) s.
Inductive inside : string -> string -> Prop :=
| inside_nil : inside "" ""
| inside_cons t s t' s' : piece t s -> inside t' s' -> inside (t +++ t') (s +++ s').
(** A string, which must be UTF-8. *)
Inductive string_text : string -> string -> Prop :=
| string_text_intro t s : inside t s -> is_text s -> string_text (String (ascii_of_nat 34) (t +++ String (ascii_of_nat 34) "")) s.

Section Grammar.
(** What serde_json makes of a number's text that is no 64-bit integer. *)
Variable read_f64_text : string -> option spec_float.
(** RFC 8259, 6. A number without fraction and exponent that is from 0 to 2^64-1, or from -2^63 to -1, is an integer. *)
Inductive number_text : string -> value -> Prop :=
| number_nat i n : decimal i n -> (forall r, i = String "0" r -> r = "") -> (n < 2 ^ 64)%N -> number_text i (VInt (Z.of_N n))
| number_neg i n : decimal i n -> (forall r, i = String "0" r -> r = "") -> (0 < n <= 2 ^ 63)%N -> number_text (String "-" i) (VInt (- Z.of_N n))
| number_big i n x : decimal i n -> (forall r, i = String "0" r -> r = "") -> (2 ^ 64 <= n)%N -> read_f64_text i = Some x -> number_text i (VFloat x)
| number_small i n x : decimal i n -> (forall r, i = String "0" r -> r = "") -> (n = 0 \/ 2 ^ 63 < n)%N -> read_f64_text (String "-" i) = Some x ->
    number_text (String "-" i) (VFloat x)
| number_float t x : float_text t -> read_f64_text t = Some x -> number_text t (VFloat x).

Inductive value_text : string -> value -> Prop :=
| text_null : value_text "null" VNull
| text_true : value_text "true" (VBool true)
| text_false : value_text "false" (VBool false)
| text_number t v : number_text t v -> value_text t v
| text_string t s : string_text t s -> value_text t (VStr s)
| text_empty_array w : white w -> value_text ("[" +++ w +++ "]") (VSeq [])
| text_array t l : elements_text t l -> value_text ("[" +++ t +++ "]") (VSeq l)
| text_empty_object w : white w -> value_text ("{" +++ w +++ "}") (VMap [])
| text_object t m : members_text t m -> value_text ("{" +++ t +++ "}") (VMap m)
with elements_text : string -> list value -> Prop :=
| elements_one w1 t w2 v : white w1 -> white w2 -> value_text t v -> elements_text (w1 +++ t +++ w2) [v]
| elements_more w1 t w2 v r l : white w1 -> white w2 -> value_text t v -> elements_text r l -> elements_text (w1 +++ t +++ w2 +++ "," +++ r) (v :: l)
with members_text : string -> list (value * value) -> Prop :=
| members_one w1 k s w2 w3 t w4 v : white w1 -> white w2 -> white w3 -> white w4 -> string_text k s -> value_text t v ->
    members_text (w1 +++ k +++ w2 +++ ":" +++ w3 +++ t +++ w4) [(VStr s, v)]
| members_more w1 k s w2 w3 t w4 v r m : white w1 -> white w2 -> white w3 -> white w4 -> string_text k s -> value_text t v -> members_text r m ->
    members_text (w1 +++ k +++ w2 +++ ":" +++ w3 +++ t +++ w4 +++ "," +++ r) ((VStr s, v) :: m).
(** A JSON text. *)
Inductive json_text : string -> value -> Prop :=
| json_text_intro w1 t w2 v : white w1 -> white w2 -> value_text t v -> json_text (w1 +++ t +++ w2) v.
End Grammar.
