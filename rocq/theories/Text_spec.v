(** Specification vocabulary for text. *)
From Verif Require Import Base Types Text_model.

(** A Unicode scalar value. *)
Definition scalar (c : N) : Prop := (c < 55296 \/ 57344 <= c < 1114112)%N.
(** The bytes with these values. *)
Fixpoint bytes (l : list N) : string := match l with [] => "" | x :: l => String (ascii_of_N x) (bytes l) end.
(** RFC 3629: the encoding of one code point, by its payload bits: the leading byte carries the most significant ones, every
    further byte six. *)
Inductive encoded : N -> list N -> Prop :=
| enc_1 a : (a < 128)%N -> encoded a [a]
| enc_2 a b : (a < 32 -> b < 64 -> 128 <= a * 64 + b -> encoded (a * 64 + b) [192 + a; 128 + b])%N
| enc_3 a b c : (a < 16 -> b < 64 -> c < 64 -> 2048 <= a * 4096 + b * 64 + c -> encoded (a * 4096 + b * 64 + c) [224 + a; 128 + b; 128 + c])%N
| enc_4 a b c d : (a < 8 -> b < 64 -> c < 64 -> d < 64 -> 65536 <= a * 262144 + b * 4096 + c * 64 + d ->
    encoded (a * 262144 + b * 4096 + c * 64 + d) [240 + a; 128 + b; 128 + c; 128 + d])%N.
(** [s] is the UTF-8 text of the scalar values [cs]. *)
Inductive utf8 : string -> list N -> Prop :=
| utf8_nil : utf8 "" []
| utf8_cons c bs s cs : scalar c -> encoded c bs -> utf8 s cs -> utf8 (bytes bs +++ s) (c :: cs).

(** The characters with the White_Space property (Unicode, PropList.txt). *)
Definition whitespace (c : N) : Prop :=
  (9 <= c <= 13)%N \/ In c [32; 133; 160; 5760; 8232; 8233; 8239; 8287; 12288]%N \/ (8192 <= c <= 8202)%N.
(** [t] is [s] without the whitespace at its ends. *)
Definition trimmed (s t : list N) : Prop :=
  exists l r, s = l ++ t ++ r /\ Forall whitespace l /\ Forall whitespace r /\
    (forall c t', t = c :: t' -> ~ whitespace c) /\ (forall t' c, t = t' ++ [c] -> ~ whitespace c).
(** A command exits successfully. *)
Definition success (code : option Z) : Prop := code = Some 0%Z.
