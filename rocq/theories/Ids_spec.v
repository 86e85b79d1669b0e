(** Specification vocabulary for ids. *)
From Verif Require Import Base Types.

(** [c] does not occur in [s]. *)
Fixpoint free_of (c : ascii) (s : string) : Prop :=
  match s with EmptyString => True | String a s' => a <> c /\ free_of c s' end.
Definition slash_free (s : string) : Prop := free_of "/"%char s.

Fixpoint count_char (c : ascii) (s : string) : nat :=
  match s with EmptyString => 0 | String a s' => (if Ascii.eqb a c then 1 else 0) + count_char c s' end.

(** A decimal digit and its value. *)
Definition is_digit (c : ascii) (d : N) : Prop :=
  (d < 10)%N /\ c = ascii_of_N (48 + d).

(** Positional value of a non-empty string of decimal digits. *)
Inductive decimal : string -> N -> Prop :=
| decimal_one c d : is_digit c d -> decimal (String c "") d
| decimal_more c d s v :
    is_digit c d -> decimal s v ->
    decimal (String c s) (d * 10 ^ N.of_nat (String.length s) + v)%N.

(** What [usize] parsing accepts: digits, optionally preceded by one '+', of value below 2^64. *)
Definition usize_text (s : string) (v : N) : Prop :=
  (v < 2 ^ 64)%N /\ (decimal s v \/ exists t, s = String "+"%char t /\ decimal t v).
