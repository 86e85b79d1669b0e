(** C123: which bytes are accepted as JSON, and what they stand for. *)
From Verif Require Import Base Types Ids_model Ids_spec Ids_proof Serde_model Serde_spec Json_model Json_spec Paths_proof Json_proof Json_props Grammar_spec Grammar_proof.

(** A received text is accepted exactly if it is a JSON text (RFC 8259) in UTF-8, nested at most 127 deep, and it is read as the value it stands for. *)
Theorem C123_json_exactly : forall read_f64_text s v, parse read_f64_text s = Some v <-> json_text read_f64_text s v /\ nesting v <= 127.
Proof. exact parse_iff. Qed.
Print Assumptions C123_json_exactly.
(** No text stands for two values. *)
Theorem C123_unambiguous : forall read_f64_text s v v', json_text read_f64_text s v -> json_text read_f64_text s v' -> v = v'.
Proof.
  assert (P : forall rd d s v, json_text rd s v -> nesting v < d -> exists r, parse_value rd (2 * String.length s) d s = Some (v, r)).
  { intros rd d s v [w1 t w2 u W1 W2 T] B. exists w2. rewrite parse_value_white by exact W1. apply (proj1 (all_complete rd) _ _ T); [rewrite !length_append_s; lia|exact B|].
    rewrite <- (append_nil_r w2). apply white_stops; [exact W2|exact I]. }
  intros rd s v v' H H'. destruct (P rd (S (nesting v + nesting v')) s v H ltac:(lia)) as (r & E). destruct (P rd (S (nesting v + nesting v')) s v' H' ltac:(lia)) as (r' & E'). congruence.
Qed.
Print Assumptions C123_unambiguous.

(** ** Cases *)
Notation P := (parse float_of_text).
Definition q : string := String (ascii_of_nat 34) "".
Example C123_accepts : P (" { " +++ q +++ "a" +++ q +++ " : [ 1 , -0.0, 18446744073709551615 ] , " +++ q +++ "\u00e9\uD83D\uDE00\/" +++ q +++ ":null} ") =
  Some (VMap [(VStr "a", VSeq [VInt 1; VFloat (S754_zero true); VInt 18446744073709551615]); (VStr (Text_model.encode [233; 128512; 47]%N), VNull)]).
Proof. vm_compute. reflexivity. Qed.
Example C123_rejects : P "01" = None /\ P "1." = None /\ P "[1,]" = None /\ P "nul" = None /\ P "true x" = None /\ P (q +++ "\ud800" +++ q) = None /\ P (q +++ "\x" +++ q) = None /\
  P (q +++ String (ascii_of_nat 9) q) = None /\ P (q +++ String (ascii_of_nat 255) q) = None /\ P "" = None.
Proof. repeat split. Qed.
