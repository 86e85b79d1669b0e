(** Specification of JSON texts. *)
From Verif Require Import Base Types Ids_model Ids_spec Plugins_model Serde_model Serde_spec Json_model.

(** JSON documents as serde_json writes them: string keys, integers of 64 bits, finite numbers. *)
Inductive document : value -> Prop :=
| doc_null : document VNull
| doc_bool b : document (VBool b)
| doc_int z : (- 2 ^ 63 <= z < 2 ^ 64)%Z -> document (VInt z)
| doc_float f : finite_number f -> document (VFloat f)
| doc_str s : is_text s -> document (VStr s)
| doc_seq l : Forall document l -> document (VSeq l)
| doc_map m : Forall (fun e => (exists s, fst e = VStr s /\ is_text s) /\ document (snd e)) m -> document (VMap m).
Definition max_list (l : list nat) : nat := fold_right Nat.max 0 l.
(** How deeply arrays and objects are nested. *)
Fixpoint nesting (v : value) : nat :=
  match v with VSeq l => S (max_list (map nesting l)) | VMap m => S (max_list (map (fun e => nesting (snd e)) m)) | _ => 0 end.

(** The text of a JSON number that is not an integer: a sign or not, digits without a leading zero, and a fraction, an exponent or both. *)
Definition digit_text (s : string) : Prop := exists n, decimal s n.
Inductive float_text : string -> Prop :=
| float_text_intro neg i fr ex :
    (neg = "" \/ neg = "-") -> digit_text i -> (forall r, i = String "0" r -> r = "") ->
    (fr = "" \/ exists d, fr = String "." d /\ digit_text d) ->
    (ex = "" \/ exists e sg d, ex = String e (sg +++ d) /\ (e = "e"%char \/ e = "E"%char) /\ (sg = "" \/ sg = "+" \/ sg = "-") /\ digit_text d) ->
    (fr <> "" \/ ex <> "") -> float_text (neg +++ i +++ fr +++ ex).
(** The codec of finite numbers: its texts are JSON numbers, and [rf f] is what reading the text of [f] gives. *)
Definition float_codec (show_f64 : spec_float -> string) (read_f64_text : string -> option spec_float) (rf : spec_float -> spec_float) : Prop :=
  forall f, finite_number f -> float_text (show_f64 f) /\ read_f64_text (show_f64 f) = Some (rf f).
