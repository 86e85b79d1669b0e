(** Model of the text that serde_json::to_writer (json_codec.rs:15-17) writes and of what serde_json::from_reader (json_codec.rs:26-34) accepts: compact JSON, RFC 8259.
    serde_json reads typed values directly from the text; here the text becomes a [value] first, which is then read by Serde_model: the same documents are accepted, except that
    serde_json skips the values of unknown fields without a limit on their nesting and without checking that their strings are UTF-8. *)
From Verif Require Import Base Types Ids_model Serde_model.
From Verif Require Text_model.

Section Json.
(** The text of a finite f64 (ryu) and the reader of a JSON number that is not a plain integer. *)
Variable show_f64 : spec_float -> string.
Variable read_f64_text : string -> option spec_float.

(** ** Writing *)
Definition chr (n : nat) : ascii := ascii_of_nat n.
Definition hex_digit (n : nat) : ascii := if Nat.ltb n 10 then chr (48 + n) else chr (87 + n).
(** serde_json ser.rs [format_escaped_str]: the quote, the backslash and the control characters are escaped. *)
Definition escape (c : ascii) : string :=
  match nat_of_ascii c with
  | 34 => String (chr 92) (String (chr 34) "")
  | 92 => String (chr 92) (String (chr 92) "")
  | 8 => "\b" | 9 => "\t" | 10 => "\n" | 12 => "\f" | 13 => "\r"
  | n => if Nat.ltb n 32 then "\u00" +++ String (hex_digit (n / 16)) (String (hex_digit (n mod 16)) "") else String c ""
  end.
Fixpoint escape_all (s : string) : string := match s with "" => "" | String c r => escape c +++ escape_all r end.
Definition quote (s : string) : string := String (chr 34) (escape_all s +++ String (chr 34) "").
Definition show_Z (z : Z) : string := match z with Zneg p => String "-" (show_usize (Npos p)) | _ => show_usize (Z.to_N z) end.
(** Messages have string keys only. *)
Fixpoint print (v : value) : string :=
  match v with
  | VNull => "null" | VBool true => "true" | VBool false => "false"
  | VInt z => show_Z z | VFloat f => show_f64 f | VStr s => quote s
  | VSeq l => "[" +++ String.concat "," (map print l) +++ "]"
  | VMap m => "{" +++ String.concat "," (map (fun e => print (fst e) +++ ":" +++ print (snd e)) m) +++ "}"
  end.

(** ** Reading *)
Definition is_ws (c : ascii) : bool := match nat_of_ascii c with 32 | 9 | 10 | 13 => true | _ => false end.
Fixpoint skip_ws (s : string) : string := match s with String c r => if is_ws c then skip_ws r else s | "" => "" end.
Definition is_dig (c : ascii) : bool := match digit_of c with Some _ => true | None => false end.
Fixpoint take_digits (s : string) : string * string :=
  match s with String c r => if is_dig c then let '(d, rest) := take_digits r in (String c d, rest) else ("", s) | "" => ("", "") end.
Fixpoint digits_value (acc : N) (s : string) : N :=
  match s with "" => acc | String c r => digits_value (10 * acc + match digit_of c with Some d => d | None => 0 end)%N r end.
(** de.rs [parse_integer]: no leading zero. *)
Definition take_int (s : string) : option (string * string) :=
  let '(d, rest) := take_digits s in
  match d with "" => None | String c "" => Some (d, rest) | String c _ => if Ascii.eqb c "0" then None else Some (d, rest) end.
Definition take_frac (s : string) : option (string * string) :=
  match s with
  | String c r => if Ascii.eqb c "." then let '(d, rest) := take_digits r in if eqb d "" then None else Some (String c d, rest) else Some ("", s)
  | "" => Some ("", "")
  end.
Definition take_exp (s : string) : option (string * string) :=
  match s with
  | String c r =>
      if Ascii.eqb c "e" || Ascii.eqb c "E" then
        let '(sg, r1) := match r with String c1 r1 => if Ascii.eqb c1 "+" || Ascii.eqb c1 "-" then (String c1 "", r1) else ("", r) | "" => ("", r) end in
        let '(d, rest) := take_digits r1 in if eqb d "" then None else Some (String c (sg +++ d), rest)
      else Some ("", s)
  | "" => Some ("", "")
  end.
(** An integer that fits u64, or a negative one that fits i64, is an integer; anything else is an f64 ("-0" is -0.0). *)
Definition parse_number (s : string) : option (value * string) :=
  let '(neg, s1) := match s with String c r => if Ascii.eqb c "-" then (true, r) else (false, s) | "" => (false, s) end in
  let! i := take_int s1 in let! f := take_frac (snd i) in let! e := take_exp (snd f) in
  let text := (if neg then "-" else "") +++ fst i +++ fst f +++ fst e in
  let n := digits_value 0 (fst i) in
  if eqb (fst f +++ fst e) "" && (if neg then (0 <? n)%N && (n <=? 2 ^ 63)%N else (n <? 2 ^ 64)%N)
  then Some (VInt (if neg then - Z.of_N n else Z.of_N n), snd e)
  else let! x := read_f64_text text in Some (VFloat x, snd e).

Definition hex_value (c : ascii) : option N :=
  let n := N_of_ascii c in
  if (48 <=? n)%N && (n <=? 57)%N then Some (n - 48)%N else if (97 <=? n)%N && (n <=? 102)%N then Some (n - 87)%N
  else if (65 <=? n)%N && (n <=? 70)%N then Some (n - 55)%N else None.
Definition parse_hex4 (s : string) : option (N * string) :=
  match s with
  | String a (String b (String c (String d r))) =>
      let! a := hex_value a in let! b := hex_value b in let! c := hex_value c in let! d := hex_value d in Some ((((a * 16 + b) * 16 + c) * 16 + d)%N, r)
  | _ => None
  end.
Definition byte (n : N) : ascii := ascii_of_N n.
Definition utf8 (n : N) : string :=
  if (n <? 128)%N then String (byte n) ""
  else if (n <? 2048)%N then String (byte (192 + n / 64)) (String (byte (128 + n mod 64)) "")
  else if (n <? 65536)%N then String (byte (224 + n / 4096)) (String (byte (128 + n / 64 mod 64)) (String (byte (128 + n mod 64)) ""))
  else String (byte (240 + n / 262144)) (String (byte (128 + n / 4096 mod 64)) (String (byte (128 + n / 64 mod 64)) (String (byte (128 + n mod 64)) ""))).
(** read.rs [parse_escape]/[parse_unicode_escape]: after the backslash. *)
Definition parse_escape (s : string) : option (string * string) :=
  match s with
  | "" => None
  | String c r =>
      match nat_of_ascii c with
      | 34 | 92 | 47 => Some (String c "", r)
      | 98 => Some (String (chr 8) "", r) | 102 => Some (String (chr 12) "", r) | 110 => Some (String (chr 10) "", r)
      | 114 => Some (String (chr 13) "", r) | 116 => Some (String (chr 9) "", r)
      | 117 =>
          let! h := parse_hex4 r in
          let n := fst h in
          if (56320 <=? n)%N && (n <=? 57343)%N then None
          else if (55296 <=? n)%N && (n <=? 56319)%N then
            match snd h with
            | String b (String u r2) =>
                if Ascii.eqb b (chr 92) && Ascii.eqb u "u" then
                  let! h2 := parse_hex4 r2 in
                  let n2 := fst h2 in
                  if (56320 <=? n2)%N && (n2 <=? 57343)%N then Some (utf8 (65536 + (n - 55296) * 1024 + (n2 - 56320)), snd h2) else None
                else None
            | _ => None
            end
          else Some (utf8 n, snd h)
      | _ => None
      end
  end.
(** After the opening quote. [fuel]: at least the length of the text. *)
Fixpoint parse_string (fuel : nat) (s : string) : option (string * string) :=
  match fuel, s with
  | S n, String c r =>
      if Ascii.eqb c (chr 34) then Some ("", r)
      else if Ascii.eqb c (chr 92) then let! e := parse_escape r in let! x := parse_string n (snd e) in Some (fst e +++ fst x, snd x)
      else if Nat.ltb (nat_of_ascii c) 32 then None
      else let! x := parse_string n r in Some (String c (fst x), snd x)
  | _, _ => None
  end.
(** read.rs [IoRead::parse_str]: the bytes between the quotes, unescaped, must be UTF-8 (core::str::from_utf8, modelled in Text_model). *)
Definition parse_str (s : string) : option (string * string) :=
  let! x := parse_string (String.length s) s in if Text_model.utf8_ok (fst x) then Some x else None.
Definition literal (w s : string) : option string := if String.prefix w s then Some (String.substring (String.length w) (String.length s - String.length w) s) else None.
(** de.rs [check_recursion!]: [depth] is what remains of the limit of 128; it may not reach zero. *)
Fixpoint parse_value (fuel depth : nat) (s : string) : option (value * string) :=
  match fuel with
  | 0 => None
  | S n =>
      match skip_ws s with
      | "" => None
      | String c r =>
          if Ascii.eqb c (chr 34) then let! x := parse_str r in Some (VStr (fst x), snd x)
          else if Ascii.eqb c "[" then
            match depth with
            | S (S d) =>
                match skip_ws r with
                | String c1 r1 => if Ascii.eqb c1 "]" then Some (VSeq [], r1) else let! x := parse_elements n (S d) r in Some (VSeq (fst x), snd x)
                | "" => None
                end
            | _ => None
            end
          else if Ascii.eqb c "{" then
            match depth with
            | S (S d) =>
                match skip_ws r with
                | String c1 r1 => if Ascii.eqb c1 "}" then Some (VMap [], r1) else let! x := parse_members n (S d) r in Some (VMap (fst x), snd x)
                | "" => None
                end
            | _ => None
            end
          else if Ascii.eqb c "n" then let! r := literal "ull" r in Some (VNull, r)
          else if Ascii.eqb c "t" then let! r := literal "rue" r in Some (VBool true, r)
          else if Ascii.eqb c "f" then let! r := literal "alse" r in Some (VBool false, r)
          else parse_number (String c r)
      end
  end
with parse_elements (fuel depth : nat) (s : string) : option (list value * string) :=
  match fuel with
  | 0 => None
  | S n =>
      let! x := parse_value n depth s in
      match skip_ws (snd x) with
      | String c r => if Ascii.eqb c "]" then Some ([fst x], r) else if Ascii.eqb c "," then let! y := parse_elements n depth r in Some (fst x :: fst y, snd y) else None
      | "" => None
      end
  end
with parse_members (fuel depth : nat) (s : string) : option (list (value * value) * string) :=
  match fuel with
  | 0 => None
  | S n =>
      match skip_ws s with
      | String q r0 =>
          if Ascii.eqb q (chr 34) then
            let! k := parse_str r0 in
            match skip_ws (snd k) with
            | String c r1 =>
                if Ascii.eqb c ":" then
                  let! x := parse_value n depth r1 in
                  match skip_ws (snd x) with
                  | String c2 r2 =>
                      if Ascii.eqb c2 "}" then Some ([(VStr (fst k), fst x)], r2)
                      else if Ascii.eqb c2 "," then let! y := parse_members n depth r2 in Some ((VStr (fst k), fst x) :: fst y, snd y) else None
                  | "" => None
                  end
                else None
            | "" => None
            end
          else None
      | "" => None
      end
  end.
(** The whole text: one value, then only white space. *)
Definition parse (s : string) : option value :=
  let! x := parse_value (2 * String.length s + 2) 128 s in if eqb (skip_ws (snd x)) "" then Some (fst x) else None.

(** json_codec.rs:12-35 (an empty buffer is no message). *)
Section Codec.
Variable show_time : time -> string.
Variable read_time_text : string -> option time.
Variable put_payload : Plugins_model.payload -> value.
Variable read_payload : value -> option Plugins_model.payload.
Definition json_encode (m : message) : string := print (put_message show_time put_payload m).
Definition json_decode (k : kind) (s : string) : option message := let! v := parse s in read_message read_time_text read_payload k v.
End Codec.
End Json.
