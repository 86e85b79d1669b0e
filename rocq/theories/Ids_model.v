(** Model of crates/astro-run/src/types/id.rs: printing and parsing of ids. *)
From Verif Require Import Base Types.
From Coq Require Import DecimalString DecimalN.

(** [str::split(c)] for a one-byte separator (std; used by id.rs:94,109): always yields at least one part. *)
Fixpoint split (c : ascii) (s : string) : list string :=
  match s with
  | EmptyString => [""]
  | String a s' =>
      if Ascii.eqb a c then "" :: split c s'
      else match split c s' with
           | h :: t => String a h :: t
           | [] => [String a ""]
           end
  end.

Definition slash : ascii := "/"%char.

(** Display of [usize] in decimal (std), used by id.rs:74. *)
Definition show_usize (n : N) : string := NilZero.string_of_uint (N.to_uint n).

Definition usize_limit : N := 18446744073709551616. (* 2^64 on the 64-bit targets *)

(** One byte of [usize::from_str_radix(_, 10)]: [char::to_digit(10)]. *)
Definition digit_of (c : ascii) : option N :=
  let n := N_of_ascii c in
  if (48 <=? n)%N && (n <=? 57)%N then Some (n - 48)%N else None.

(** The digit loop of [usize::from_str]: checked_mul(10), then checked_add(digit). *)
Fixpoint parse_digits (acc : N) (s : string) : option N :=
  match s with
  | EmptyString => Some acc
  | String c s' =>
      match digit_of c with
      | None => None
      | Some d =>
          if (acc * 10 <? usize_limit)%N then
            if (acc * 10 + d <? usize_limit)%N then parse_digits (acc * 10 + d) s' else None
          else None
      end
  end.

(** [str::parse::<usize>] (std): empty and a lone sign are errors, one leading '+' is accepted. *)
Definition parse_usize (s : string) : option N :=
  match s with
  | EmptyString => None
  | String c s' =>
      if Ascii.eqb c "+"%char then
        match s' with EmptyString => None | _ => parse_digits 0 s' end
      else parse_digits 0 s
  end.

(** id.rs:60-64 *)
Definition show_workflow_id (w : workflow_id) : string := wid_0 w.
(** id.rs:66-70 *)
Definition show_job_id (j : job_id) : string := jid_0 j +++ String slash (jid_1 j).
(** id.rs:72-76 *)
Definition show_step_id (s : step_id) : string :=
  sid_0 s +++ String slash (sid_1 s +++ String slash (show_usize (sid_2 s))).

(** id.rs:78-88 *)
Definition parse_workflow_id (s : string) : result workflow_id :=
  match s with
  | EmptyString => Err (InternalRuntimeError "WorkflowId cannot be empty")
  | _ => Ok (WorkflowId s)
  end.

(** id.rs:90-103 *)
Definition parse_job_id (s : string) : result job_id :=
  match split slash s with
  | [a; b] => Ok (JobId a b)
  | _ => Err (InternalRuntimeError "JobId must be in the format of <workflow_id>/<job_key>")
  end.

(** id.rs:105-126 *)
Definition parse_step_id (s : string) : result step_id :=
  match split slash s with
  | [a; b; n] =>
      match parse_usize n with
      | Some k => Ok (StepId a b k)
      | None => Err (InternalRuntimeError "Step number must be a number")
      end
  | _ => Err (InternalRuntimeError "StepId must be in the format of <workflow_id>/<job_key>/<step_number>")
  end.
