(** A specification of how [sh -c] splits a simple command into words, restricted to the fragment without expansions. *)
From Verif Require Import Base Types Ids_model Ids_spec Paths_model Docker_model.

Definition code (c : ascii) : nat := nat_of_ascii c.
Definition between (a b n : nat) : bool := Nat.leb a n && Nat.leb n b.
(** Characters that stand for themselves outside quotes: letters, digits and - _ . / : = @ % + , *)
Definition plain_char (c : ascii) : bool :=
  between 97 122 (code c) || between 65 90 (code c) || between 48 57 (code c) ||
  existsb (Ascii.eqb c) ["-"; "_"; "."; "/"; ":"; "="; "@"; "%"; "+"; ","]%char.
(** Characters that stand for themselves inside double quotes: all but the quote, dollar, backquote, backslash and NUL. *)
Definition quotable_char (c : ascii) : bool := negb (existsb (Ascii.eqb c) [""""; "$"; "`"; "\"; "000"]%char).
Fixpoint all_chars (p : ascii -> bool) (s : string) : bool :=
  match s with EmptyString => true | String c s' => p c && all_chars p s' end.
Definition plain_word (s : string) : Prop := s <> "" /\ all_chars plain_char s = true.
Definition plain (s : string) : Prop := all_chars plain_char s = true.
Definition quotable (s : string) : Prop := all_chars quotable_char s = true.

(** Word splitting: [cur] is the word being read, if one has begun; [None] if the text leaves the fragment. *)
Fixpoint sh_scan (cur : option string) (quoted : bool) (s : string) : option (list string) :=
  match s with
  | EmptyString => if quoted then None else Some match cur with Some w => [w] | None => [] end
  | String c s' =>
      if quoted then
        if Ascii.eqb c """" then sh_scan cur false s'
        else if quotable_char c then sh_scan (Some (option_default "" cur +++ String c "")) true s' else None
      else if Ascii.eqb c " " then
        match sh_scan None false s' with Some ws => Some match cur with Some w => w :: ws | None => ws end | None => None end
      else if Ascii.eqb c """" then sh_scan (Some (option_default "" cur)) true s'
      else if plain_char c then sh_scan (Some (option_default "" cur +++ String c "")) false s' else None
  end.
Definition sh_words (s : string) : option (list string) := sh_scan None false s.

(** The intended argument vector of a container run. *)
Definition docker_argv (auto_remove : bool) (security : list string) (volumes : list (string * string)) (envs : list (string * string))
    (workdir entrypoint name : option string) (image : string) : list string :=
  ["docker"; "run"; "--tty"] ++ (if auto_remove then ["--rm"] else []) ++
  flat_map (fun o => ["--security-opt"; o]) security ++
  flat_map (fun v => ["-v"; fst v +++ ":" +++ snd v]) volumes ++
  flat_map (fun e => ["-e"; fst e +++ "=" +++ snd e]) envs ++
  match workdir with Some w => ["-w"; w] | None => [] end ++
  match entrypoint with Some e => ["--entrypoint"; e] | None => [] end ++
  match name with Some n => ["--name"; n] | None => [] end ++ [image].

(** The volumes a user asked for: those of the form host:container (exactly one colon) are used, the others are dropped. *)
Definition one_colon (v h p : string) : Prop := v = h +++ ":" +++ p /\ free_of ":"%char h /\ free_of ":"%char p.
Inductive kept_volumes : list string -> list (string * string) -> Prop :=
| kv_nil : kept_volumes [] []
| kv_keep v h p vs ps : one_colon v h p -> kept_volumes vs ps -> kept_volumes (v :: vs) ((h, p) :: ps)
| kv_drop v vs ps : (forall h p, ~ one_colon v h p) -> kept_volumes vs ps -> kept_volumes (v :: vs) ps.

(** The text an environment value is passed as; how a number is printed is a parameter. *)
Inductive env_text (show_f64 : spec_float -> string) : env_value -> string -> Prop :=
| et_string s : env_text show_f64 (EnvString s) s
| et_number f : env_text show_f64 (EnvNumber f) (show_f64 f)
| et_true : env_text show_f64 (EnvBool true) "true"
| et_false : env_text show_f64 (EnvBool false) "false".
(** A list of variables as text. *)
Definition env_texts (show_f64 : spec_float -> string) (envs : list (string * env_value)) (texts : list (string * string)) : Prop :=
  Forall2 (fun e t => fst t = fst e /\ env_text show_f64 (snd e) (snd t)) envs texts.

(** Calls of the builder of a docker command, and the last of them that says something. *)
Inductive docker_call := CallName (n : string) | CallAutoRemove (b : bool) | CallEnv (k v : string) | CallWorkdir (w : string) | CallEntrypoint (e : string) | CallSecurity (o : string) | CallVolume (from to : string).
Definition last_said {A} (says : docker_call -> option A) (calls : list docker_call) (r : option A) : Prop :=
  match r with
  | Some a => exists before c after, calls = before ++ c :: after /\ says c = Some a /\ forall c', In c' after -> says c' = None
  | None => forall c, In c calls -> says c = None
  end.
