(** Model of [UserWorkflow::try_from] (crates/astro-run/src/user_config.rs:140-160): serde_yaml 0.9 driving the serde derives of user_config.rs:5-72 and types/condition.rs.
    The text is taken after libyaml's parser and with aliases expanded: a tree of scalars, sequences and mappings; tags are not modelled.
    Workflows and jobs are read straight from the tree; untagged enums (steps, containers, conditions) are read from serde's buffer, a [value], in which plain scalars
    have been resolved. *)
From Verif Require Import Base Types Config_model Serde_model.

Inductive node := NScalar (plain : bool) (s : string) | NSeq (l : list node) | NMap (m : list (node * node)).
(** serde_yaml's reading of a plain scalar as a number. *)
Inductive number_text := NotNumber | IntText (z : Z) | FloatText (f : spec_float).

Fixpoint all_some {A} (l : list (option A)) : option (list A) :=
  match l with [] => Some [] | x :: r => let! a := x in let! as_ := all_some r in Some (a :: as_) end.

Section Yaml.
Variable number : string -> number_text.
(** Equality of serde_yaml values, for the rejection of duplicate keys in free-form mappings. *)
Variable same_yaml : yaml -> yaml -> bool.

(** serde_yaml de.rs [parse_null], [parse_bool], [visit_untagged_scalar]; integers beyond 64 bits cannot be buffered. *)
Definition is_null_text (s : string) : bool := memb s [""; "~"; "null"; "Null"; "NULL"].
Definition resolve (s : string) : option value :=
  if is_null_text s then Some VNull
  else if memb s ["true"; "True"; "TRUE"] then Some (VBool true)
  else if memb s ["false"; "False"; "FALSE"] then Some (VBool false)
  else match number s with
       | IntText z => if (- 2 ^ 63 <=? z)%Z && (z <? 2 ^ 64)%Z then Some (VInt z) else None
       | FloatText f => Some (VFloat f)
       | NotNumber => Some (VStr s)
       end.
(** serde's [Content] of a node (serde private/de.rs, deserialize_any). *)
Fixpoint content (n : node) : option value :=
  match n with
  | NScalar true s => resolve s
  | NScalar false s => Some (VStr s)
  | NSeq l => let! vs := all_some (map content l) in Some (VSeq vs)
  | NMap m => let! es := all_some (map (fun e => let! k := content (fst e) in let! v := content (snd e) in Some (k, v)) m) in Some (VMap es)
  end.

(** ** Read from the buffer *)
(** serde_yaml value/de.rs and mapping.rs: a duplicate key is an error. *)
Fixpoint no_duplicates (ks : list yaml) : bool := match ks with [] => true | k :: r => negb (existsb (same_yaml k) r) && no_duplicates r end.
Fixpoint to_yaml (v : value) : option yaml :=
  match v with
  | VNull => Some YNull | VBool b => Some (YBool b) | VInt z => Some (YInt z) | VFloat f => Some (YFloat f) | VStr s => Some (YString s)
  | VSeq l => let! ys := all_some (map to_yaml l) in Some (YSeq ys)
  | VMap m =>
      let! es := all_some (map (fun e => let! k := to_yaml (fst e) in let! v := to_yaml (snd e) in Some (k, v)) m) in
      if no_duplicates (map fst es) then Some (YMap es) else None
  end.
(** user_config.rs:13-18 *)
Definition read_container (v : value) : option container :=
  or_else (let! o := read_container_options v in Some (COptions o)) (let! s := read_string v in Some (CName s)).
(** user_config.rs:20-31 *)
Definition command_fields := ["name"; "container"; "run"; "on"; "continue-on-error"; "environments"; "secrets"; "timeout"].
Definition read_user_command (v : value) : option user_command_step :=
  match slots command_fields v with
  | Some [a; b; c; d; e; f; g; h] =>
      let! a := opt read_string a in let! b := opt read_container b in let! c := req read_string c in let! d := opt read_condition d in
      let! e := opt read_bool e in let! f := opt read_environments f in let! g := opt (read_seq read_string) g in let! h := opt read_string h in
      Some (UserCommandStep a b c d e f g h)
  | _ => None
  end.
(** user_config.rs:33-44 *)
Definition action_fields := ["name"; "uses"; "with"; "on"; "continue-on-error"; "environments"; "secrets"; "timeout"].
Definition read_user_action (v : value) : option user_action_step :=
  match slots action_fields v with
  | Some [a; b; c; d; e; f; g; h] =>
      let! a := opt read_string a in let! b := req read_string b in let! c := opt to_yaml c in let! d := opt read_condition d in
      let! e := opt read_bool e in let! f := opt read_environments f in let! g := opt (read_seq read_string) g in let! h := opt read_string h in
      Some (UserActionStep a b c d e f g h)
  | _ => None
  end.
(** user_config.rs:46-52 *)
Definition read_user_step (v : value) : option user_step :=
  or_else (let! c := read_user_command v in Some (UCommand c)) (let! a := read_user_action v in Some (UAction a)).

(** ** Read from the tree *)
(** de.rs [deserialize_str]: every scalar is a string; [deserialize_option]; [deserialize_seq], [deserialize_map], [deserialize_struct]: an empty plain scalar is an empty collection. *)
Definition node_string (n : node) : option string := match n with NScalar _ s => Some s | _ => None end.
Definition node_option {A} (d : node -> option A) (n : node) : option (option A) :=
  match n with NScalar true s => if is_null_text s then Some None else let! a := d n in Some (Some a) | _ => let! a := d n in Some (Some a) end.
Definition node_seq {A} (d : node -> option A) (n : node) : option (list A) :=
  match n with NSeq l => map_all d l | NScalar true "" => Some [] | _ => None end.
Definition node_entry {A} (d : node -> option A) (e : node * node) : option (string * A) :=
  let! k := node_string (fst e) in let! a := d (snd e) in Some (k, a).
Definition node_map {A} (d : node -> option A) (n : node) : option (map_ string A) :=
  match n with
  | NMap m => let! es := map_all (node_entry d) m in Some (fold_left (fun h e => insert (fst e) (snd e) h) es [])
  | NScalar true "" => Some []
  | _ => None
  end.
Definition is_scalar (n : node) : bool := match n with NScalar _ _ => true | _ => false end.
Definition node_slot (m : list (node * node)) (f : string) : option (option node) :=
  match filter (fun e => eqb (node_string (fst e)) (Some f)) m with [] => Some None | [(_, v)] => Some (Some v) | _ => None end.
Definition node_slots (fields : list string) (n : node) : option (list (option node)) :=
  match n with
  | NSeq l => if Nat.eqb (length l) (length fields) then Some (map Some l) else None
  | NMap m => if forallb (fun e => is_scalar (fst e)) m then map_all (node_slot m) fields else None
  | NScalar true "" => Some (map (fun _ => None) fields)
  | _ => None
  end.
Definition node_req {A} (d : node -> option A) (s : option node) : option A := match s with Some n => d n | None => None end.
Definition node_opt {A} (d : node -> option A) (s : option node) : option (option A) := match s with Some n => node_option d n | None => Some None end.
Definition buffered {A} (d : value -> option A) (n : node) : option A := let! v := content n in d v.
(** user_config.rs:54-65 *)
Definition job_fields := ["name"; "container"; "working-directories"; "steps"; "on"; "depends-on"].
Definition node_job (n : node) : option user_job :=
  match node_slots job_fields n with
  | Some [a; b; c; d; e; f] =>
      let! a := node_opt node_string a in let! b := node_opt (buffered read_container) b in let! c := node_opt (node_seq node_string) c in
      let! d := node_req (node_seq (buffered read_user_step)) d in let! e := node_opt (buffered read_condition) e in let! f := node_opt (node_seq node_string) f in
      Some (UserJob a b c d e f)
  | _ => None
  end.
(** user_config.rs:67-72 *)
Definition workflow_fields := ["name"; "on"; "jobs"].
Definition node_workflow (n : node) : option user_workflow :=
  match node_slots workflow_fields n with
  | Some [a; b; c] => let! a := node_opt node_string a in let! b := node_opt (buffered read_condition) b in let! c := node_req (node_map node_job) c in Some (UserWorkflow a b c)
  | _ => None
  end.
(** user_config.rs:144-145. [compose]: libyaml and the single document it must find (an empty text is an empty scalar); [message]: serde_yaml's error text. *)
Definition decode_config (compose : string -> option node) (message : string -> string) (text : string) : user_workflow + string :=
  match (let! n := compose text in node_workflow n) with Some w => inl w | None => inr (message text) end.
(** user_config.rs:140-151 *)
Definition try_from (compose : string -> option node) (message : string -> string) (text : string) : result user_workflow :=
  match decode_config compose message text with
  | inr m => Err (WorkflowConfigError ("Failed to parse workflow: " +++ m))
  | inl w => let? _ := validate w in Ok w
  end.
End Yaml.
