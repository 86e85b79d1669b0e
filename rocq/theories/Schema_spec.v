(** C124: the documents that are messages. A schema says which documents are accepted, and which document says the same in the form in which the code writes it. *)
From Verif Require Import Base Types Plugins_model Serde_model Yaml_spec.

Inductive schema :=
| Text | Bool | Int (lo hi : Z) | Time | Span | Env | Payload
| Maybe (s : schema) | List (s : schema) | Map (s : schema) | Tuple (ss : list schema)
| Record (fs : list (string * schema)) | Choice (vs : list (string * option schema)) | Either (s t : schema).

(** NaN and the infinities have no JSON form. *)
Definition number_value (f : spec_float) : value := match f with S754_nan | S754_infinity _ => VNull | _ => VFloat f end.
(** Of several entries with one key the last counts, in the place of the first. *)
Fixpoint distinct (l : list string) : list string := match l with [] => [] | k :: r => k :: filter (fun x => if string_dec x k then false else true) (distinct r) end.
Definition last_wins {A} (es m : list (string * A)) : Prop :=
  map fst m = distinct (map fst es) /\ forall k x, In (k, x) m <-> exists a b, es = a ++ (k, x) :: b /\ ~ In k (map fst b).

Section Fits.
Variable show_time : time -> string.
Variable read_time_text : string -> option time.
Variable put_payload : payload -> value.
Variable read_payload : value -> option payload.
(** [fits s v c]: [v] is a document of schema [s], and [c] its canonical form. *)
Inductive fits : schema -> value -> value -> Prop :=
| fits_text t : fits Text (VStr t) (VStr t)
| fits_bool b : fits Bool (VBool b) (VBool b)
| fits_int lo hi z : (lo <= z <= hi)%Z -> fits (Int lo hi) (VInt z) (VInt z)
| fits_time t x : read_time_text t = Some x -> fits Time (VStr t) (VStr (show_time x))
| fits_span v s n : gives ["secs"; "nanos"] v [Some (VInt s); Some (VInt n)] ->
    (forall m k x, v = VMap m -> In (k, x) m -> k = VStr "secs" \/ k = VStr "nanos") ->
    (0 <= s)%Z -> (0 <= n < 2 ^ 32)%Z -> (s + n / 10 ^ 9 < 2 ^ 64)%Z ->
    fits Span v (VMap [(VStr "secs", VInt (s + n / 10 ^ 9)); (VStr "nanos", VInt (n mod 10 ^ 9))])
| fits_env_text t : fits Env (VStr t) (VStr t)
| fits_env_bool b : fits Env (VBool b) (VBool b)
| fits_env_float f : fits Env (VFloat f) (number_value f)
| fits_env_int z : fits Env (VInt z) (number_value (binary_normalize 53 1024 z 0 false))
| fits_payload v p : read_payload v = Some p -> fits Payload v (put_payload p)
| fits_null s : fits (Maybe s) VNull VNull
| fits_some s v c : v <> VNull -> fits s v c -> fits (Maybe s) v c
| fits_list s l l' : Forall2 (fits s) l l' -> fits (List s) (VSeq l) (VSeq l')
| fits_map s m es m' : Forall2 (fun e x => fst e = VStr (fst x) /\ fits s (snd e) (snd x)) m es -> last_wins es m' ->
    fits (Map s) (VMap m) (VMap (map (fun x => (VStr (fst x), snd x)) m'))
| fits_tuple ss l l' : tuple_fits ss l l' -> fits (Tuple ss) (VSeq l) (VSeq l')
| fits_record fs v vs cs : gives (map fst fs) v vs -> fields_fit fs vs cs -> fits (Record fs) v (VMap cs)
| fits_unit vs t : In (t, None) vs -> fits (Choice vs) (VStr t) (VStr t)
| fits_unit_null vs t : In (t, None) vs -> fits (Choice vs) (VMap [(VStr t, VNull)]) (VStr t)
| fits_with vs t s v c : In (t, Some s) vs -> fits s v c -> fits (Choice vs) (VMap [(VStr t, v)]) (VMap [(VStr t, c)])
| fits_left s t v c : fits s v c -> fits (Either s t) v c
| fits_right s t v c : fits t v c -> fits (Either s t) v c
with tuple_fits : list schema -> list value -> list value -> Prop :=
| tuple_nil : tuple_fits [] [] []
| tuple_cons s ss v l c l' : fits s v c -> tuple_fits ss l l' -> tuple_fits (s :: ss) (v :: l) (c :: l')
(** A field that may be null may also be left out. *)
with fields_fit : list (string * schema) -> list (option value) -> list (value * value) -> Prop :=
| fields_nil : fields_fit [] [] []
| fields_given f s fs v vs c cs : fits s v c -> fields_fit fs vs cs -> fields_fit ((f, s) :: fs) (Some v :: vs) ((VStr f, c) :: cs)
| fields_absent f s fs vs cs : fields_fit fs vs cs -> fields_fit ((f, Maybe s) :: fs) (None :: vs) ((VStr f, VNull) :: cs).
End Fits.

(** ** The types that are sent *)
Definition I32 := Int (- 2 ^ 31) (2 ^ 31 - 1).
Definition I64 := Int (- 2 ^ 63) (2 ^ 63 - 1).
Definition Usize := Int 0 (2 ^ 64 - 1).
Definition JobIdS := Tuple [Text; Text].
Definition StepIdS := Tuple [Text; Text; Usize].
Definition Enum (names : list string) := Choice (map (fun n => (n, None)) names).
Definition State := Enum ["pending"; "queued"; "in_progress"; "succeeded"; "failed"; "cancelled"; "skipped"].
Definition LogType := Enum ["error"; "log"].
Definition Signal := Enum ["Cancel"; "Timeout"].
Definition RunResult := Choice [("Succeeded", None); ("Failed", Some (Record [("exit_code", I32)])); ("Cancelled", None)].
Definition LogS := Record [("log_type", LogType); ("message", Text)].
Definition Container := Record [("name", Text); ("volumes", Maybe (List Text)); ("security-opts", Maybe (List Text))].
Definition Branches := Record [("branches", Maybe (List Text)); ("paths", Maybe (List Text))].
Definition Condition := Either (List Text) (Record [("push", Maybe Branches); ("pull_request", Maybe Branches)]).
Definition Trigger := Record [("event", Text); ("repo_owner", Text); ("repo_name", Text); ("pr_number", Maybe I64); ("sha", Text); ("branch", Text); ("ref_name", Text)].
Definition StepS := Record [("id", StepIdS); ("name", Maybe Text); ("on", Maybe Condition); ("container", Maybe Container); ("run", Text); ("continue_on_error", Bool);
  ("environments", Map Env); ("secrets", List Text); ("timeout", Span)].
Definition CommandS := Record [("id", StepIdS); ("name", Maybe Text); ("container", Maybe Container); ("run", Text); ("continue_on_error", Bool);
  ("environments", Map Env); ("secrets", List Text); ("timeout", Span)].
Definition ContextS := Record [("id", StepIdS); ("command", CommandS); ("event", Maybe Trigger); ("payload", Maybe Text)].
Definition JobS := Record [("id", JobIdS); ("name", Maybe Text); ("on", Maybe Condition); ("steps", List StepS); ("depends_on", List Text); ("working_directories", List Text)].
Definition WorkflowS := Record [("id", Text); ("name", Maybe Text); ("on", Maybe Condition); ("jobs", Map JobS)].
Definition StepResultS := Record [("id", StepIdS); ("state", State); ("exit_code", Maybe I32); ("started_at", Maybe Time); ("completed_at", Maybe Time)].
Definition JobResultS := Record [("id", JobIdS); ("state", State); ("started_at", Maybe Time); ("completed_at", Maybe Time); ("steps", List StepResultS)].
Definition WorkflowResultS := Record [("id", Text); ("state", State); ("started_at", Maybe Time); ("completed_at", Maybe Time); ("jobs", Map JobResultS)].
Definition WorkflowLogS := Record [("step_id", StepIdS); ("log_type", LogType); ("message", Text); ("time", Time)].
Definition StateEventS := Choice
  [("WorkflowStateUpdated", Some (Record [("id", Text); ("state", State)])); ("JobStateUpdated", Some (Record [("id", JobIdS); ("state", State)]));
   ("StepStateUpdated", Some (Record [("id", StepIdS); ("state", State)]))].
Definition RunEventS (s : schema) := Record [("source", s); ("trigger_event", Maybe Trigger); ("payload", Maybe Payload)].
Definition MetadataS := Record [("id", Text); ("os", Text); ("arch", Text); ("support_docker", Bool); ("support_host", Bool); ("version", Text); ("max_runs", I32)].
Definition EventS := Choice
  [("RunStep", Some (RunEventS StepS)); ("RunJob", Some (RunEventS JobS)); ("RunWorkflow", Some (RunEventS WorkflowS)); ("StepCompleted", Some StepResultS);
   ("JobCompleted", Some JobResultS); ("WorkflowCompleted", Some WorkflowResultS); ("StepLog", Some WorkflowLogS); ("StateChange", Some StateEventS);
   ("Signal", Some (Record [("step_id", StepIdS); ("signal", Signal)]))].
Definition ResponseS := Choice [("Log", Some (Record [("step_id", StepIdS); ("log", LogS)])); ("Result", Some (Record [("step_id", StepIdS); ("result", RunResult)]))].
(** The schema of each of the six kinds of message. *)
Definition schema_of (k : kind) : schema :=
  match k with KEmpty => Record [] | KMetadata => MetadataS | KContext => ContextS | KResponse => ResponseS | KEvent => EventS | KCommand => CommandS end.
