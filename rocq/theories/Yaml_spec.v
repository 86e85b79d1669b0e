(** Specification of the shapes of workflow configs. *)
From Verif Require Import Base Types Config_model Serde_model Yaml_model.

(** ** Shapes of buffered values (inside steps, containers and conditions) *)
(** A key that stands for field number [i]: its name, or the number itself. *)
Definition stands_for (fields : list string) (i : nat) (k : value) : Prop :=
  k = VInt (Z.of_nat i) \/ exists s, k = VStr s /\ nth_error fields i = Some s.
(** What a record's value gives for each field: a list with one element per field, or a mapping whose keys are strings or non-negative integers, in which no field is given twice. *)
Inductive gives (fields : list string) : value -> list (option value) -> Prop :=
| gives_seq l : length l = length fields -> gives fields (VSeq l) (map Some l)
| gives_map m vs :
    (forall k x, In (k, x) m -> (exists s, k = VStr s) \/ (exists z, k = VInt z /\ (0 <= z)%Z)) ->
    length vs = length fields ->
    (forall i x, nth_error vs i = Some (Some x) ->
       exists a k b, m = a ++ (k, x) :: b /\ stands_for fields i k /\ (forall k' x', In (k', x') (a ++ b) -> ~ stands_for fields i k')) ->
    (forall i, nth_error vs i = Some None -> forall k x, In (k, x) m -> ~ stands_for fields i k) ->
    gives fields (VMap m) vs.
(** A field that must be given, one that need not be (null is as good as absent), and a list. *)
Definition required {A} (R : value -> A -> Prop) (o : option value) (x : A) : Prop := exists v, o = Some v /\ R v x.
Definition optional {A} (R : value -> A -> Prop) (o : option value) (x : option A) : Prop :=
  (x = None /\ (o = None \/ o = Some VNull)) \/ exists v a, o = Some v /\ v <> VNull /\ x = Some a /\ R v a.
Definition list_of {A} (R : value -> A -> Prop) (v : value) (l : list A) : Prop := exists vs, v = VSeq vs /\ Forall2 R vs l.
Definition is_string (v : value) (s : string) : Prop := v = VStr s.
Definition is_bool (v : value) (b : bool) : Prop := v = VBool b.
(** A number is itself, or the nearest number to an integer. *)
Definition env_shape (v : value) (e : env_value) : Prop :=
  match e with
  | EnvString s => v = VStr s
  | EnvBool b => v = VBool b
  | EnvNumber f => v = VFloat f \/ exists z, v = VInt z /\ f = binary_normalize 53 1024 z 0 false
  end.
(** A mapping with string keys; of several entries with one key the last counts. *)
Definition map_shape {A} (R : value -> A -> Prop) (v : value) (h : map_ string A) : Prop :=
  exists m es, v = VMap m /\ Forall2 (fun e x => fst e = VStr (fst x) /\ R (snd e) (snd x)) m es /\ h = fold_left (fun h e => insert (fst e) (snd e) h) es [].
Definition options_shape (v : value) (o : container_options) : Prop :=
  exists n vo so, gives ["name"; "volumes"; "security-opts"] v [n; vo; so] /\
    required is_string n (co_name o) /\ optional (list_of is_string) vo (co_volumes o) /\ optional (list_of is_string) so (co_security_opts o).
Definition branches_shape (v : value) (b p : option (list string)) : Prop :=
  exists bo po, gives ["branches"; "paths"] v [bo; po] /\ optional (list_of is_string) bo b /\ optional (list_of is_string) po p.
Definition config_shape (v : value) (c : condition_config) : Prop :=
  exists po ro, gives ["push"; "pull_request"] v [po; ro] /\
    optional (fun v p => branches_shape v (pc_branches p) (pc_paths p)) po (cc_push c) /\
    optional (fun v p => branches_shape v (prc_branches p) (prc_paths p)) ro (cc_pull_request c).
(** A list of strings is a list of events; anything else must be a config. *)
Definition condition_shape (v : value) (c : condition) : Prop :=
  match c with
  | CEvent l => list_of is_string v l
  | CConfig cc => (forall l, ~ list_of is_string v l) /\ config_shape v cc
  end.
Definition container_shape (v : value) (c : container) : Prop := match c with CName s => v = VStr s | COptions o => options_shape v o end.
Definition command_shape (v : value) (c : user_command_step) : Prop :=
  exists name cont run on coe env sec tmo,
    gives ["name"; "container"; "run"; "on"; "continue-on-error"; "environments"; "secrets"; "timeout"] v [name; cont; run; on; coe; env; sec; tmo] /\
    optional is_string name (uc_name c) /\ optional container_shape cont (uc_container c) /\ required is_string run (uc_run c) /\
    optional condition_shape on (uc_on c) /\ optional is_bool coe (uc_continue_on_error c) /\ optional (map_shape env_shape) env (uc_environments c) /\
    optional (list_of is_string) sec (uc_secrets c) /\ optional is_string tmo (uc_timeout c).
Section Free.
Variable same_yaml : yaml -> yaml -> bool.
(** Free-form values: any, without duplicate keys. *)
Inductive free_shape : value -> yaml -> Prop :=
| free_null : free_shape VNull YNull | free_bool b : free_shape (VBool b) (YBool b) | free_int z : free_shape (VInt z) (YInt z)
| free_float f : free_shape (VFloat f) (YFloat f) | free_str s : free_shape (VStr s) (YString s)
| free_seq vs ys : Forall2 free_shape vs ys -> free_shape (VSeq vs) (YSeq ys)
| free_map m es : Forall2 (fun e y => free_shape (fst e) (fst y) /\ free_shape (snd e) (snd y)) m es ->
    (forall a x b y c, es = a ++ x :: b ++ y :: c -> same_yaml (fst x) (fst y) = false) -> free_shape (VMap m) (YMap es).
Definition action_shape (v : value) (c : user_action_step) : Prop :=
  exists name uses with_ on coe env sec tmo,
    gives ["name"; "uses"; "with"; "on"; "continue-on-error"; "environments"; "secrets"; "timeout"] v [name; uses; with_; on; coe; env; sec; tmo] /\
    optional is_string name (ua_name c) /\ required is_string uses (ua_uses c) /\ optional free_shape with_ (ua_with c) /\
    optional condition_shape on (ua_on c) /\ optional is_bool coe (ua_continue_on_error c) /\ optional (map_shape env_shape) env (ua_environments c) /\
    optional (list_of is_string) sec (ua_secrets c) /\ optional is_string tmo (ua_timeout c).
(** A step is a command if it has the shape of one, else an action. *)
Definition step_shape (v : value) (s : user_step) : Prop :=
  match s with UCommand c => command_shape v c | UAction a => (forall c, ~ command_shape v c) /\ action_shape v a end.

(** ** Shapes of whole configs: here every scalar is a string, and an empty plain scalar is also an empty list, mapping or record. *)
Variable number : string -> number_text.
Definition null_text (s : string) : Prop := s = "" \/ s = "~" \/ s = "null" \/ s = "Null" \/ s = "NULL".
(** Fields are looked up by name; a mapping may not give one twice, nor have keys that are not scalars. *)
Inductive node_gives (fields : list string) : node -> list (option node) -> Prop :=
| ngives_empty : node_gives fields (NScalar true "") (map (fun _ => None) fields)
| ngives_seq l : length l = length fields -> node_gives fields (NSeq l) (map Some l)
| ngives_map m vs :
    (forall k x, In (k, x) m -> exists p s, k = NScalar p s) ->
    Forall2 (fun f o => match o with
                        | Some x => exists a p b, m = a ++ (NScalar p f, x) :: b /\ (forall p' x', ~ In (NScalar p' f, x') (a ++ b))
                        | None => forall p x, ~ In (NScalar p f, x) m
                        end) fields vs ->
    node_gives fields (NMap m) vs.
Definition node_required {A} (R : node -> A -> Prop) (o : option node) (x : A) : Prop := exists n, o = Some n /\ R n x.
Definition node_null (n : node) : Prop := exists s, n = NScalar true s /\ null_text s.
Definition node_optional {A} (R : node -> A -> Prop) (o : option node) (x : option A) : Prop :=
  (x = None /\ (o = None \/ exists n, o = Some n /\ node_null n)) \/ exists n a, o = Some n /\ ~ node_null n /\ x = Some a /\ R n a.
Definition node_list_of {A} (R : node -> A -> Prop) (n : node) (l : list A) : Prop := (n = NScalar true "" /\ l = []) \/ exists ns, n = NSeq ns /\ Forall2 R ns l.
Definition node_is_string (n : node) (s : string) : Prop := exists p, n = NScalar p s.
Definition node_map_shape {A} (R : node -> A -> Prop) (n : node) (h : map_ string A) : Prop :=
  (n = NScalar true "" /\ h = []) \/
  exists m es, n = NMap m /\ Forall2 (fun e x => node_is_string (fst e) (fst x) /\ R (snd e) (snd x)) m es /\ h = fold_left (fun h e => insert (fst e) (snd e) h) es [].
(** The value a plain scalar resolves to, and the value of a node. *)
Inductive resolves_to : string -> value -> Prop :=
| res_null s : null_text s -> resolves_to s VNull
| res_true s : In s ["true"; "True"; "TRUE"] -> resolves_to s (VBool true)
| res_false s : In s ["false"; "False"; "FALSE"] -> resolves_to s (VBool false)
| res_int s z : ~ null_text s -> ~ In s ["true"; "True"; "TRUE"; "false"; "False"; "FALSE"] -> number s = IntText z -> (- 2 ^ 63 <= z < 2 ^ 64)%Z -> resolves_to s (VInt z)
| res_float s f : ~ null_text s -> ~ In s ["true"; "True"; "TRUE"; "false"; "False"; "FALSE"] -> number s = FloatText f -> resolves_to s (VFloat f)
| res_str s : ~ null_text s -> ~ In s ["true"; "True"; "TRUE"; "false"; "False"; "FALSE"] -> number s = NotNumber -> resolves_to s (VStr s).
Inductive value_of : node -> value -> Prop :=
| vo_plain s v : resolves_to s v -> value_of (NScalar true s) v
| vo_quoted s : value_of (NScalar false s) (VStr s)
| vo_seq ns vs : Forall2 value_of ns vs -> value_of (NSeq ns) (VSeq vs)
| vo_map m es : Forall2 (fun n v => value_of (fst n) (fst v) /\ value_of (snd n) (snd v)) m es -> value_of (NMap m) (VMap es).
Definition with_value {A} (R : value -> A -> Prop) (n : node) (a : A) : Prop := exists v, value_of n v /\ R v a.
Definition job_shape (n : node) (j : user_job) : Prop :=
  exists name cont wd steps on deps,
    node_gives ["name"; "container"; "working-directories"; "steps"; "on"; "depends-on"] n [name; cont; wd; steps; on; deps] /\
    node_optional node_is_string name (uj_name j) /\ node_optional (with_value container_shape) cont (uj_container j) /\
    node_optional (node_list_of node_is_string) wd (uj_working_dirs j) /\ node_required (node_list_of (with_value step_shape)) steps (uj_steps j) /\
    node_optional (with_value condition_shape) on (uj_on j) /\ node_optional (node_list_of node_is_string) deps (uj_depends_on j).
Definition workflow_shape (n : node) (w : user_workflow) : Prop :=
  exists name on jobs, node_gives ["name"; "on"; "jobs"] n [name; on; jobs] /\
    node_optional node_is_string name (uw_name w) /\ node_optional (with_value condition_shape) on (uw_on w) /\ node_required (node_map_shape job_shape) jobs (uw_jobs w).
End Free.
