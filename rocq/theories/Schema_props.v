(** C124: which documents are accepted as messages, and as which. *)
From Verif Require Import Base Types Plugins_model Exec_model Sched_model Config_model Serde_model Serde_spec Json_model Json_spec Json_props Yaml_spec Yaml_proof Grammar_spec Grammar_proof Schema_spec Schema_proof.

(** A document is read as a message exactly if it fits the schema of that kind of message, and then as the message that is written as its canonical form. *)
Theorem C124_document : forall show_time read_time_text put_payload read_payload k v c,
  (exists m, read_message read_time_text read_payload k v = Some m /\ put_message show_time put_payload m = c) <-> fits show_time read_time_text put_payload read_payload (schema_of k) v c.
Proof. intros. symmetry. apply message_fits. Qed.
Print Assumptions C124_document.
(** The same from the received bytes on. *)
Theorem C124_received : forall read_f64_text show_time read_time_text put_payload read_payload k bytes c,
  (exists m, json_decode read_f64_text read_time_text read_payload k bytes = Some m /\ put_message show_time put_payload m = c) <->
  exists v, json_text read_f64_text bytes v /\ nesting v <= 127 /\ fits show_time read_time_text put_payload read_payload (schema_of k) v c.
Proof.
  intros. unfold json_decode. split.
  - intros (m & E & <-). apply bind_iff in E as (v & P & E). apply parse_iff in P as [J D]. exists v. split; [exact J|]. split; [exact D|]. apply message_fits. eauto.
  - intros (v & J & D & F). apply message_fits in F as (m & E & <-). exists m. split; [|reflexivity]. apply bind_iff. exists v. split; [apply parse_iff; auto|exact E].
Qed.
Print Assumptions C124_received.
(** Received bytes are rejected exactly if they are no such text. *)
Theorem C124_rejected : forall read_f64_text show_time read_time_text put_payload read_payload k bytes,
  json_decode read_f64_text read_time_text read_payload k bytes = None <->
  ~ exists v c, json_text read_f64_text bytes v /\ nesting v <= 127 /\ fits show_time read_time_text put_payload read_payload (schema_of k) v c.
Proof.
  intros rd sh rt pp rp k bytes. split.
  - intros E (v & c & H). destruct (proj2 (C124_received rd sh rt pp rp k bytes c) (ex_intro _ v H)) as (m & E' & _). congruence.
  - intros H. destruct (json_decode rd rt rp k bytes) as [m|] eqn:E; [|reflexivity]. destruct H.
    destruct (proj1 (C124_received rd sh rt pp rp k bytes (put_message sh pp m)) (ex_intro _ m (conj E eq_refl))) as (v & H). eauto.
Qed.
Print Assumptions C124_rejected.

(** ** Cases *)
Notation fits' := (fits Ids_model.show_usize some_read_time some_put_payload some_read_payload).
(** Unknown fields are skipped, fields that may be null may be missing, keys come in any order, 1 500 000 000 nanoseconds carry, the last of two values of a variable counts. *)
Definition sloppy : value :=
  VMap [(VStr "timeout", VMap [(VStr "nanos", VInt 1500000000); (VStr "secs", VInt 60)]); (VStr "new", VSeq [VNull]); (VStr "id", VSeq [VStr "w"; VStr "j"; VInt 3]); (VStr "run", VStr "ls");
        (VStr "continue_on_error", VBool false); (VStr "environments", VMap [(VStr "A", VInt 1); (VStr "B", VBool true); (VStr "A", VStr "x")]); (VStr "secrets", VSeq [VStr "S"])].
Definition tidy : command := Command (StepId "w" "j" 3) None None "ls" false [("A", EnvString "x"); ("B", EnvBool true)] ["S"] (Duration 61 500000000).
Example C124_sloppy : fits' (schema_of KCommand) sloppy (put_command tidy).
Proof. apply C124_document. exists (MCommand tidy). split; reflexivity. Qed.
(** The same by the schema alone. *)
Example C124_sloppy_id : fits' StepIdS (VSeq [VStr "w"; VStr "j"; VInt 3]) (VSeq [VStr "w"; VStr "j"; VInt 3]).
Proof. repeat constructor; lia. Qed.
(** A field given twice, a number out of range, a missing field, an unknown state, a foreign key in a duration: rejected. *)
Example C124_rejects :
  (forall c, ~ fits' (schema_of KResponse) (VMap [(VStr "Log", VMap [(VStr "step_id", VSeq [VStr "w"; VStr "j"; VInt 3]); (VStr "step_id", VSeq [VStr "w"; VStr "j"; VInt 3]); (VStr "log", VSeq [VStr "log"; VStr "hi"])])]) c) /\
  (forall c, ~ fits' StepIdS (VSeq [VStr "w"; VStr "j"; VInt (-1)]) c) /\ (forall c, ~ fits' LogS (VMap [(VStr "log_type", VStr "log")]) c) /\ (forall c, ~ fits' State (VStr "done") c) /\
  (forall c, ~ fits' Span (VMap [(VStr "secs", VInt 1); (VStr "nanos", VInt 0); (VStr "days", VInt 2)]) c).
Proof.
  repeat split; intros c H.
  - apply C124_document in H as (m & E & _). discriminate.
  - apply ok_step_id in H as (m & E & _). discriminate.
  - apply ok_log in H as (m & E & _). discriminate.
  - apply ok_state in H as (m & E & _). discriminate.
  - apply ok_duration in H as (m & E & _). discriminate.
Qed.
