(** Model of the generated gRPC stubs (crates/protocol/src/proto/remote_runner.RemoteRunner.rs) with the JSON codec (crates/protocol/src/common/json_codec.rs):
    from a method called on the client to the method run on the server and back. HTTP/2 is a channel that carries path and body; a call may also be lost
    on the way, which is in Remote_model. Statuses are not told apart, except "unimplemented". *)
From Verif Require Import Base Types Plugins_model Serde_model Json_model.

(** The service: crates/protocol/build.rs:3-19. *)
Inductive method := GetRunnerMetadata | Run | SendEvent | CallBeforeRunStepHook.
(** RemoteRunner.rs:86-88, 113-115, 134-136, 158-160: the type each method sends. *)
Definition request_kind (m : method) : kind :=
  match m with GetRunnerMetadata => KEmpty | Run => KContext | SendEvent => KEvent | CallBeforeRunStepHook => KCommand end.
(** RemoteRunner.rs:89-92, 116-119, 137, 161: and the type it gives back ([Run]: a stream of them). *)
Definition response_kind (m : method) : kind :=
  match m with GetRunnerMetadata => KMetadata | Run => KResponse | SendEvent => KEmpty | CallBeforeRunStepHook => KCommand end.
(** RemoteRunner.rs:103-105, 130-132, 148-150, 172-174 *)
Definition client_path (m : method) : string :=
  match m with
  | GetRunnerMetadata => "/remote_runner.RemoteRunner/GetRunnerMetadata"
  | Run => "/remote_runner.RemoteRunner/Run"
  | SendEvent => "/remote_runner.RemoteRunner/SendEvent"
  | CallBeforeRunStepHook => "/remote_runner.RemoteRunner/CallBeforeRunStepHook"
  end.

(** RemoteRunner.rs:194-221 trait RemoteRunner: what the server does. [None]: it answers with an error status. A stream's items may be error statuses too. *)
Record service := Service {
  sv_get_runner_metadata : message -> option message;
  sv_run : message -> option (list (option message));
  sv_send_event : message -> option message;
  sv_call_before_run_step_hook : message -> option message }.

(** What comes back over the wire. *)
Inductive wire_reply := WUnimplemented | WError | WOne (body : string) | WStream (items : list (option string)).
(** What the client's method returns. A stream ends at its first error. *)
Inductive reply := Failed_ | One (m : message) | Stream (items : list message) (broken : bool).

Section Rpc.
Variable show_f64 : spec_float -> string.
Variable read_f64_text : string -> option spec_float.
Variable show_time : time -> string.
Variable read_time_text : string -> option time.
Variable put_payload : payload -> value.
Variable read_payload : value -> option payload.
(** tonic's limit for a received message, 4 MB unless set (RemoteRunner.rs:71-79, 261-268; nothing in /repo sets it). *)
Variable limit : nat.

(** json_codec.rs:15-17 *)
Definition send (m : message) : string := json_encode show_f64 show_time put_payload m.
(** json_codec.rs:26-34, after tonic's length check; an empty body is no message, which a unary call reports as an error. *)
Definition take (k : kind) (body : string) : option message :=
  if Nat.ltb limit (String.length body) then None
  else match body with "" => None | _ => json_decode read_f64_text read_time_text read_payload k body end.

Definition unary (m : method) (handler : message -> option message) (body : string) : list (method * message) * wire_reply :=
  match take (request_kind m) body with
  | None => ([], WError)
  | Some x => ([(m, x)], match handler x with Some y => WOne (send y) | None => WError end)
  end.
(** RemoteRunner.rs:300-494 [call]: which method of the service runs, with what, and the answer. *)
Definition serve (srv : service) (path body : string) : list (method * message) * wire_reply :=
  if eqb path "/remote_runner.RemoteRunner/GetRunnerMetadata" then unary GetRunnerMetadata (sv_get_runner_metadata srv) body
  else if eqb path "/remote_runner.RemoteRunner/Run" then
    match take KContext body with
    | None => ([], WError)
    | Some x => ([(Run, x)], match sv_run srv x with Some l => WStream (map (option_map send) l) | None => WError end)
    end
  else if eqb path "/remote_runner.RemoteRunner/SendEvent" then unary SendEvent (sv_send_event srv) body
  else if eqb path "/remote_runner.RemoteRunner/CallBeforeRunStepHook" then unary CallBeforeRunStepHook (sv_call_before_run_step_hook srv) body
  else ([], WUnimplemented).

(** The client's side of a stream. *)
Fixpoint receive (k : kind) (items : list (option string)) : list message * bool :=
  match items with
  | [] => ([], false)
  | None :: _ => ([], true)
  | Some b :: items' => match take k b with
                        | None => ([], true)
                        | Some m => let '(l, e) := receive k items' in (m :: l, e)
                        end
  end.
(** RemoteRunner.rs:86-187 *)
Definition client_call (srv : service) (m : method) (x : message) : list (method * message) * reply :=
  let '(ran, w) := serve srv (client_path m) (send x) in
  (ran, match w with
        | WOne b => match take (response_kind m) b with Some y => One y | None => Failed_ end
        | WStream l => let '(items, e) := receive (response_kind m) l in Stream items e
        | WUnimplemented | WError => Failed_
        end).
End Rpc.
