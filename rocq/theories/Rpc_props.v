(** C122: calls of the remote runner's methods. *)
From Verif Require Import Base Types Ids_model Ids_spec Plugins_model Exec_model Sched_model Config_model Serde_model Serde_spec Serde_proof Json_model Json_spec Paths_proof Ids_proof Json_proof Json_msg Json_props
  Rpc_model Rpc_spec.
From Verif Require Text_model.

Section P.
Variable show_f64 : spec_float -> string.
Variable read_f64_text : string -> option spec_float.
Variable rf : spec_float -> spec_float.
Variable show_time : time -> string.
Variable read_time_text : string -> option time.
Variable put_payload : payload -> value.
Variable read_payload : value -> option payload.
Variable limit : nat.
Hypothesis OK : parts_ok show_f64 read_f64_text rf show_time read_time_text put_payload read_payload.
Notation send := (send show_f64 show_time put_payload).
Notation take := (take read_f64_text read_time_text read_payload limit).
Notation intact := (intact send limit).

Lemma empty_text k : json_decode read_f64_text read_time_text read_payload k "" = None.
Proof. reflexivity. Qed.
Lemma take_send m k : valid_message m -> kind_of m = k -> (intact m /\ take k (send m) = Some (with_numbers rf m)) \/ (~ intact m /\ take k (send m) = None).
Proof.
  intros V <-. destruct (C75_encode_decode _ _ _ _ _ _ _ m OK V) as [F NF]. unfold Rpc_model.take, Rpc_spec.intact.
  destruct (Nat.ltb limit (String.length (send m))) eqn:L.
  { right. apply Nat.ltb_lt in L. split; [intros [_ H]; lia|reflexivity]. }
  apply Nat.ltb_ge in L.
  assert (T : match send m with "" => None | _ => json_decode read_f64_text read_time_text read_payload (kind_of m) (send m) end = json_decode read_f64_text read_time_text read_payload (kind_of m) (send m)).
  { destruct (send m); [symmetry; apply empty_text|reflexivity]. }
  rewrite T. destruct (forallb is_finite (numbers m)) eqn:E.
  - left. rewrite forallb_forall in E. assert (A : Forall finite_number (numbers m)) by (apply Forall_forall; intros f Hf; apply is_finite_spec, E, Hf). split; [split; [exact A|exact L]|exact (F A)].
  - right. assert (A : Exists (fun f => ~ finite_number f) (numbers m)).
    { clear -E. induction (numbers m) as [|f l IH]; [discriminate E|]. cbn [forallb] in E. destruct (is_finite f) eqn:Ef; [right; apply IH, E|left; rewrite <- is_finite_spec, Ef; discriminate]. }
    split; [|exact (NF A)]. intros [B _]. rewrite Forall_forall in B. apply Exists_exists in A as (f & Hf & A). exact (A (B _ Hf)).
Qed.

Lemma unary_answer m (handler : message -> option message) (y : message) : (forall z, handler y = Some z -> valid_message z /\ kind_of z = response_kind m) ->
  carried send rf limit (handler y) (match (match handler y with Some z => WOne (send z) | None => WError end) with
    | WOne b => match take (response_kind m) b with Some y => One y | None => Failed_ end
    | WStream l => let '(items, e) := receive read_f64_text read_time_text read_payload limit (response_kind m) l in Stream items e
    | WUnimplemented | WError => Failed_ end).
Proof.
  intros H. destruct (handler y) as [z|]; [|constructor]. destruct (H z eq_refl) as [V K]. destruct (take_send z _ V K) as [[I ->]|[I ->]]; constructor; exact I.
Qed.
Lemma stream_answer : forall l, (forall y, In (Some y) l -> valid_message y /\ kind_of y = KResponse) ->
  carried_items send rf limit l (fst (receive read_f64_text read_time_text read_payload limit KResponse (map (option_map send) l)))
    (snd (receive read_f64_text read_time_text read_payload limit KResponse (map (option_map send) l))).
Proof.
  induction l as [|[y|] l IH]; intros H; cbn [map option_map receive]; [constructor| |constructor].
  destruct (H y (or_introl eq_refl)) as [V K]. destruct (take_send y _ V K) as [[I ->]|[I ->]]; [|constructor; exact I].
  specialize (IH (fun z Hz => H z (or_intror Hz))). destruct (receive _ _ _ _ _ _) as [l' e]. cbn [fst snd] in *. constructor; assumption.
Qed.

(** A call runs exactly the method called, with the message given (its numbers as their texts read), and gives back what that method answers; or, if the message cannot be
    carried, nothing runs and the call fails. *)
Lemma call_spec srv m x : well_typed srv -> valid_message x -> request_of m x ->
  let out := client_call show_f64 read_f64_text show_time read_time_text put_payload read_payload limit srv m x in
  (intact x /\ fst out = [(m, with_numbers rf x)] /\ answered send rf limit srv m (with_numbers rf x) (snd out)) \/
  (~ intact x /\ fst out = [] /\ snd out = Failed_).
Proof.
  intros T V Q out. subst out. unfold client_call.
  assert (K : kind_of x = request_kind m) by (destruct m; cbn in Q; [|destruct Q as (? & Q)..]; subst x; reflexivity).
  destruct (take_send x _ V K) as [[I E]|[I E]]; [left|right]; (split; [exact I|]).
  - set (y := with_numbers rf x) in *. destruct (T y (MEmpty)) as [_ _]. destruct m; unfold serve; cbn [client_path]; 
      repeat (match goal with |- context [eqb ?a ?b] => let v := eval vm_compute in (eqb a b) in change (eqb a b) with v end); cbv iota; unfold unary; cbn [request_kind] in *; rewrite E.
    + split; [reflexivity|]. cbn [answered snd]. apply (unary_answer GetRunnerMetadata). intros z Hz. apply (T y z), Hz.
    + split; [destruct (sv_run srv y) as [l|]; [destruct (receive _ _ _ _ _ _)|]; reflexivity|]. cbn [answered]. destruct (sv_run srv y) as [l|] eqn:El; [|constructor].
      cbn [response_kind]. assert (S := stream_answer l (fun z Hz => proj1 (proj2 (T y z)) l El Hz)). destruct (receive _ _ _ _ _ _) as [l' e]. cbn [fst snd] in *. constructor. exact S.
    + split; [reflexivity|]. cbn [answered snd]. apply (unary_answer SendEvent). intros z Hz. apply (T y z), Hz.
    + split; [reflexivity|]. cbn [answered snd]. apply (unary_answer CallBeforeRunStepHook). intros z Hz. apply (T y z), Hz.
  - destruct m; unfold serve; cbn [client_path];
      repeat (match goal with |- context [eqb ?a ?b] => let v := eval vm_compute in (eqb a b) in change (eqb a b) with v end); cbv iota; unfold unary; cbn [request_kind] in *; rewrite E; split; reflexivity.
Qed.
End P.

Theorem C122_call : forall show_f64 read_f64_text rf show_time read_time_text put_payload read_payload limit srv m x,
  parts_ok show_f64 read_f64_text rf show_time read_time_text put_payload read_payload -> well_typed srv -> valid_message x -> request_of m x ->
  let text := json_encode show_f64 show_time put_payload in
  let out := client_call show_f64 read_f64_text show_time read_time_text put_payload read_payload limit srv m x in
  (intact text limit x /\ fst out = [(m, with_numbers rf x)] /\ answered text rf limit srv m (with_numbers rf x) (snd out)) \/
  (~ intact text limit x /\ fst out = [] /\ snd out = Failed_).
Proof. intros sf rt rf st rtt pp rp limit srv m x OK T V Q. exact (call_spec sf rt rf st rtt pp rp limit OK srv m x T V Q). Qed.
Print Assumptions C122_call.

(** A request for any other path runs nothing and is answered "unimplemented"; and whatever the body, at most the method named by the path runs. *)
Theorem C122_paths : forall read_f64_text show_f64 show_time read_time_text put_payload read_payload limit srv path body,
  let out := serve show_f64 read_f64_text show_time read_time_text put_payload read_payload limit srv path body in
  ((forall m, path <> client_path m) -> out = ([], WUnimplemented)) /\
  (forall m x, In (m, x) (fst out) -> path = client_path m /\ fst out = [(m, x)] /\ String.length body <= limit) /\
  (forall m m', client_path m = client_path m' -> m = m').
Proof.
  intros rt sf st rtt pp rp limit srv path body out. subst out. split; [|split].
  - intros H. unfold serve.
    destruct (eqb path "/remote_runner.RemoteRunner/GetRunnerMetadata") eqn:E1; [apply (proj1 (eqb_true _ _)) in E1; destruct (H GetRunnerMetadata E1)|].
    destruct (eqb path "/remote_runner.RemoteRunner/Run") eqn:E2; [apply (proj1 (eqb_true _ _)) in E2; destruct (H Run E2)|].
    destruct (eqb path "/remote_runner.RemoteRunner/SendEvent") eqn:E3; [apply (proj1 (eqb_true _ _)) in E3; destruct (H SendEvent E3)|].
    destruct (eqb path "/remote_runner.RemoteRunner/CallBeforeRunStepHook") eqn:E4; [apply (proj1 (eqb_true _ _)) in E4; destruct (H CallBeforeRunStepHook E4)|]. reflexivity.
  - assert (U : forall k hnd m x, In (m, x) (fst (unary sf rt st rtt pp rp limit k hnd body)) -> m = k /\ fst (unary sf rt st rtt pp rp limit k hnd body) = [(m, x)] /\ String.length body <= limit).
    { intros k hnd m x. unfold unary. destruct (take rt rtt rp limit (request_kind k) body) eqn:Et; [|intros []]. cbn [fst]. intros [X|[]]. injection X as <- <-. split; [reflexivity|]. split; [reflexivity|].
      unfold take in Et. destruct (Nat.ltb limit (String.length body)) eqn:L; [discriminate Et|]. apply Nat.ltb_ge in L. exact L. }
    intros m x. unfold serve.
    destruct (eqb path "/remote_runner.RemoteRunner/GetRunnerMetadata") eqn:E1; [apply (proj1 (eqb_true _ _)) in E1; intros H; apply U in H as (-> & H); auto|].
    destruct (eqb path "/remote_runner.RemoteRunner/Run") eqn:E2.
    { apply (proj1 (eqb_true _ _)) in E2. destruct (take rt rtt rp limit KContext body) eqn:Et; [|intros []]. cbn [fst]. intros [X|[]]. injection X as <- <-. split; [exact E2|]. split; [reflexivity|].
      unfold take in Et. destruct (Nat.ltb limit (String.length body)) eqn:L; [discriminate Et|]. apply Nat.ltb_ge in L. exact L. }
    destruct (eqb path "/remote_runner.RemoteRunner/SendEvent") eqn:E3; [apply (proj1 (eqb_true _ _)) in E3; intros H; apply U in H as (-> & H); auto|].
    destruct (eqb path "/remote_runner.RemoteRunner/CallBeforeRunStepHook") eqn:E4; [apply (proj1 (eqb_true _ _)) in E4; intros H; apply U in H as (-> & H); auto|]. intros [].
  - intros m m'. destruct m, m'; intros E; try reflexivity; discriminate E.
Qed.
Print Assumptions C122_paths.

(** ** A case: a server whose hook adds a variable; the call with an ordinary command runs it and brings the new command back, the call with a NaN variable runs nothing. *)
Definition c122_cmd env : command := Command (StepId "w" "j" 0) None None "ls" false env [] (Duration 60 0).
Definition c122_srv : service := Service (fun _ => None) (fun _ => Some [Some (MResponse (RrResult (StepId "w" "j" 0) (RFailed 3))); None])
  (fun _ => Some MEmpty) (fun m => match m with MCommand c => Some (MCommand (c122_cmd [("A", EnvBool true)])) | _ => None end).
Definition c122_out := client_call float_text_of float_of_text show_usize some_read_time some_put_payload some_read_payload 4096 c122_srv.
Example C122_case : c122_out CallBeforeRunStepHook (MCommand (c122_cmd [])) =
    ([(CallBeforeRunStepHook, MCommand (c122_cmd []))], One (MCommand (c122_cmd [("A", EnvBool true)]))) /\
  c122_out CallBeforeRunStepHook (MCommand nan_command) = ([], Failed_).
Proof. unfold c122_out. split; vm_compute; reflexivity. Qed.
Lemma c122_cmd_valid env : NoDup (map fst env) -> forallb Text_model.utf8_ok (texts (MCommand (c122_cmd env))) = true -> valid_message (MCommand (c122_cmd env)).
Proof. intros H T. split; [split; [vm_compute; reflexivity|]; split; [exact H|split; vm_compute; reflexivity]|]. apply lit_texts. exact T. Qed.
Example C122_case_hypotheses : well_typed c122_srv /\ valid_message (MCommand (c122_cmd [])) /\ request_of CallBeforeRunStepHook (MCommand (c122_cmd [])).
Proof.
  split; [|split; [apply c122_cmd_valid; [constructor|reflexivity]|eexists; reflexivity]].
  intros x y. split; [discriminate|]. split.
  { intros l H. injection H as <-. intros [H|[H|[]]]; [injection H as <-|discriminate H]. split; [|reflexivity]. split; [|apply lit_texts; reflexivity]. repeat split; try (vm_compute; reflexivity); vm_compute; intros H; discriminate H. }
  split; [intros H; injection H as <-; split; [split; [exact Logic.I|constructor]|reflexivity]|]. cbn [sv_call_before_run_step_hook c122_srv]. destruct x; try discriminate. intros H. injection H as <-.
  split; [|reflexivity]. apply c122_cmd_valid; [constructor; [intros []|constructor]|reflexivity].
Qed.
