(** Properties C04-C07 (signals) and C64 (text forms). *)
From Verif Require Import Base Types Ids_model Signals_model Signals_spec Signals_proof.

(** C04: the first cancel()/timeout() succeeds, later ones fail and change nothing. *)
Theorem C04_raise : forall ops o s, raises o = Some s ->
  (never_raised ops -> exists w, sig_output ops o = ORaise (Ok tt) w) /\
  (~ never_raised ops ->
     sig_output ops o = ORaise (Err (OtherError "Signal has been cancelled or timeout.")) None /\ sig_after (ops ++ [o]) = sig_after ops).
Proof. exact raise_output. Qed.
Print Assumptions C04_raise.

Theorem C04_is_cancelled : forall ops b,
  sig_output ops OIsCancelled = OBool b <-> (b = true <-> first_raised ops SigCancel).
Proof. exact is_cancelled_output. Qed.
Print Assumptions C04_is_cancelled.

Theorem C04_is_timeout : forall ops b,
  sig_output ops OIsTimeout = OBool b <-> (b = true <-> first_raised ops SigTimeout).
Proof. exact is_timeout_output. Qed.
Print Assumptions C04_is_timeout.

Theorem C04_never_both : forall ops s s', first_raised ops s -> first_raised ops s' -> s = s'.
Proof. exact first_raised_fun. Qed.
Print Assumptions C04_never_both.

Example C04_nonvacuous :
  first_raised [OPoll 1; OTimeout; OCancel; OPoll 2] SigTimeout /\
  sig_output [OPoll 1; OTimeout; OCancel; OPoll 2] OIsTimeout = OBool true /\
  sig_output [OPoll 1; OTimeout] OCancel = ORaise (Err (OtherError "Signal has been cancelled or timeout.")) None.
Proof.
  split; [|split; reflexivity].
  exists [OPoll 1], OTimeout, [OCancel; OPoll 2]. repeat split.
  intros o [<-|[]] H; apply H; reflexivity.
Qed.

(** C05: a poll yields [s] iff [s] was raised first and nobody has polled since. *)
Theorem C05_delivery : forall ops t r, sig_output ops (OPoll t) = OPolled r <->
  (forall s, r = Some s <-> undelivered ops s).
Proof. exact poll_output. Qed.
Print Assumptions C05_delivery.

Example C05_nonvacuous :
  sig_output [OPoll 1; OCancel; OIsTimeout] (OPoll 2) = OPolled (Some SigCancel) /\
  sig_output [OPoll 1; OCancel; OIsTimeout; OPoll 2] (OPoll 1) = OPolled None.
Proof. split; reflexivity. Qed.

(** C06: the effective raise wakes exactly the task that polled last. *)
Theorem C06_wakes_last_poller_partial : forall ops o s r w, raises o = Some s -> sig_output ops o = ORaise r w ->
  forall t, w = Some t <-> never_raised ops /\ last_poller ops t.
Proof. exact raise_wakes. Qed.
Print Assumptions C06_wakes_last_poller_partial.

(** The full expectation "every waiting task is woken" fails with two waiting tasks. *)
Theorem C06_all_waiters_refuted : exists ops t w,
  In (OPoll t) ops /\ never_raised ops /\
  sig_output ops OCancel = ORaise (Ok tt) w /\ w <> Some t.
Proof.
  exists [OPoll 1; OPoll 2], 1, (Some 2). repeat split; try (cbn; auto; fail); try discriminate.
  intros o [<-|[<-|[]]] H; apply H; reflexivity.
Qed.
Print Assumptions C06_all_waiters_refuted.

Example C06_nonvacuous :
  last_poller [OPoll 1; OIsCancelled; OPoll 3; OIsTimeout] 3 /\
  sig_output [OPoll 1; OIsCancelled; OPoll 3; OIsTimeout] OCancel = ORaise (Ok tt) (Some 3).
Proof.
  split; [|reflexivity]. exists [OPoll 1; OIsCancelled], [OIsTimeout]. split; [reflexivity|].
  intros p [<-|[]] [t Ht]; discriminate.
Qed.

(** C07 *)
Theorem C07_unknown_job : forall c j ops,
  (forall a, ~ registered ops j a) -> cancel_job c j ops = (Err (OtherError ("Job " +++ show_job_id j +++ " not found")), sm_after ops).
Proof. exact cancel_job_not_found. Qed.
Print Assumptions C07_unknown_job.

Theorem C07_registered_job : forall c j ops a, registered ops j a ->
  (signal_at (sm_after ops) a = None ->
     fst (cancel_job c j ops) = Ok tt /\
     signal_at (snd (cancel_job c j ops)) a = Some SigCancel) /\
  (forall s, signal_at (sm_after ops) a = Some s ->
     fst (cancel_job c j ops) = Err (OtherError "Signal has been cancelled or timeout.") /\
     signal_at (snd (cancel_job c j ops)) a = Some s) /\
  (forall a', a' <> a ->
     nth_error (sm_heap (snd (cancel_job c j ops))) a' = nth_error (sm_heap (sm_after ops)) a') /\
  sm_reg (snd (cancel_job c j ops)) = sm_reg (sm_after ops).
Proof. exact cancel_job_found. Qed.
Print Assumptions C07_registered_job.

(** Under every interleaving: a job's signal changes only by a raise on that very object or by the
    second half of a cancel_job whose first half found that object registered for its job. *)
Theorem C07_only_its_own_signal : forall ops o a,
  signal_at (sm_after (ops ++ [o])) a <> signal_at (sm_after ops) a ->
  (exists so s, o = MSignal a so /\ raises so = Some s) \/
  (exists c pre post j, o = MCancelFire c /\ ops = pre ++ MCancelGet c j :: post /\ registered pre j a).
Proof.
  intros ops o a H. destruct (signal_at_frame ops o a H) as [L|(c & -> & Hc)]; [left; exact L|right].
  destruct (pending_cancel _ _ _ Hc) as (pre & post & j & E & Hr). exists c, pre, post, j; auto.
Qed.
Print Assumptions C07_only_its_own_signal.

Theorem C07_registered_unique : forall ops j a a', registered ops j a -> registered ops j a' -> a = a'.
Proof. exact registered_fun. Qed.
Print Assumptions C07_registered_unique.

Example C07_nonvacuous :
  let j1 := JobId "w" "a" in let j2 := JobId "w" "b" in
  let ops := [MRegister j1; MRegister j2; MUnregister j1] in
  registered ops j2 1 /\ (forall a, ~ registered ops j1 a) /\
  fst (cancel_job 0 j2 ops) = Ok tt /\
  fst (cancel_job 0 j1 ops) = Err (OtherError "Job w/a not found").
Proof.
  cbn zeta. split; [|split; [|split; reflexivity]].
  - apply sm_reg_spec; reflexivity.
  - intros a H. apply sm_reg_spec in H. discriminate.
Qed.

(** C64: text forms of signals and log types. *)
Theorem C64_signal_text : forall t s, signal_of_string t = Some s <-> t = show_signal s.
Proof. exact signal_of_string_spec. Qed.
Print Assumptions C64_signal_text.

(** The texts themselves. *)
Theorem C64_texts : show_signal SigCancel = "cancel" /\ show_signal SigTimeout = "timeout" /\ show_log_type LLog = "log" /\ show_log_type LError = "error" /\
  (forall t, signal_of_string t = Some SigCancel <-> t = "cancel") /\ (forall t, signal_of_string t = Some SigTimeout <-> t = "timeout") /\
  (forall t, signal_of_string t = None <-> t <> "cancel" /\ t <> "timeout").
Proof.
  repeat (split; [reflexivity|]). split; [intros t; apply (C64_signal_text t SigCancel)|]. split; [intros t; apply (C64_signal_text t SigTimeout)|].
  intros t. assert (C := C64_signal_text t SigCancel). assert (T := C64_signal_text t SigTimeout). destruct (signal_of_string t) as [[]|] eqn:E.
  - split; [discriminate|]. intros [H _]. exfalso. apply H, C. reflexivity.
  - split; [discriminate|]. intros [_ H]. exfalso. apply H, T. reflexivity.
  - split; [intros _|reflexivity]. split; intros ->; [discriminate (proj2 C eq_refl)|discriminate (proj2 T eq_refl)].
Qed.
Print Assumptions C64_texts.

Theorem C64_log_type_text : forall t, log_type_of_string (show_log_type t) = t.
Proof. exact log_type_text_roundtrip. Qed.
Print Assumptions C64_log_type_text.

Theorem C64_log_type_parse : forall s, log_type_of_string s = LError <-> s = "error".
Proof. exact log_type_of_string_spec. Qed.
Print Assumptions C64_log_type_parse.
