(** Properties C08-C11 (log streams). *)
From Verif Require Import Base Types Signals_model Stream_model Stream_spec Stream_proof.

(** C08 *)
Theorem C08_prefix : forall ops, exists rest, sent ops = got ops ++ rest.
Proof. exact got_prefix. Qed.
Print Assumptions C08_prefix.

(** C08/C11: what a poll returns, exactly. *)
Theorem C08_C11_poll : forall ops t,
  (forall l, stream_output ops (SPoll t) = SOPolled (PItem l) <->
     exists rest, sent ops = got ops ++ l :: rest) /\
  (stream_output ops (SPoll t) = SOPolled PEnd <-> got ops = sent ops /\ ended ops) /\
  (stream_output ops (SPoll t) = SOPolled PPending <-> got ops = sent ops /\ ~ ended ops).
Proof. exact poll_outcome. Qed.
Print Assumptions C08_C11_poll.

Example C08_nonvacuous :
  let ops := [SLog "a"; SPoll 1; SError "b"; SLog "c"; SEndCheck 7 RSucceeded; SPoll 1] in
  sent ops = [Log LLog "a"; Log LError "b"; Log LLog "c"] /\ got ops = [Log LLog "a"; Log LError "b"] /\
  stream_output ops (SPoll 1) = SOPolled (PItem (Log LLog "c")).
Proof. repeat split. Qed.

(** C09: when end calls do not overlap, the first one wins and the result never changes. *)
Theorem C09_first_end_wins_partial : forall ops rs, atomic_ends ops rs ->
  stream_output ops SResult = SOResult (hd_error rs).
Proof. intros ops rs H. unfold stream_output; cbn. f_equal. apply (atomic_ends_inv _ _ H). Qed.
Print Assumptions C09_first_end_wins_partial.

(** When they overlap, the check and the write are separate lock sections and a later end call overwrites. *)
Theorem C09_concurrent_refuted : exists ops o r r', r <> r' /\
  stream_output ops SResult = SOResult (Some r) /\
  stream_output (ops ++ [o]) SResult = SOResult (Some r').
Proof.
  exists [SEndCheck 1 RSucceeded; SEndCheck 2 RCancelled; SEndCommit 1], (SEndCommit 2), RSucceeded, RCancelled.
  repeat split. discriminate.
Qed.
Print Assumptions C09_concurrent_refuted.

(** In every interleaving the result is one some end call asked for, and that call started
    before any result was written; and a stream never becomes un-ended. *)
Theorem C09_concurrent_bound : forall ops r, stream_output ops SResult = SOResult (Some r) ->
  exists c pre mid post, ops = pre ++ SEndCheck c r :: mid ++ SEndCommit c :: post /\ ~ ended pre.
Proof. intros ops r H. apply result_from. unfold stream_output in H; cbn in H. congruence. Qed.
Print Assumptions C09_concurrent_bound.

Theorem C09_stays_ended : forall ops o, ended ops -> ended (ops ++ [o]).
Proof. exact ended_mono. Qed.
Print Assumptions C09_stays_ended.

Example C09_nonvacuous :
  atomic_ends (([SLog "x"] ++ [SEndCheck 1 (RFailed 2); SEndCommit 1]) ++ [SEndCheck 2 RSucceeded; SEndCommit 2])
    (([] ++ [RFailed 2]) ++ [RSucceeded]).
Proof.
  apply ae_end, ae_end, (ae_other [] [] (SLog "x")); [apply ae_nil| |]; discriminate.
Qed.

(** C10: the reader never sleeps while a log is unread or a result is set, *)
Theorem C10_asleep_means_nothing_to_read : forall ops t, asleep ops t -> got ops = sent ops /\ ~ ended ops.
Proof. exact asleep_nothing_pending. Qed.
Print Assumptions C10_asleep_means_nothing_to_read.

(** because the next log or effective end wakes it. *)
Theorem C10_woken : forall ops t o,
  asleep ops t ->
  (exists m, o = SLog m \/ o = SError m) \/
  (exists c r, o = SEndCommit c /\ lookup c (ss_enders (stream_after ops)) = Some r) ->
  stream_output ops o = SOWoke (Some t).
Proof. exact asleep_woken. Qed.
Print Assumptions C10_woken.

(** An uninterrupted end call wakes the sleeper. *)
Theorem C10_end_wakes : forall ops t c r, asleep ops t ->
  stream_output (ops ++ [SEndCheck c r]) (SEndCommit c) = SOWoke (Some t).
Proof.
  intros ops t c r Ha. destruct (asleep_end_check ops t c r Ha) as [H1 H2].
  apply asleep_woken; [exact H1|right; eauto].
Qed.
Print Assumptions C10_end_wakes.

Example C10_nonvacuous : asleep [SLog "a"; SPoll 1; SPoll 1] 1.
Proof.
  exists [SLog "a"; SPoll 1], []. repeat split.
  - intros o [].
  - intros [|? ?] o p2 E; discriminate.
Qed.

(** C11: an ended stream is drained by exactly as many polls as there are unread logs, then ends. *)
Theorem C11_drain : forall ops t, ended ops -> forall unread, sent ops = got ops ++ unread ->
  stream_outputs (stream_after ops) (repeat (SPoll t) (S (length unread)))
    = map (fun l => SOPolled (PItem l)) unread ++ [SOPolled PEnd].
Proof. exact drain. Qed.
Print Assumptions C11_drain.

Example C11_nonvacuous :
  let ops := [SLog "a"; SPoll 1; SError "b"; SEndCheck 0 (RFailed 3); SEndCommit 0] in
  ended ops /\ sent ops = got ops ++ [Log LError "b"].
Proof. split; [exists (RFailed 3); reflexivity|reflexivity]. Qed.
