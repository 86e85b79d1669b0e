(** Theorems about remote execution: C54 to C61, C72. *)
From Verif Require Import Base Types Signals_model Stream_model Stream_spec Plugins_model Plugins_spec Plugins_proof Exec_model Runner_model Runner_spec Sched_model Sched_spec Sched_proof Sched_props Remote_model Remote_spec Remote_proof.

(** C54. If nothing fails, the step's stream at the client holds, when the client is done, exactly the runner's logs and its result... *)
Theorem C54_transparent : forall ins st, remote_run ins st -> clean ins -> r_client st = RDone ->
  ss_logs (stream_of (r_effs st)) = yielded ins /\ exists r, In (RiResult r) ins /\ ss_result (stream_of (r_effs st)) = Some r.
Proof.
  intros ins st R C D. destruct (rinv_run _ _ R) as [del I]. destruct (server_inv _ _ R) as [S1 S2]. destruct (S2 C D) as [W Sv]. rewrite Sv in S1.
  destruct S1 as [(r & S1 & Hr)|[_ S1]]; [|exfalso; specialize (C _ S1); discriminate C].
  assert (Ed : del = map RspLog (yielded ins) ++ [RspResult r]) by (rewrite <- S1, (ri_sent _ _ _ I), W, app_nil_r; reflexivity).
  rewrite stream_of_eq. cbn [ss_logs ss_result]. rewrite (ri_logged _ _ _ I), (ri_end _ _ _ I), Ed, result_of_map, logs_of_app, logs_of_map. cbn. rewrite app_nil_r. split; [|eauto].
  assert (L : line_after ins (Some r) = []).
  { unfold line_after. destruct (find ends_client ins) as [i|] eqn:F; [|reflexivity]. apply find_some in F as [F1 F2]. specialize (C _ F1). destruct i as [[]| | | | | | |s []]; try discriminate C; reflexivity. }
  rewrite L. apply app_nil_r.
Qed.
(** ... and at any earlier moment, with or without faults, as long as the client is not done, the first of the runner's logs, in order; no result that the runner did not give. *)
Theorem C54_prefix : forall ins st, remote_run ins st -> r_client st <> RDone ->
  prefix_of (ss_logs (stream_of (r_effs st))) (yielded ins) /\ (forall r, ss_result (stream_of (r_effs st)) = Some r -> In (RiResult r) ins).
Proof.
  intros ins st R D. destruct (rinv_run _ _ R) as [del I]. destruct (server_inv _ _ R) as [S1 _]. assert (N := not_done _ _ _ I D). destruct N as [N _].
  rewrite stream_of_eq. cbn [ss_logs ss_result]. rewrite (ri_logged _ _ _ I), (ri_end _ _ _ I), N, app_nil_r.
  assert (Y : logs_of (server_sent ins) = yielded ins).
  { unfold logs_of, server_sent, yielded. clear. induction ins as [|i ins IH]; [reflexivity|]. cbn. rewrite flat_map_app, IH. destruct i; reflexivity. }
  split.
  - exists (logs_of (r_wire st)). rewrite <- logs_of_app, <- (ri_sent _ _ _ I). symmetry. exact Y.
  - intros r H. assert (H' : result_of del = Some r) by (destruct (result_of del); [exact H|destruct (r_client st); try discriminate; contradiction]).
    assert (HI : In (RspResult r) (server_sent ins)).
    { rewrite (ri_sent _ _ _ I). apply in_or_app. left. clear -H'. induction del as [|[l|r'] del IH]; cbn in *; [discriminate|auto|left; congruence]. }
    unfold server_sent in HI. apply in_flat_map in HI as (i & Hi & Hr). destruct i; try contradiction; destruct Hr as [Hr|[]]; try discriminate. injection Hr as ->. exact Hi.
Qed.
(** The client's part does come to an end: when the server's runner has finished, delivering what is under way and the end of the stream finishes it. *)
Theorem C54_finishes : forall ins st, remote_run ins st -> r_client st = RLoop -> r_server st = SvDone ->
  exists st', remote_run (ins ++ repeat RiDeliver (length (r_wire st)) ++ [RiClosed]) st' /\ r_client st' = RDone.
Proof.
  intros ins st R. remember (r_wire st) as w eqn:Hw. revert ins st R Hw. induction w as [|m w IH]; intros ins st R Hw Hc Hs; destruct st as [cl sv wire effs sent]; cbn [r_client r_server r_wire] in *; subst.
  - cbn [length repeat app]. eexists. split; [eapply remote_run_step; [exact R|reflexivity]|reflexivity].
  - cbn [length repeat app]. change (RiDeliver :: repeat RiDeliver (length w) ++ [RiClosed]) with ([RiDeliver] ++ (repeat RiDeliver (length w) ++ [RiClosed])). rewrite app_assoc.
    destruct m as [l|r]; eapply IH; try (eapply remote_run_step; [exact R|reflexivity]); reflexivity.
Qed.
Print Assumptions C54_transparent.
Print Assumptions C54_prefix.
Print Assumptions C54_finishes.
Fixpoint rexec (ins : list rinput) (st : remote) : option remote := match ins with [] => Some st | i :: r => match remote_step st i with Some st' => rexec r st' | None => None end end.
Lemma rexec_run : forall ins pre st st', remote_run pre st -> rexec ins st = Some st' -> remote_run (pre ++ ins) st'.
Proof.
  induction ins as [|i ins IH]; intros pre st st' R E; cbn in E; [injection E as <-; rewrite app_nil_r; exact R|].
  destruct (remote_step st i) as [st1|] eqn:Ei; [|discriminate]. change (i :: ins) with ([i] ++ ins). rewrite app_assoc. eapply IH; [|exact E]. econstructor; eassumption.
Qed.
Definition sample_remote : list rinput :=
  [RiAnswer None; RiLog (log_log "a"); RiSignal SigTimeout None; RiLog (log_error "b"); RiDeliver; RiResult (RFailed 123); RiDeliver; RiDeliver; RiClosed].
Example C54_nonvacuous : exists st, remote_run sample_remote st /\ clean sample_remote /\ r_client st = RDone /\
  r_effs st = [SeLog (log_log "a"); SeLog (log_error "b"); SeEnd (RFailed 123)] /\ r_sent st = [SigTimeout].
Proof.
  eexists. split; [apply (rexec_run sample_remote [] remote_init); [constructor|reflexivity]|]. split; [|repeat split].
  intros i H. unfold sample_remote in H. cbn in H. repeat destruct H as [<-|H]; try reflexivity. contradiction.
Qed.

(** C55. Whatever fails and whenever: when the client is done the stream holds the logs that had arrived, in order, followed by at most one line about the failure, and it has
    a result: the one that had arrived or Failed 1. *)
Theorem C55_failures : forall ins st, remote_run ins st -> r_client st = RDone ->
  ss_logs (stream_of (r_effs st)) = logs_of (arrived ins) ++ last_line ins /\
  ss_result (stream_of (r_effs st)) = Some (match result_of (arrived ins) with Some r => r | None => RFailed 1 end).
Proof.
  intros ins st R D. destruct (rinv_run _ _ R) as [del I]. rewrite (rinv_arrived _ _ _ I). rewrite stream_of_eq. cbn [ss_logs ss_result].
  rewrite (ri_logged _ _ _ I), (ri_end _ _ _ I), D. unfold last_line. rewrite (rinv_arrived _ _ _ I). split; [reflexivity|]. destruct (result_of del); reflexivity.
Qed.
(** The calls on the stream sender exactly, at any moment: one for each message that arrived, in order, then, once the client's part has ended, those that tell how. *)
Theorem C55_calls : forall ins st, remote_run ins st -> r_effs st = map item_call (arrived ins) ++ closing_calls ins.
Proof.
  intros ins st R. destruct (rinv_run _ _ R) as [del I]. unfold closing_calls. rewrite (rinv_arrived _ _ _ I). revert del I.
  induction R as [|ins st i st' R IH E]; intros del I.
  - assert (N := ri_del _ _ _ I). destruct del; [reflexivity|discriminate N].
  - destruct (rinv_run _ _ R) as [del0 I0]. specialize (IH _ I0). destruct I as [J1 J2 _ _ _ _].
    assert (P : find ends_client ins = None <-> r_client st <> RDone) by apply (ri_done _ _ _ I0).
    assert (C0 : r_client st = RCall -> del0 = []) by apply (ri_call _ _ _ I0).
    assert (Q1 := ri_sent _ _ _ I0). assert (Q2 := ri_del _ _ _ I0).
    rewrite server_sent_snoc, Q1 in J1. rewrite deliveries_snoc, Q2 in J2. rewrite find_app.
    assert (He : forall l, has_end (map item_call l) = match result_of l with Some _ => true | None => false end).
    { clear. induction l as [|[l0|r] l IH]; [reflexivity|exact IH|reflexivity]. }
    destruct st as [cl sv wire effs sent]. cbn [r_client r_server r_wire r_effs r_sent] in *.
    assert (Eq : (match i with RiDeliver => False | _ => True end) -> del = del0).
    { intros Hi. assert (L : length del = length del0) by (destruct i; try contradiction; lia).
      assert (K : firstn (length del) (del ++ r_wire st') = firstn (length del0) ((del0 ++ wire) ++ match i with RiLog l => [RspLog l] | RiResult r => [RspResult r] | _ => [] end)) by (rewrite J1, L; reflexivity).
      rewrite <- app_assoc in K. rewrite !firstn_app, !Nat.sub_diag, !firstn_all, !firstn_O, !app_nil_r in K. exact K. }
    destruct i as [err|l|r| | | |e|s err]; cbn [remote_step r_client r_server r_wire r_effs r_sent] in E; unfold client_gets in E; cbn [r_client r_effs] in E.
    + destruct cl; try discriminate E. assert (F : find ends_client ins = None) by (apply P; discriminate). rewrite F in IH |- *. rewrite (Eq Logic.I). rewrite (C0 eq_refl) in *.
      destruct err as [e|]; cbn in E; injection E as <-; cbn [r_effs]; rewrite IH; reflexivity.
    + destruct sv; try discriminate E. injection E as <-. cbn [r_effs]. rewrite (Eq Logic.I), IH. cbn [find ends_client]. destruct (find ends_client ins); reflexivity.
    + destruct sv; try discriminate E. injection E as <-. cbn [r_effs]. rewrite (Eq Logic.I), IH. cbn [find ends_client]. destruct (find ends_client ins); reflexivity.
    + destruct sv; try discriminate E. injection E as <-. cbn [r_effs]. rewrite (Eq Logic.I), IH. cbn [find ends_client]. destruct (find ends_client ins); reflexivity.
    + destruct wire as [|m w]; [discriminate E|]. destruct cl; try (destruct m; discriminate E). assert (F : find ends_client ins = None) by (apply P; discriminate). rewrite F in IH |- *.
      assert (D : del = del0 ++ [m]).
      { rewrite app_nil_r in J1.
        assert (W : r_wire st' = w) by (destruct m; cbn [client_step] in E; injection E as <-; reflexivity). rewrite W in J1.
        change (m :: w) with ([m] ++ w) in J1. rewrite app_assoc in J1. apply app_inv_tail in J1. symmetry. exact J1. }
      rewrite D, map_app. cbn [find ends_client map]. rewrite app_nil_r in *. rewrite <- IH.
      destruct m as [l|r]; cbn [client_step] in E; injection E as <-; cbn [r_effs item_call]; rewrite ?log_same; reflexivity.
    + destruct wire; [|discriminate E]. destruct sv; try discriminate E. destruct cl; try discriminate E. assert (F : find ends_client ins = None) by (apply P; discriminate). rewrite F in IH |- *.
      cbn [client_step] in E. injection E as <-. cbn [r_effs find ends_client]. rewrite (Eq Logic.I). rewrite IH, app_nil_r. unfold after_run. rewrite He. destruct (result_of del0); reflexivity.
    + destruct cl; try discriminate E. assert (F : find ends_client ins = None) by (apply P; discriminate). rewrite F in IH |- *.
      cbn [client_step] in E. injection E as <-. cbn [r_effs find ends_client]. rewrite (Eq Logic.I), IH, app_nil_r. reflexivity.
    + destruct cl; try (destruct err; discriminate E). assert (F : find ends_client ins = None) by (apply P; discriminate). rewrite F in IH |- *. rewrite (Eq Logic.I).
      destruct err as [e|]; cbn [client_step] in E; injection E as <-; cbn [r_effs find ends_client]; rewrite IH, ?app_nil_r; [|reflexivity].
      unfold after_run. rewrite He. destruct (result_of del0); reflexivity.
Qed.
Print Assumptions C55_calls.
(** Each fault ends the client's part at once. *)
Theorem C55_faults_end_the_run : forall st, r_client st = RLoop ->
  (forall e, exists st', remote_step st (RiBroken e) = Some st' /\ r_client st' = RDone) /\
  (forall s e, exists st', remote_step st (RiSignal s (Some e)) = Some st' /\ r_client st' = RDone).
Proof. intros [cl sv w effs sent] H. cbn in H. subst. split; intros; eexists; (split; [reflexivity|reflexivity]). Qed.
(** No runner for the step: the stream is ended at once. *)
Theorem C55_no_runner : forall clients, client_start clients None = Some (inl [SeLog (log_error "No runner available"); SeEnd (RFailed 1)]).
Proof. reflexivity. Qed.
Print Assumptions C55_failures.
Print Assumptions C55_faults_end_the_run.
Example C55_nonvacuous : exists st, remote_run [RiAnswer None; RiLog (log_log "a"); RiLog (log_log "b"); RiDeliver; RiResult RSucceeded; RiBroken "reset"] st /\ r_client st = RDone /\
  r_effs st = [SeLog (log_log "a"); SeLog (log_error "Failed to run: reset"); SeEnd (RFailed 1)].
Proof. eexists. split; [apply (rexec_run _ [] remote_init); [constructor|reflexivity]|]. split; reflexivity. Qed.
Example C55_result_arrived : exists st, remote_run [RiAnswer None; RiResult RSucceeded; RiDeliver; RiBroken "reset"] st /\ r_client st = RDone /\
  ss_result (stream_of (r_effs st)) = Some RSucceeded.
Proof. eexists. split; [apply (rexec_run _ [] remote_init); [constructor|reflexivity]|]. split; reflexivity. Qed.

(** C56. The signal of every run call ever made: raised by the first signal message for that step that came before the step was reported completed or run again, else not raised. *)
Theorem C56_signals : forall a id b, nth_error (tb_heap (stable_after (a ++ SmRun id :: b))) (run_calls a) = Some (SigState false (raised_for id b) None).
Proof. exact run_signal. Qed.
Theorem C56_one_signal_per_run : forall h, length (tb_heap (stable_after h)) = run_calls h.
Proof. exact heap_length. Qed.
Print Assumptions C56_signals.
Example C56_nonvacuous :
  let s1 := StepId "w" "j" 1 in let s2 := StepId "w" "j" 2 in
  map sg_signal (tb_heap (stable_after [SmRun s1; SmRun s2; SmSignal s2 SigCancel; SmSignal s2 SigTimeout; SmStepCompleted s1; SmSignal s1 SigCancel; SmRun s1; SmSignal s1 SigTimeout])) =
  [None; Some SigCancel; Some SigTimeout].
Proof. reflexivity. Qed.

(** C57. Each connected runner gets the events emitted since start was called in order, each at most once, and if all sends succeed a prefix of them... *)
Theorem C57_in_order_partial : forall ins f c, fwd_run ins f -> (forall cs, In (FiConnected cs) ins -> NoDup cs) ->
  subsequence (got_by c (f_sent f)) (emitted ins) /\
  (~ In (FiSent false) ins -> In c (f_clients f) -> prefix_of (got_by c (f_sent f)) (emitted ins)).
Proof.
  intros ins f c R N. destruct (finv_run _ _ R) as [hd I]. specialize (I N). destruct f as [p q s cs]. cbn [f_phase f_queue f_sent f_clients] in *. destruct p.
  - destruct I as (_ & _ & _ & -> & ->). split; [constructor|intros _ []].
  - destruct I as (_ & _ & -> & ->). split; [constructor|intros _ []].
  - destruct I as (_ & _ & -> & I4 & I5). split; [apply subseq_more, I4|]. intros A Hc. exists q. rewrite (I5 A c Hc). reflexivity.
  - destruct I as (_ & _ & -> & _ & before & _ & I6 & I7). change (hd ++ e :: q) with (hd ++ [e] ++ q). rewrite app_assoc. split.
    + specialize (I6 c). apply subseq_more. destruct (memb c before); [exact I6|]. rewrite app_nil_r in I6. apply subseq_more, I6.
    + intros A Hc. rewrite (I7 A c Hc). destruct (memb c before); [exists q; reflexivity|]. exists (e :: q). rewrite app_nil_r, <- app_assoc. reflexivity.
  - destruct I as (_ & _ & (tl & -> & _) & I4 & I5). split; [apply subseq_more, I4|]. intros A Hc. exists tl. rewrite (I5 A c Hc). reflexivity.
Qed.
(** ... all of them once the loop has caught up. *)
Theorem C57_caught_up_partial : forall ins f c, fwd_run ins f -> (forall cs, In (FiConnected cs) ins -> NoDup cs) ->
  ~ In (FiSent false) ins -> f_phase f = LLoop -> f_queue f = [] -> In c (f_clients f) -> got_by c (f_sent f) = emitted ins.
Proof.
  intros ins f c R N A P Q Hc. destruct (finv_run _ _ R) as [hd I]. specialize (I N). rewrite P, Q in I. destruct I as (_ & _ & -> & _ & I5). rewrite app_nil_r. apply I5; assumption.
Qed.
(** The loop ends only when it finds itself more than 32 events behind. *)
Theorem C57_stops_only_when_behind_partial : forall ins f, fwd_run ins f -> f_phase f = LEnded ->
  exists a b f1, ins = a ++ FiRecv :: b /\ fwd_run a f1 /\ 32 < length (f_queue f1).
Proof. exact ended_why. Qed.
Lemma fwd_snoc_inv : forall a i f', fwd_run (a ++ [i]) f' -> exists f, fwd_run a f /\ fwd_step f i = Some f'.
Proof.
  intros a i f' R. remember (a ++ [i]) as l eqn:El. destruct R as [|ins f j f' R E]; [destruct a; discriminate|].
  apply app_inj_tail in El as [-> ->]. eauto.
Qed.
Lemma fwd_det : forall a f1, fwd_run a f1 -> forall f2, fwd_run a f2 -> f1 = f2.
Proof.
  induction a as [|i a IH] using rev_ind; intros f1 R1 f2 R2.
  - remember [] as l eqn:El in R1. destruct R1; [|destruct ins; discriminate]. remember [] as l eqn:El2 in R2. destruct R2; [reflexivity|destruct ins; discriminate].
  - apply fwd_snoc_inv in R1 as (g1 & R1 & E1), R2 as (g2 & R2 & E2). rewrite (IH _ R1 _ R2) in E1. congruence.
Qed.
(** Then nothing is forwarded any more, whatever happens. *)
Theorem C57_burst_refuted : forall e, exists ins f, fwd_run ins f /\ ~ In (FiSent false) ins /\ In "r" (f_clients f) /\ emitted ins = repeat e 33 /\ got_by "r" (f_sent f) = [] /\
  forall more f', fwd_run (ins ++ more) f' -> got_by "r" (f_sent f') = [].
Proof.
  intros e. set (ins := FiSubscribe :: FiConnected ["r"] :: repeat (FiEvent e) 33 ++ [FiRecv]). exists ins, (Fwd LEnded [] [] ["r"]).
  assert (X : forall l pre f f', fwd_run pre f -> fold_left (fun o i => match o with Some f => fwd_step f i | None => None end) l (Some f) = Some f' -> fwd_run (pre ++ l) f').
  { induction l as [|i l IH]; intros pre f f' R E; cbn [fold_left] in E; [injection E as <-; rewrite app_nil_r; exact R|]. destruct (fwd_step f i) as [f1|] eqn:Ei.
    - change (i :: l) with ([i] ++ l). rewrite app_assoc. apply (IH _ f1); [econstructor; eassumption|exact E].
    - exfalso. clear -E. induction l as [|x l IHl]; cbn in E; [discriminate|auto]. }
  assert (R : fwd_run ins (Fwd LEnded [] [] ["r"])) by (apply (X ins [] fwd_init); [constructor|reflexivity]).
  split; [exact R|]. split; [intros C; unfold ins in C; cbn in C; intuition discriminate|]. split; [left; reflexivity|]. split; [reflexivity|]. split; [reflexivity|].
  assert (K : forall l f, fwd_run (ins ++ l) f -> f_phase f = LEnded /\ f_sent f = []).
  { induction l as [|i l IH] using rev_ind; intros f Rf.
    - rewrite app_nil_r in Rf. rewrite (fwd_det _ _ Rf _ R). auto.
    - rewrite app_assoc in Rf. apply fwd_snoc_inv in Rf as (g & Rg & E). destruct (IH _ Rg) as [P S]. destruct (ended_stays _ _ _ E P) as [P' S']. rewrite S', S. auto. }
  intros more f' Rf. destruct (K _ _ Rf) as [_ ->]. reflexivity.
Qed.
Print Assumptions C57_in_order_partial.
Print Assumptions C57_caught_up_partial.
Print Assumptions C57_stops_only_when_behind_partial.
Print Assumptions C57_burst_refuted.

(** C73. What does hold of forwarding, in one statement. *)
Theorem C73_forwarding : forall ins f c, fwd_run ins f -> (forall cs, In (FiConnected cs) ins -> NoDup cs) ->
  subsequence (got_by c (f_sent f)) (emitted ins) /\
  (~ In (FiSent false) ins -> In c (f_clients f) -> prefix_of (got_by c (f_sent f)) (emitted ins)) /\
  (~ In (FiSent false) ins -> In c (f_clients f) -> f_phase f = LLoop -> f_queue f = [] -> got_by c (f_sent f) = emitted ins) /\
  (f_phase f = LEnded -> exists a b f1, ins = a ++ FiRecv :: b /\ fwd_run a f1 /\ 32 < length (f_queue f1)).
Proof.
  intros ins f c R N. destruct (C57_in_order_partial ins f c R N) as [H1 H2]. split; [exact H1|]. split; [exact H2|]. split.
  - intros A Hc P Q. exact (C57_caught_up_partial ins f c R N A P Q Hc).
  - intros P. exact (C57_stops_only_when_behind_partial ins f R P).
Qed.
Lemma sending_some : forall ins f, fwd_run ins f -> match f_phase f with LSending _ [] => False | _ => True end.
Proof.
  induction 1 as [|ins f i f' R IH E]; [exact I|]. destruct f as [p q s c0]. unfold fwd_step in E. cbn [f_phase f_queue f_sent f_clients] in *.
  destruct i as [e| |cs| |ok]; destruct p as [| | |e1 [|r1 rs]|]; cbn in IH; try discriminate E; try contradiction; try (injection E as <-; exact I).
  - destruct (Nat.ltb capacity (length q)); [injection E as <-; exact I|]. destruct q; [discriminate|]. injection E as <-. cbn. destruct c0; exact I.
  - injection E as <-. cbn. destruct rs; exact I.
Qed.
(** The loop is never stuck: an event waiting can be taken, a send under way can finish, and the loop is only idle with nothing to send. *)
Theorem C73_progress : forall ins f, fwd_run ins f ->
  match f_phase f with
  | LLoop => f_queue f = [] \/ exists f', fwd_step f FiRecv = Some f'
  | LSending e rest => forall ok, exists f', fwd_step f (FiSent ok) = Some f'
  | _ => True
  end.
Proof.
  intros ins f R. assert (I := sending_some _ _ R).
  destruct f as [[] q s cs]; cbn [f_phase] in *; try exact Logic.I.
  - destruct q as [|e q]; [left; reflexivity|right]. unfold fwd_step. cbn [f_phase f_queue]. destruct (Nat.ltb capacity (length (e :: q))); eauto.
  - destruct rest as [|r rs]; [contradiction|]. intros ok. cbn. eauto.
Qed.
Print Assumptions C73_forwarding.
Print Assumptions C73_progress.
Example C73_nonvacuous : forall e1 e2 e3, exists f,
  fwd_run [FiEvent e1; FiSubscribe; FiEvent e2; FiConnected ["a"; "b"]; FiRecv; FiSent true; FiEvent e3; FiSent true; FiRecv; FiSent true; FiSent true] f /\
  f_phase f = LLoop /\ f_queue f = [] /\ got_by "b" (f_sent f) = [e2; e3].
Proof.
  intros e1 e2 e3. assert (X : forall l pre f f', fwd_run pre f -> fold_left (fun o i => match o with Some f => fwd_step f i | None => None end) l (Some f) = Some f' -> fwd_run (pre ++ l) f').
  { induction l as [|i l IH]; intros pre f f' R E; cbn [fold_left] in E; [injection E as <-; rewrite app_nil_r; exact R|]. destruct (fwd_step f i) as [f1|] eqn:Ei.
    - change (i :: l) with ([i] ++ l). rewrite app_assoc. apply (IH _ f1); [econstructor; eassumption|exact E].
    - exfalso. clear -E. induction l as [|x l IHl]; cbn in E; [discriminate|auto]. }
  eexists. split; [refine (X _ [] fwd_init _ _ _); [constructor|reflexivity]|]. repeat split.
Qed.

(** C58. *)
Theorem C58_command_and_back : forall c, command_of_step (step_of_command c) = c.
Proof. exact command_step. Qed.
Theorem C58_step_and_back : forall st, let st' := step_of_command (command_of_step st) in
  st_on st' = None /\ st_id st' = st_id st /\ st_name st' = st_name st /\ st_container st' = st_container st /\ st_run st' = st_run st /\
  st_continue_on_error st' = st_continue_on_error st /\ st_environments st' = st_environments st /\ st_secrets st' = st_secrets st /\ st_timeout st' = st_timeout st.
Proof. intros st. repeat split. Qed.
Print Assumptions C58_command_and_back.
Print Assumptions C58_step_and_back.
Example C58_nonvacuous : exists st, st_on st <> None /\ step_of_command (command_of_step st) <> st.
Proof. exists (Step (StepId "w" "j" 1) None (Some (CEvent ["push"])) None "ls" false [] [] (Duration 0 0)). split; [discriminate|intros C; discriminate C]. Qed.

(** C59. *)
Theorem C59_connected : forall urls id m, lookup id (connect_all urls []) = Some m <->
  exists a b, urls = a ++ Reports m :: b /\ rm_id m = id /\ rm_version m = "0.2.0" /\
              forall m', In (Reports m') a -> rm_version m' = "0.2.0" -> rm_id m' <> id.
Proof. exact connect_all_spec. Qed.
Theorem C59_distinct : forall urls, NoDup (keys (connect_all urls [])).
Proof. exact connect_all_nodup. Qed.
(** A server of the same release is compatible, and a runner the scheduler picks from those offered is found, so running a step never panics. *)
Theorem C59_same_release : forall id n d h os arch, exists m, connect (Reports (server_metadata id n d h os arch)) = Some m /\
  rm_id m = id /\ rm_max_runs m = n /\ rm_support_docker m = d /\ rm_support_host m = h /\ rm_os m = os /\ rm_arch m = arch /\ rm_version m = "0.2.0".
Proof. intros. eexists. split; [reflexivity|]. repeat split. Qed.
Print Assumptions C59_same_release.
Theorem C59_picked_runner_is_found : forall urls ops m tr c q r, let clients := connect_all urls [] in
  sched_run ops m tr -> In (EvReturned c q (Some r)) tr -> sq_runners q = values clients -> client_start clients (Some r) = Some (inr r).
Proof.
  intros urls ops m tr c q r clients R H E. assert (In r (sq_runners q)).
  { apply in_split in H as (pre & post & ->). eapply (C38_suitable_partial _ _ _ _ _ _ _ _ R eq_refl). }
  unfold client_start. unfold clients in *. rewrite E in H0. rewrite (connected_found _ _ H0). reflexivity.
Qed.
Print Assumptions C59_connected.
Print Assumptions C59_picked_runner_is_found.
Example C59_nonvacuous :
  let md id v n := RunnerMeta id "linux" "x86_64" true true v n in
  connect_all [Unreachable; Reports (md "a" "0.1.0" 1%Z); Reports (md "a" "0.2.0" 2%Z); NoMetadata; Reports (md "a" "0.2.0" 3%Z); Reports (md "b" "0.2.0" 4%Z)] [] =
  [("a", md "a" "0.2.0" 2%Z); ("b", md "b" "0.2.0" 4%Z)].
Proof. reflexivity. Qed.

(** C60. The client's hooks never tell its scheduler about completions: after any history of calls of the client, a runner's load is the number of times it was ever picked. *)
Theorem C60_load_only_grows_partial : forall calls m tr, sched_run (flat_map scheduler_ops calls) m tr ->
  forall r, count_of (sd_counts (sm_st m)) r = Z.of_nat (picks (rm_id r) tr).
Proof.
  intros calls m tr R. eapply picks_count; [exact R|]. intros op H. apply in_flat_map in H as (c & _ & H). destruct c as [[n q|n|id|id]|e]; cbn in H; try contradiction; destruct H as [<-|[]]; exact I.
Qed.
Theorem C60_never_back_to_zero_refuted : exists calls m tr id r1 r2,
  sched_run (flat_map scheduler_ops calls) m tr /\ calls <> [] /\
  In (ClHook (HStepCompleted r1)) calls /\ sr_id r1 = id /\ In (ClHook (HJobCompleted r2)) calls /\ jr_id r2 = step_id_job_id id /\
  (forall id' h rid, In (EvScheduled id' h rid) tr -> id' = id) /\
  exists r, (0 < count_of (sd_counts (sm_st m)) r)%Z.
Proof.
  set (id := StepId "w" "j" 0). set (run := RunnerMeta "r" "linux" "x86_64" true true "0.2.0" 5).
  set (q := SchedReq [run] id None). set (d1 := StepRunResult id Succeeded None None None). set (d2 := JobRunResult (JobId "w" "j") Succeeded None None []).
  exists [ClSchedule (SBegin 0 q); ClSchedule (SNext 0); ClSchedule (SNext 0); ClHook (HStepCompleted d1); ClHook (HJobCompleted d2)].
  eexists _, _, id, d1, d2. split.
  { cbn [flat_map scheduler_ops app]. change [SBegin 0 q; SNext 0; SNext 0] with ((([] ++ [SBegin 0 q]) ++ [SNext 0]) ++ [SNext 0]).
    eapply sched_run_step; [eapply sched_run_step; [eapply sched_run_step; [constructor|]|]|]; reflexivity. }
  split; [discriminate|]. split; [cbn; auto 10|]. split; [reflexivity|]. split; [cbn; auto 10|]. split; [reflexivity|]. split.
  - cbn. intros id' h rid H. repeat destruct H as [H|H]; try discriminate H; try contradiction. injection H as <- _ _. reflexivity.
  - exists run. reflexivity.
Qed.
Print Assumptions C60_load_only_grows_partial.
Print Assumptions C60_never_back_to_zero_refuted.

(** C74. What does hold of the remote client's load counts. *)
Theorem C74_load_is_picks : forall calls m tr, sched_run (flat_map scheduler_ops calls) m tr ->
  forall r, count_of (sd_counts (sm_st m)) r = Z.of_nat (picks (rm_id r) tr).
Proof. exact C60_load_only_grows_partial. Qed.
Print Assumptions C74_load_is_picks.

(** C61. *)
Theorem C61_success : forall W (servers : list (server W * option string)) st w w' st',
  client_before W servers st w = (w', Ok st') <-> through servers (without_condition st) w st' w' /\ st_on st' = None.
Proof.
  intros W servers st w w' st'. unfold client_before. destruct (before_all W servers (command_of_step st) w) as [w1 [c|e]] eqn:E.
  - apply before_all_ok in E. rewrite step_command in E. split; [intros [= <- <-]; split; [exact E|reflexivity]|].
    intros [T H]. assert (E2 : before_all W servers (command_of_step st) w = (w', Ok (command_of_step st'))).
    { apply before_all_ok. rewrite !step_command. replace (without_condition st') with st' by (destruct st'; cbn in H; subst; reflexivity). exact T. }
    apply before_all_ok in E2. rewrite <- step_command in E. apply before_all_ok in E. apply before_all_ok in E2. rewrite E in E2. injection E2 as <- ->.
    rewrite step_command. destruct st'; cbn in H; subst; reflexivity.
  - apply before_all_err in E. rewrite step_command in E. split; [discriminate|]. intros [T H]. exfalso.
    rewrite <- step_command in E, T. apply before_all_err in E. replace st' with (step_of_command (command_of_step st')) in T by (rewrite step_command; destruct st'; cbn in H; subst; reflexivity).
    apply before_all_ok in T. rewrite T in E. discriminate.
Qed.
Theorem C61_failure : forall W (servers : list (server W * option string)) st w w' e,
  client_before W servers st w = (w', Err e) <-> stopped servers (without_condition st) w w' e.
Proof.
  intros W servers st w w' e. rewrite <- step_command, <- before_all_err. unfold client_before. destruct (before_all W servers (command_of_step st) w) as [w1 [c|e1]]; split; intros H; try discriminate H; injection H as <- <-; reflexivity.
Qed.
Print Assumptions C61_success.
Print Assumptions C61_failure.
Definition renames (n : string) : receiver nat := Receiver (fun _ w => (w, Ok tt)) (fun _ w => (w, Ok tt)) (fun _ w => (w, Ok tt)) (fun _ w => (w, Ok tt)) (fun _ w => (w, Ok tt)) (fun _ w => (w, Ok tt)) (fun _ w => (w, Ok tt)) (fun _ w => (w, Ok tt))
  (fun st w => (w + 1, Ok (Step (st_id st) (Some n) (Some (CEvent [n])) (st_container st) (st_run st +++ n) (st_continue_on_error st) (st_environments st) (st_secrets st) (st_timeout st)))).
Example C61_nonvacuous : exists st', client_before nat [(Server nat [renames "p"] (renames "q"), None); (Server nat [] (renames "z"), None)]
  (Step (StepId "w" "j" 1) None (Some (CEvent ["push"])) None "ls" false [] [] (Duration 0 0)) 0 = (3, Ok st') /\ st_run st' = "lspqz" /\ st_on st' = None.
Proof. eexists. repeat split. Qed.

(** C72. An event forwarded to a runner is delivered there to its plugins in order and then its runner, as the engine delivers it locally. *)
Theorem C72_dispatch : forall W (rm : step_id -> W -> W) plugins runner ev pl e w,
  server_dispatch rm plugins runner e w =
  deliver (ExecContext plugins runner ev pl) e (match e with HStepCompleted r => rm (sr_id r) w | _ => w end).
Proof.
  intros W rm plugins runner ev pl e w. unfold deliver, receivers. cbn [ec_plugins ec_runner]. rewrite fold_left_snoc.
  destruct e; cbn [server_dispatch]; rewrite ?drv_state, ?drv_log, ?drv_rw, ?drv_rj, ?drv_rs, ?drv_wc, ?drv_jc, ?drv_sc; reflexivity.
Qed.
Print Assumptions C72_dispatch.
Example C72_nonvacuous : forall l,
  server_dispatch (fun _ w => w) [recorder 1 (fun _ => Err (OtherError "x")); recorder 2 (fun _ => Ok tt)] (recorder 3 (fun _ => Ok tt)) (HLog l) [] = [(1, HLog l); (2, HLog l); (3, HLog l)].
Proof. reflexivity. Qed.
