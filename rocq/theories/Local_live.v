From Verif Require Import Base Types Signals_model Signals_proof Stream_model Stream_spec Stream_proof Cond_model Plugins_model Plugins_spec
  Exec_model Exec_spec Step_proof Timing_proof Paths_model Docker_model Runner_model Runner_spec Runner_proof Local_model Local_spec Local_proof.

(** The result in the stream when the task's calls have been made. *)
Lemma stream_state_of ops : forall ls, 
  (unpolled ops = stream_of (map log_op ls) -> ss_result (stream_after ops) = None /\ ss_enders (stream_after ops) = []) /\
  (forall r, unpolled ops = stream_of (map log_op ls) ++ [SEndCheck 0 r] -> ss_result (stream_after ops) = None /\ ss_enders (stream_after ops) = [(0, r)]) /\
  (forall r, unpolled ops = stream_of (map log_op ls) ++ [SEndCheck 0 r; SEndCommit 0] -> ss_result (stream_after ops) = Some r).
Proof.
  induction ops as [|o ops IH] using rev_ind; intros ls.
  - split; [intros _; split; reflexivity|]. split; intros r E; destruct (stream_of (map log_op ls)); discriminate E.
  - rewrite unpolled_app, stream_after_snoc. destruct (spoll_b o) eqn:P.
    + destruct o; try discriminate P. cbn [unpolled filter spoll_b negb]. rewrite app_nil_r.
      assert (K : ss_result (fst (stream_step (stream_after ops) (SPoll t))) = ss_result (stream_after ops) /\ ss_enders (fst (stream_step (stream_after ops) (SPoll t))) = ss_enders (stream_after ops)).
      { cbn [stream_step]. unfold stream_poll. destruct (nth_error _ _); cbn; [auto|]. destruct (ss_result (stream_after ops)); cbn; auto. }
      destruct K as [-> ->]. apply IH.
    + assert (Hu : unpolled [o] = [o]) by (unfold unpolled; cbn; rewrite P; reflexivity). rewrite Hu. split; [|split].
      * intros E. destruct (exists_last (l := ls)) as (ls' & l & ->).
        { intros ->. apply app_eq_nil in E as [_ E]. discriminate E. }
        rewrite map_app, stream_of_app in E. cbn [map] in E.
        assert (Hl : exists so, stream_of [log_op l] = [so] /\ (exists m, so = SLog m \/ so = SError m)) by (destruct l as [[] m]; cbn; eexists; split; [reflexivity|exists m; auto|reflexivity|exists m; auto]).
        destruct Hl as (so & Hl & m & Hm). rewrite Hl in E. apply app_inj_tail in E as [E ->]. apply (IH ls') in E. destruct Hm as [->| ->]; cbn; exact E.
      * intros r E. apply app_inj_tail in E as [E ->]. apply (IH ls) in E as [E1 E2]. cbn [stream_step fst]. unfold stream_end_check. rewrite E1. cbn [is_some ss_result ss_enders]. rewrite ?E1, E2. auto.
      * intros r E. change [SEndCheck 0 r; SEndCommit 0] with ([SEndCheck 0 r] ++ [SEndCommit 0]) in E. rewrite app_assoc in E. apply app_inj_tail in E as [E ->].
        apply (IH ls) in E as [E1 E2]. cbn [stream_step]. unfold stream_end_commit. rewrite E2. reflexivity.
Qed.

Section Live.
Variables (cx : ectx) (me : task) (rhooks : run_context -> run_context) (conf : run_context -> xconf) (st0 : step).
Notation lx := (lexec cx me rhooks conf).
(** The engine reads the stream and goes on; the task's calls on the stream complete. *)
Definition drives (op : lop) : Prop := op = LSender \/ op = LEngine OpNext \/ op = LEngine OpStream \/ op = LEngine (OpAnswer true).
Definition reaches (s : lstate) (rr : run_result) : Prop :=
  exists ops s' o r, Forall drives ops /\ lx s ops = Some (s', o) /\ lo_step s' = SpDone r /\ mirrors rr r.
Lemma lexec_cons s op s1 o1 rr : lstep cx me rhooks conf s op = Some (s1, o1) -> drives op -> reaches s1 rr -> reaches s rr.
Proof.
  intros E D (ops & s' & o & r & F & X & H1 & H2). exists (op :: ops), s', (o1 ++ o), r. split; [constructor; assumption|].
  split; [|auto]. cbn [lexec]. rewrite E, X. reflexivity.
Qed.
Lemma next_step s sh' p' o : step_step cx me (lo_sh s) (lo_step s) OpNext = Some (sh', p', o) ->
  lstep cx me rhooks conf s (LEngine OpNext) = Some (LState sh' p' (option_map (see_signal p') (lo_task s)), map LObs o).
Proof. intros E. cbn [lstep]. rewrite E. reflexivity. Qed.
Lemma poll_step s sh' p' o : step_step cx me (lo_sh s) (lo_step s) OpStream = Some (sh', p', o) ->
  lstep cx me rhooks conf s (LEngine OpStream) = Some (LState sh' p' (option_map (see_signal p') (lo_task s)), map LObs o).
Proof. intros E. cbn [lstep]. rewrite E. reflexivity. Qed.
Ltac nxt := eapply lexec_cons; [apply next_step; reflexivity|unfold drives; auto|].
Lemma from_complete s r rr : lo_step s = SpComplete r -> mirrors rr r -> reaches s rr.
Proof.
  intros P M. eapply lexec_cons; [apply next_step; rewrite P; reflexivity|unfold drives; auto|].
  exists [], (LState (lo_sh s) (SpDone r) (option_map (see_signal (SpDone r)) (lo_task s))), [], r. repeat split; auto.
Qed.
Lemma from_terminal s r rr : lo_step s = SpTerminal r -> mirrors rr r -> reaches s rr.
Proof. intros P M. eapply lexec_cons; [apply next_step; rewrite P; reflexivity|unfold drives; auto|]. eapply from_complete; [reflexivity|exact M]. Qed.
Lemma from_ended s st t0 rr : lo_step s = SpEnded st t0 (fst (result_state rr)) (snd (result_state rr)) -> reaches s rr.
Proof. intros P. eapply lexec_cons; [apply next_step; rewrite P; reflexivity|unfold drives; auto|]. eapply from_terminal; [reflexivity|destruct rr; split; reflexivity]. Qed.
Lemma from_broken s st t0 a sg str rr : lo_step s = SpBroken st t0 a sg str -> ss_result str = Some rr -> reaches s rr.
Proof. intros P H. eapply lexec_cons; [apply next_step; rewrite P; cbn [step_step]; rewrite H; reflexivity|unfold drives; auto|]. eapply from_ended. reflexivity. Qed.
Lemma from_enter n : forall s st t0 a sg str rr, lo_step s = SpEnter st t0 a sg str -> ss_result str = Some rr -> length (ss_logs str) - ss_index str = n -> reaches s rr.
Proof.
  induction n as [|n IH]; intros s st t0 a sg str rr P H Hn.
  - eapply lexec_cons; [apply next_step; rewrite P; reflexivity|unfold drives; auto|].
    assert (El : nth_error (ss_logs str) (ss_index str) = None) by (apply nth_error_None; lia).
    eapply lexec_cons; [apply poll_step; cbn [lo_step step_step]; unfold stream_poll; rewrite El, H; reflexivity|unfold drives; auto|].
    eapply from_broken; [reflexivity|first [exact H|reflexivity]].
  - eapply lexec_cons; [apply next_step; rewrite P; reflexivity|unfold drives; auto|].
    destruct (nth_error (ss_logs str) (ss_index str)) as [l|] eqn:El; [|apply nth_error_None in El; lia].
    assert (Hlt : ss_index str < length (ss_logs str)) by (apply nth_error_Some; congruence).
    eapply lexec_cons; [apply poll_step; cbn [lo_step step_step]; unfold stream_poll; rewrite El; reflexivity|unfold drives; auto|].
    nxt. nxt. eapply IH; [reflexivity|first [exact H|reflexivity]|cbn; lia].
Qed.
Lemma from_deliver s st t0 a sg str l rr : lo_step s = SpDeliver st t0 a sg str l -> ss_result str = Some rr -> reaches s rr.
Proof. intros P H. eapply lexec_cons; [apply next_step; rewrite P; reflexivity|unfold drives; auto|]. eapply from_enter; [reflexivity|exact H|reflexivity]. Qed.
Lemma from_gotlog s st t0 a sg str l rr : lo_step s = SpGotLog st t0 a sg str l -> ss_result str = Some rr -> reaches s rr.
Proof. intros P H. eapply lexec_cons; [apply next_step; rewrite P; reflexivity|unfold drives; auto|]. eapply from_deliver; [reflexivity|first [exact H|reflexivity]]. Qed.
Lemma from_loop s st t0 a sg str ti rr : lo_step s = SpLoop st t0 a sg str ti -> ss_result str = Some rr -> reaches s rr.
Proof.
  intros P H. destruct (nth_error (ss_logs str) (ss_index str)) as [l|] eqn:El.
  - eapply lexec_cons; [apply poll_step; rewrite P; cbn [step_step]; unfold stream_poll; rewrite El; reflexivity|unfold drives; auto|]. eapply from_gotlog; [reflexivity|first [exact H|reflexivity]].
  - eapply lexec_cons; [apply poll_step; rewrite P; cbn [step_step]; unfold stream_poll; rewrite El, H; reflexivity|unfold drives; auto|]. eapply from_broken; [reflexivity|first [exact H|reflexivity]].
Qed.
Lemma from_inprogress s st t0 a sg str rr : lo_step s = SpInProgress st t0 a sg str -> ss_result str = Some rr -> reaches s rr.
Proof. intros P H. eapply lexec_cons; [apply next_step; rewrite P; reflexivity|unfold drives; auto|]. eapply from_enter; [reflexivity|exact H|reflexivity]. Qed.
Lemma from_calling s st t0 a sg str rr t : lo_step s = SpCalling st t0 a sg str -> lo_task s = Some t -> ss_result str = Some rr -> reaches s rr.
Proof.
  intros P T H. destruct s as [sh p tk]. cbn [lo_step lo_task] in *. subst. eapply (lexec_cons _ (LEngine (OpAnswer true))); [cbn; reflexivity|unfold drives; auto|]. eapply from_inprogress; [reflexivity|first [exact H|reflexivity]].
Qed.

Lemma ended_outcome ls sh p tr : srun cx me st0 ls sh p tr -> ~ In (SOwn (OpAnswer false)) ls ->
  match p with
  | SpEnded _ _ s c => exists rr, (s, c) = result_state rr /\ stream_output (stream_ops me ls) SResult = SOResult (Some rr)
  | SpTerminal r | SpComplete r => exists rr, mirrors rr r /\ stream_output (stream_ops me ls) SResult = SOResult (Some rr)
  | _ => True
  end.
Proof.
  intros R Hn. assert (P := in_progress_seen _ _ _ _ _ _ _ R Hn). apply srun_inv in R. destruct p; try exact I; cbn [sinv] in R.
  - destruct R as (_ & _ & [(_ & _ & -> & _)|(rr & logs & H1 & H2 & _)]); [|exists rr; auto]. exfalso. cbn in P. destruct P as [C|[C|[C|[]]]]; discriminate C.
  - destruct R as (st & t0 & t1 & Hid & _ & _ & _ & _ & [(_ & _ & -> & _)|(rr & logs & H1 & H2 & _)]).
    + exfalso. cbn in P. destruct P as [C|[C|[C|[]]]]; discriminate C.
    + exists rr. split; [eapply result_mirrors; eauto|exact H2].
  - destruct R as (st & t0 & t1 & tr' & Hid & _ & _ & _ & -> & _ & [(Hf & _ & -> & _)|(rr & logs & H1 & H2 & _)]).
    + exfalso. rewrite Hf in P. cbn in P. destruct P as [C|[C|[C|[C|[]]]]]; discriminate C.
    + exists rr. split; [eapply result_mirrors; eauto|exact H2].
Qed.

Lemma result_in_stream ls more effs r lg : runner_ops ls ++ more = map log_op lg ++ end_ops (Some r) -> flat_map sender_ops effs = map log_op lg ++ end_ops (Some r) ->
  forall rr, stream_output (stream_ops me ls) SResult = SOResult (Some rr) -> rr = r.
Proof.
  intros E _ rr Hs. unfold stream_output in Hs. cbn in Hs. injection Hs as Hs. apply result_from in Hs as (c & pre & mid & post & Hs & _).
  assert (Hin : In (SEndCheck c rr) (unpolled (stream_ops me ls))) by (apply in_unpolled; split; [rewrite Hs; apply in_or_app; right; left; reflexivity|reflexivity]).
  rewrite unpolled_stream in Hin.
  assert (H2 : In (SEndCheck c rr) (stream_of (map log_op lg ++ end_ops (Some r)))) by (rewrite <- E, stream_of_app; apply in_or_app; left; exact Hin).
  apply check_result in H2. congruence.
Qed.

Lemma result_arrives n : forall ops s tr ins t rr, lhist cx me rhooks conf st0 ops s tr ins -> lo_task s = Some t -> xs_result (lt_x t) = Some rr ->
  length (lt_pending t) = n -> (exists r, lo_step s = SpDone r /\ mirrors rr r) \/ reaches s rr.
Proof.
  induction n as [|n IH]; intros ops s tr ins t rr H T X Hn.
  - assert (L := lhist_inv _ _ _ _ _ _ _ _ _ H). destruct L as [(ls & more & R & Em & Hm & Hna) Hnone Hearly _ Htask].
    destruct (Htask t T) as (Xr & _). assert (Sx := x_sender _ _ _ _ Xr). rewrite X in Sx. rewrite Sx in Em.
    assert (Hres : forall sg, phase_signal (lo_step s) = Some sg -> ss_result (stream_after (stream_ops me ls)) = Some rr).
    { intros sg Hp. rewrite (Hm sg Hp), T in Em. destruct (lt_pending t); [|discriminate Hn]. rewrite app_nil_r in Em.
      destruct (stream_state_of (stream_ops me ls) (logs_of (task_effects tr))) as (_ & _ & K). apply K. rewrite unpolled_stream, Em, stream_of_app. reflexivity. }
    assert (G := result_in_stream ls more (task_effects tr) rr _ Em Sx). assert (O := ended_outcome _ _ _ _ R Hna). apply srun_inv in R.
    destruct (lo_step s) as [st|st|st t0|st t0|st t0|st t0 a|st t0 a sg str|st t0 a sg str|st t0 a sg str|st t0 a sg str ti|st t0 a sg str l|st t0 a sg str l|st t0 a sg str|st t0 w c|r|r|r|w] eqn:P;
      try (rewrite (Hearly eq_refl) in T; discriminate T); cbn [sinv] in R.
    + right. destruct R as (_ & _ & _ & -> & _). eapply from_calling; [exact P|exact T|eapply Hres; reflexivity].
    + right. destruct R as (_ & _ & _ & -> & _). eapply from_inprogress; [exact P|eapply Hres; reflexivity].
    + right. destruct R as (_ & _ & -> & _). eapply from_enter; [exact P|eapply Hres; reflexivity|reflexivity].
    + right. destruct R as (_ & _ & -> & _). eapply from_loop; [exact P|eapply Hres; reflexivity].
    + right. destruct R as (_ & _ & -> & _). eapply from_gotlog; [exact P|eapply Hres; reflexivity].
    + right. destruct R as (_ & _ & -> & _). eapply from_deliver; [exact P|eapply Hres; reflexivity].
    + right. destruct R as (_ & _ & -> & _). eapply from_broken; [exact P|eapply Hres; reflexivity].
    + right. destruct O as (rr' & O1 & O2). apply G in O2 as ->. eapply from_ended. rewrite P, <- O1. reflexivity.
    + right. destruct O as (rr' & O1 & O2). apply G in O2 as ->. eapply from_terminal; eauto.
    + right. destruct O as (rr' & O1 & O2). apply G in O2 as ->. eapply from_complete; eauto.
    + left. exists r. split; [reflexivity|]. destruct (result_of_run _ _ _ _ _ _ _ _ _ _ H P) as (t' & st & rr' & T' & _ & _ & _ & _ & X' & _ & M & _). congruence.
    + destruct w; [rewrite (Hearly eq_refl) in T; discriminate T|contradiction].
  - destruct t as [c x [|ro rest]]; [discriminate Hn|].
    assert (E : exists s' , lstep cx me rhooks conf s LSender = Some (s', []) /\ lo_task s' = Some (LTask c x rest)).
    { cbn [lstep]. rewrite T. destruct (step_step cx me (lo_sh s) (lo_step s) (OpRunner ro)) as [[[sh' p'] ob]|]; eexists; split; reflexivity. }
    destruct E as (s' & E & T'). assert (H' := lhist_step _ _ _ _ _ _ _ _ _ _ _ _ H E).
    right. destruct (IH _ _ _ _ _ _ H' T' X) as [(r & D & M)|Hr]; [injection Hn as Hn; exact Hn| |].
    + exists [LSender], s', [], r. split; [repeat constructor|]. split; [cbn [lexec]; rewrite E; reflexivity|auto].
    + eapply lexec_cons; [exact E|left; reflexivity|exact Hr].
Qed.
Lemma result_always_arrives ops s tr ins t rr : lhist cx me rhooks conf st0 ops s tr ins -> lo_task s = Some t -> xs_result (lt_x t) = Some rr -> reaches s rr.
Proof.
  intros H T X. destruct (result_arrives _ _ _ _ _ _ _ H T X eq_refl) as [(r & D & M)|K]; [|exact K].
  exists [], s, [], r. repeat split; auto.
Qed.
End Live.
