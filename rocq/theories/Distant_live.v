From Verif Require Import Base Types Signals_model Signals_proof Stream_model Stream_spec Stream_proof Cond_model Plugins_model Plugins_spec
  Exec_model Exec_spec Step_proof Timing_proof Paths_model Runner_model Runner_spec Sched_model Remote_model Remote_spec Remote_proof Local_model Local_spec Local_proof Local_live
  Distant_model Distant_spec Distant_proof.

Section Live.
Variables (cx : ectx) (me cl : task) (st0 : step).
Notation dx := (dexec cx me cl).
Definition may_answer (t : dtask) : Prop := dt_remote t <> None \/ dt_pending t = [].
Lemma share_answer p t : may_answer t -> may_answer (share p t).
Proof. unfold may_answer, share. destruct (phase_signal p); auto. Qed.
Definition lift (op : lop) : list dop := match op with LEngine o => [DEngine o] | _ => [] end.
Lemma dexec_app a : forall b s s1 o1 s2 o2, dx s a = Some (s1, o1) -> dx s1 b = Some (s2, o2) -> dx s (a ++ b) = Some (s2, o1 ++ o2).
Proof.
  induction a as [|op a IH]; intros b s s1 o1 s2 o2 E1 E2; cbn [dexec app] in *; [injection E1 as <- <-; exact E2|].
  destruct (dstep cx me cl s op) as [[s' o]|]; [|discriminate]. destruct (dx s' a) as [[s3 o3]|] eqn:E3; [|discriminate]. injection E1 as <- <-.
  rewrite (IH _ _ _ _ _ _ E3 E2), app_assoc. reflexivity.
Qed.
(** The engine alone finishes on the same actions as with the built-in runner. *)
Lemma follow more : forall sh p c x t s' o, Forall drives more -> may_answer t ->
  lexec cx me (fun rc => rc) (fun _ => c) (LState sh p (Some (LTask c x []))) more = Some (s', o) ->
  exists t' o', dx (DState sh p (Some t)) (flat_map lift more) = Some (DState (lo_sh s') (lo_step s') (Some t'), o') /\ Forall plain (flat_map lift more).
Proof.
  induction more as [|op more IH]; intros sh p c x t s' o Hd Ha E; cbn [lexec] in E; [injection E as <- <-; exists t, []; split; [reflexivity|constructor]|].
  destruct (lstep cx me (fun rc => rc) (fun _ => c) _ op) as [[s1 o1]|] eqn:E1; [|discriminate]. destruct (lexec _ _ _ _ s1 more) as [[s2 o2]|] eqn:E2; [|discriminate]. injection E as <- <-.
  inversion Hd as [|? ? Hop Hrest]; subst.
  assert (K : exists op1 sh1 p1 ob, op = LEngine op1 /\ (op1 = OpNext \/ op1 = OpStream \/ op1 = OpAnswer true) /\ step_step cx me sh p op1 = Some (sh1, p1, ob) /\
     s1 = LState sh1 p1 (Some (see_signal p1 (LTask c x [])))).
  { destruct Hop as [->|[->|[->| ->]]]; cbn [lstep lo_task lo_step lo_sh] in E1; [discriminate E1| | |];
      (destruct (step_step cx me sh p _) as [[[sh1 p1] ob]|] eqn:Es; [|discriminate E1]; injection E1 as <- <-; do 4 eexists; (split; [reflexivity|]); (split; [auto|]); split; [exact Es|reflexivity]). }
  destruct K as (op1 & sh1 & p1 & ob & -> & Hop1 & Es & ->).
  assert (Ex : exists x1, see_signal p1 (LTask c x []) = LTask c x1 []) by (unfold see_signal; destruct (phase_signal p1); eexists; reflexivity).
  destruct Ex as [x1 Ex]. rewrite Ex in E2. destruct (IH _ _ _ _ (share p1 t) _ _ Hrest (share_answer p1 t Ha) E2) as (t' & o' & E3 & Hp).
  assert (Ed : dstep cx me cl (DState sh p (Some t)) (DEngine op1) = Some (DState sh1 p1 (Some (share p1 t)), ob)).
  { destruct Hop1 as [->|[->| ->]]; cbn [dstep ds_task]; unfold dengine; cbn [ds_sh ds_step ds_task option_map]; try (rewrite Es; reflexivity).
    destruct t as [[r|] sg pd]; [rewrite Es; reflexivity|]. destruct Ha as [Ha|Ha]; cbn in Ha; [congruence|]. subst pd. rewrite Es. reflexivity. }
  exists t', (ob ++ o'). cbn [flat_map lift app dexec]. rewrite Ed, E3. split; [reflexivity|]. constructor; [|exact Hp]. unfold plain. destruct Hop1 as [->|[->| ->]]; auto 6.
Qed.
Definition brings (s : dstate) (rr : run_result) : Prop := exists more s' o r, Forall plain more /\ dx s more = Some (s', o) /\ ds_step s' = SpDone r /\ mirrors rr r.
Definition dummy : xconf := XConf true (step_metadata "" None (StepId "" "" 0)) "" "".
Lemma brings_reaches sh p t rr : may_answer t -> reaches cx me (fun rc => rc) (fun _ => dummy) (LState sh p (Some (LTask dummy xinit []))) rr -> brings (DState sh p (Some t)) rr.
Proof.
  intros Ha (more & s' & o & r & Hd & E & D & M). destruct (follow _ _ _ _ _ _ _ _ Hd Ha E) as (t' & o' & E' & Hp). exists (flat_map lift more), (DState (lo_sh s') (lo_step s') (Some t')), o', r. auto.
Qed.
Lemma brings_step s op s1 o1 rr : dstep cx me cl s op = Some (s1, o1) -> plain op -> brings s1 rr -> brings s rr.
Proof.
  intros E Hp (more & s' & o & r & Hd & E' & D & M). exists (op :: more), s', (o1 ++ o), r. split; [constructor; assumption|]. cbn [dexec]. rewrite E, E'. auto.
Qed.
(** All calls made and one of them an [end]: the engine can finish by itself. *)
Lemma calls_made ops s tr gs t rr : dhist cx me cl st0 ops s tr gs -> ds_task s = Some t -> dt_pending t = [] -> first_end (task_effs (ds_task s)) = Some rr -> brings s rr.
Proof.
  intros H Tk Pd Fe. assert (D0 := dhist_inv _ _ _ _ _ _ _ _ H). destruct D0 as [(ls & more & R & Em & Hm & Hna) Hnone Hearly _ Htask].
  assert (Hres : forall sg, phase_signal (ds_step s) = Some sg -> ss_result (stream_after (stream_ops me ls)) = Some rr).
  { intros sg Hp. rewrite <- (unpolled_stream me) in Em. destruct (prefix_state _ _ _ Em) as (e1 & e2 & Ee & S1 & _ & S3). rewrite (Hm sg Hp), Tk, Pd in S3. rewrite (S3 eq_refl), app_nil_r in Ee. rewrite S1, <- Ee. exact Fe. }
  assert (G : forall rr', stream_output (stream_ops me ls) SResult = SOResult (Some rr') -> rr' = rr).
  { intros rr' E. unfold stream_output in E. cbn in E. injection E as E. rewrite <- (unpolled_stream me) in Em. destruct (prefix_state _ _ _ Em) as (e1 & e2 & Ee & S1 & _ & _).
    rewrite E in S1. rewrite Ee, first_end_app, <- S1 in Fe. congruence. }
  assert (O := ended_outcome _ _ _ _ _ _ _ R Hna). apply srun_inv in R. destruct s as [sh p tk]. cbn [ds_sh ds_step ds_task] in *. subst tk.
  assert (Ha : may_answer t) by (right; exact Pd).
  destruct p as [st|st|st t0|st t0|st t0|st t0 a|st t0 a sg str|st t0 a sg str|st t0 a sg str|st t0 a sg str ti|st t0 a sg str l|st t0 a sg str l|st t0 a sg str|st t0 w c|r|r|r|w];
    try (discriminate (Hearly eq_refl)); cbn [sinv] in R.
  - apply brings_reaches; [exact Ha|]. destruct R as (_ & _ & _ & -> & _). eapply from_calling; [reflexivity|reflexivity|eapply Hres; reflexivity].
  - apply brings_reaches; [exact Ha|]. destruct R as (_ & _ & _ & -> & _). eapply from_inprogress; [reflexivity|eapply Hres; reflexivity].
  - apply brings_reaches; [exact Ha|]. destruct R as (_ & _ & -> & _). eapply from_enter; [reflexivity|eapply Hres; reflexivity|reflexivity].
  - apply brings_reaches; [exact Ha|]. destruct R as (_ & _ & -> & _). eapply from_loop; [reflexivity|eapply Hres; reflexivity].
  - apply brings_reaches; [exact Ha|]. destruct R as (_ & _ & -> & _). eapply from_gotlog; [reflexivity|eapply Hres; reflexivity].
  - apply brings_reaches; [exact Ha|]. destruct R as (_ & _ & -> & _). eapply from_deliver; [reflexivity|eapply Hres; reflexivity].
  - apply brings_reaches; [exact Ha|]. destruct R as (_ & _ & -> & _). eapply from_broken; [reflexivity|eapply Hres; reflexivity].
  - apply brings_reaches; [exact Ha|]. destruct O as (rr' & O1 & O2). apply G in O2 as ->. eapply from_ended. cbn [lo_step]. rewrite <- O1. reflexivity.
  - apply brings_reaches; [exact Ha|]. destruct O as (rr' & O1 & O2). apply G in O2 as ->. eapply from_terminal; [reflexivity|exact O1].
  - apply brings_reaches; [exact Ha|]. destruct O as (rr' & O1 & O2). apply G in O2 as ->. eapply from_complete; [reflexivity|exact O1].
  - destruct (done_effs _ _ _ _ _ _ _ _ _ H eq_refl) as (_ & _ & rr' & L & T & T1 & T2 & _ & _ & _ & Eff & _ & M & _). cbn [ds_task] in Eff. rewrite Eff, first_end_at in Fe. injection Fe as ->.
    exists [], (DState sh (SpDone r) (Some t)), [], r. split; [constructor|]. auto.
  - destruct w; [discriminate (Hearly eq_refl)|contradiction].
Qed.
Lemma calls_complete n : forall ops s tr gs t rr, dhist cx me cl st0 ops s tr gs -> ds_task s = Some t -> length (dt_pending t) = n -> first_end (task_effs (ds_task s)) = Some rr -> brings s rr.
Proof.
  induction n as [|n IH]; intros ops s tr gs t rr H Tk Hn Fe.
  - eapply calls_made; eauto. destruct (dt_pending t); [reflexivity|discriminate].
  - destruct t as [r sg [|ro rest]]; [discriminate|]. eapply (brings_step s DSender); [cbn [dstep]; rewrite Tk; reflexivity|left; reflexivity|].
    eapply (IH _ _ _ _ (DTask r sg rest)); [eapply (dhist_step _ _ _ _ _ _ _ _ DSender); [exact H|cbn [dstep]; rewrite Tk; reflexivity]|reflexivity|cbn; injection Hn as Hn; exact Hn|].
    cbn [ds_task]. rewrite Tk in Fe. exact Fe.
Qed.
(** Pending calls can be completed. *)
Lemma flush n : forall ops s tr gs r sg pd, dhist cx me cl st0 ops s tr gs -> ds_task s = Some (DTask r sg pd) -> length pd = n ->
  exists s', dhist cx me cl st0 (ops ++ repeat DSender n) s' tr gs /\ ds_task s' = Some (DTask r sg []) /\ dx s (repeat DSender n) = Some (s', []).
Proof.
  induction n as [|n IH]; intros ops s tr gs r sg pd H Tk Hn.
  - destruct pd; [|discriminate]. exists s. cbn. rewrite app_nil_r. auto.
  - destruct pd as [|ro rest]; [discriminate|]. injection Hn as Hn.
    assert (E : dstep cx me cl s DSender = Some (DState (ds_sh s) (at_engine cx me s ro) (Some (DTask r sg rest)), [])) by (cbn [dstep]; rewrite Tk; reflexivity).
    assert (H' := dhist_step _ _ _ _ _ _ _ _ _ _ _ H E). rewrite hands_only, !app_nil_r in H' by discriminate.
    destruct (IH _ _ _ _ r sg rest H' eq_refl Hn) as (s' & K1 & K2 & K3). exists s'. rewrite <- app_assoc in K1. split; [exact K1|]. split; [exact K2|]. cbn [repeat dexec]. rewrite E, K3. reflexivity.
Qed.
Lemma remote_result_eq ins st : remote_run ins st -> (r_client st = RDone \/ result_of (arrived ins) <> None) -> first_end (r_effs st) = Some (remote_result ins).
Proof.
  intros R Hd. destruct (rinv_run _ _ R) as [del I]. rewrite (ri_end _ _ _ I). unfold remote_result. rewrite (rinv_arrived _ _ _ I) in *.
  destruct (result_of del); [reflexivity|]. destruct Hd as [->|C]; [reflexivity|congruence].
Qed.
(** The result that will be there when everything on the wire has arrived. *)
Lemma wire_arrives w : forall ops s tr gs rm sg pd, dhist cx me cl st0 ops s tr gs -> ds_task s = Some (DTask (Some rm) sg pd) -> r_client rm = RLoop -> r_server rm = SvDone -> r_wire rm = w ->
  brings s (match result_of (server_sent (remote_events ops)) with Some r => r | None => RFailed 1 end).
Proof.
  induction w as [|m w IH]; intros ops s tr gs rm sg pd H Tk Rc Rs Hw.
  - destruct (flush _ _ _ _ _ _ _ _ H Tk eq_refl) as (s1 & H1 & T1 & E1).
    assert (Hev : remote_events (ops ++ repeat DSender (length pd)) = remote_events ops) by (rewrite events_app; clear; induction (length pd); cbn in *; rewrite ?app_nil_r in *; auto).
    assert (D1 := dhist_inv _ _ _ _ _ _ _ _ H1). destruct D1 as [_ _ _ _ Htask]. destruct (Htask _ T1) as (_ & _ & _ & _ & Rr & _). cbn [dt_remote] in *.
    assert (Ap := arrived_prefix _ _ Rr). rewrite Hw, app_nil_r in Ap.
    assert (E2 : exists rm', remote_step rm RiClosed = Some rm' /\ r_client rm' = RDone).
    { destruct rm as [c sv w0 effs sent]. cbn in *. subst. cbn. eexists. split; reflexivity. }
    destruct E2 as (rm' & E2 & Rd).
    assert (E3 : dstep cx me cl s1 (DRemote RiClosed) = Some (DState (ds_sh s1) (ds_step s1) (Some (DTask (Some rm') sg (flat_map calls_of (skipn (length (r_effs rm)) (r_effs rm'))))), [])).
    { cbn [dstep]. rewrite T1. cbn [client_side andb]. rewrite E2. reflexivity. }
    assert (H2 := dhist_step _ _ _ _ _ _ _ _ _ _ _ H1 E3). rewrite hands_only, !app_nil_r in H2 by discriminate.
    assert (Hb : brings (DState (ds_sh s1) (ds_step s1) (Some (DTask (Some rm') sg (flat_map calls_of (skipn (length (r_effs rm)) (r_effs rm')))))) (remote_result (remote_events ((ops ++ repeat DSender (length pd)) ++ [DRemote RiClosed])))).
    { eapply calls_complete; [exact H2|reflexivity|reflexivity|]. cbn [ds_task task_effs]. apply remote_result_eq; [|left; exact Rd].
      assert (D2 := dhist_inv _ _ _ _ _ _ _ _ H2). destruct D2 as [_ _ _ _ Htask2]. destruct (Htask2 _ eq_refl) as (_ & _ & _ & _ & Rr2 & _). exact Rr2. }
    assert (Er : remote_result (remote_events ((ops ++ repeat DSender (length pd)) ++ [DRemote RiClosed])) = match result_of (server_sent (remote_events ops)) with Some r => r | None => RFailed 1 end).
    { unfold remote_result. rewrite events_app, Hev. cbn [remote_events flat_map app]. rewrite Hev in Ap. unfold arrived. rewrite server_sent_snoc, deliveries_snoc, Nat.add_0_r, app_nil_r. fold (arrived (remote_events ops)). rewrite <- Ap. reflexivity. }
    rewrite Er in Hb. destruct Hb as (more & s' & o & r & Hp & Ex & D & M).
    exists (repeat DSender (length pd) ++ DRemote RiClosed :: more), s', ([] ++ [] ++ o), r. split; [apply Forall_app; split; [apply Forall_forall; intros x Hx; apply repeat_spec in Hx as ->; left; reflexivity|constructor; [unfold plain; auto 10|exact Hp]]|].
    split; [eapply dexec_app; [exact E1|]; cbn [dexec]; rewrite E3, Ex; reflexivity|auto].
  - destruct (flush _ _ _ _ _ _ _ _ H Tk eq_refl) as (s1 & H1 & T1 & E1).
    assert (Hev : remote_events (ops ++ repeat DSender (length pd)) = remote_events ops) by (rewrite events_app; clear; induction (length pd); cbn in *; rewrite ?app_nil_r in *; auto).
    assert (E2 : exists rm', remote_step rm RiDeliver = Some rm' /\ r_client rm' = RLoop /\ r_server rm' = SvDone /\ r_wire rm' = w).
    { destruct rm as [c sv w0 effs sent]. cbn in *. subst. destruct m; cbn; eexists; split; reflexivity || (repeat split). }
    destruct E2 as (rm' & E2 & Rc' & Rs' & Rw').
    assert (E3 : dstep cx me cl s1 (DRemote RiDeliver) = Some (DState (ds_sh s1) (ds_step s1) (Some (DTask (Some rm') sg (flat_map calls_of (skipn (length (r_effs rm)) (r_effs rm'))))), [])).
    { cbn [dstep]. rewrite T1. cbn [client_side andb]. rewrite E2. reflexivity. }
    assert (H2 := dhist_step _ _ _ _ _ _ _ _ _ _ _ H1 E3). rewrite hands_only, !app_nil_r in H2 by discriminate.
    assert (Hb := IH _ _ _ _ _ _ _ H2 eq_refl Rc' Rs' Rw'). rewrite events_app, Hev in Hb. cbn [remote_events flat_map app] in Hb. rewrite server_sent_snoc, app_nil_r in Hb.
    destruct Hb as (more & s' & o & r & Hp & Ex & D & M).
    exists (repeat DSender (length pd) ++ DRemote RiDeliver :: more), s', ([] ++ [] ++ o), r. split; [apply Forall_app; split; [apply Forall_forall; intros x Hx; apply repeat_spec in Hx as ->; left; reflexivity|constructor; [unfold plain; auto 10|exact Hp]]|].
    split; [eapply dexec_app; [exact E1|]; cbn [dexec]; rewrite E3, Ex; reflexivity|auto].
Qed.
End Live.
