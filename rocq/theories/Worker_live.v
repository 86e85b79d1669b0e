From Verif Require Import Base Types Signals_model Signals_proof Stream_model Stream_spec Stream_proof Cond_model Plugins_model Plugins_spec
  Exec_model Exec_spec Step_proof Timing_proof Runner_model Runner_spec Runner_proof Sched_model Remote_model Remote_spec Remote_proof Local_model Local_spec Local_proof Local_live
  Distant_model Distant_spec Distant_proof Distant_live Workflow_model Workflow_spec System_model System_spec System_proof System_inst Finish_spec Finish_proof Finish_step Worker_model Worker_spec Worker_proof.

Lemma rphase_eq_done r : r_client r = RDone \/ r_client r <> RDone.
Proof. destruct (r_client r); auto; right; discriminate. Qed.
Section Live.
Variables (cx : ectx) (me cl sv : task) (rhooks : runner_meta -> run_context -> run_context) (conf : runner_meta -> run_context -> xconf) (st0 : step).
Notation ks := (kstep cx me cl sv rhooks conf).
Notation kx := (kexec cx me cl sv rhooks conf).
Notation hist := (khist cx me cl sv rhooks conf st0).

(** A transition concerns the engine, client and transport, or leaves them alone. *)
Lemma kstep_dstep s op s' o : ks s op = Some (s', o) ->
  (outward s op = [] /\ k_d s' = k_d s /\ k_events o = []) \/ (exists d, outward s op = [d] /\ dstep cx me cl (k_d s) d = Some (k_d s', k_events o)).
Proof.
  intros E. apply kstep_trans in E. inv E; cbn [outward k_d]; rewrite ?kev_obs, ?kev_eff; eauto.
  - left. rewrite H. cbn [wk_fwd]. destruct (posting s); auto.
  - left. rewrite H. cbn [wk_fwd]. destruct (posting s); auto.
  - left. rewrite H. cbn [wk_fwd]. destruct (posting s); auto.
  - right. rewrite H, H0. cbn [wk_fwd]. exists (DRemote i). split; [|exact H2]. destruct H1 as [(l & -> & -> & _)|(r & -> & -> & _)]; reflexivity.
  - left. rewrite H, H0. auto.
Qed.
Lemma kexec_app a : forall s b s1 o1, kx s a = Some (s1, o1) -> kx s (a ++ b) = match kx s1 b with Some (s2, o2) => Some (s2, o1 ++ o2) | None => None end.
Proof.
  induction a as [|op a IH]; intros s b s1 o1 E; cbn [kexec app] in *; [injection E as <- <-; destruct (kx s b) as [[s2 o2]|]; reflexivity|].
  destruct (ks s op) as [[s2 o2]|]; [|discriminate]. destruct (kx s2 a) as [[s3 o3]|] eqn:E3; [|discriminate]. injection E as <- <-. rewrite (IH _ b _ _ E3).
  destruct (kx s3 b) as [[s4 o4]|]; [|reflexivity]. rewrite app_assoc. reflexivity.
Qed.
Lemma kexec_hist more : forall ops s tr dops gs ins s' o, hist ops s tr dops gs ins -> kx s more = Some (s', o) -> exists dops' gs' ins', hist (ops ++ more) s' (tr ++ o) dops' gs' ins'.
Proof.
  induction more as [|op more IH]; intros ops s tr dops gs ins s' o H E; cbn [kexec] in E; [injection E as <- <-; rewrite !app_nil_r; eauto|].
  destruct (ks s op) as [[s2 o2]|] eqn:E2; [|discriminate]. destruct (kx s2 more) as [[s3 o3]|] eqn:E3; [|discriminate]. injection E as <- <-.
  replace (ops ++ op :: more) with ((ops ++ [op]) ++ more) by (rewrite <- app_assoc; reflexivity). rewrite app_assoc. eapply IH; [|exact E3]. eapply khist_step; eassumption.
Qed.

Section P.
Variable P : kop -> Prop.
Variable Q : step_phase -> Prop.
Definition kleads (s : kstate) : Prop := exists more s' o, Forall P more /\ kx s more = Some (s', o) /\ Q (ds_step (k_d s')).
Lemma kleads_after s op s1 o1 : ks s op = Some (s1, o1) -> P op -> kleads s1 -> kleads s.
Proof. intros E Hp (more & s' & o & Hm & X & D). exists (op :: more), s', (o1 ++ o). split; [constructor; assumption|]. split; [cbn [kexec]; rewrite E, X; reflexivity|exact D]. Qed.
Lemma lift_common more : forall s d' o, Forall (fun d => common d = true /\ d <> DRemote (RiAnswer None)) more -> dexec cx me cl (k_d s) more = Some (d', o) ->
  kx s (map KFlow more) = Some (KState d' (k_ctx s) (k_w s) (k_lost s), map KObs o).
Proof.
  induction more as [|d more IH]; intros s d' o Hc E; cbn [dexec map kexec] in *; [injection E as <- <-; destruct s; reflexivity|]. inv Hc.
  destruct (dstep cx me cl (k_d s) d) as [[d1 o1]|] eqn:E1; [|discriminate]. destruct (dexec cx me cl d1 more) as [[d2 o2]|] eqn:E2; [|discriminate]. injection E as <- <-.
  assert (K : ks s (KFlow d) = Some (KState d1 (k_ctx s) (k_w s) (k_lost s), map KObs o1)).
  { destruct H1 as [C N]. destruct d as [|?|[[]| | | | | | |]| |]; try discriminate C; try congruence; cbn [kstep]; unfold kflow; rewrite E1; reflexivity. }
  rewrite K. rewrite (IH (KState d1 (k_ctx s) (k_w s) (k_lost s)) _ _ H2 E2). rewrite map_app. reflexivity.
Qed.
Lemma plain_common d : plain d -> common d = true /\ d <> DRemote (RiAnswer None).
Proof. intros [-> | [-> | [-> | [-> | [-> | ->]]]]]; split; try reflexivity; discriminate. Qed.
Lemma kleads_brings s rr : (forall d, plain d -> P (KFlow d)) -> (forall r, mirrors rr r -> Q (SpDone r)) -> brings cx me cl (k_d s) rr -> kleads s.
Proof.
  intros HP HQ (more & d' & o & r & Hd & X & D & M).
  assert (L := lift_common more s d' o). eexists (map KFlow more), _, _. split; [|split; [apply L; [|exact X]|cbn; rewrite D; apply HQ; exact M]].
  - apply Forall_forall. intros x Hx. apply in_map_iff in Hx as (d & <- & Hx). apply HP. eapply Forall_forall; eassumption.
  - eapply Forall_impl; [|exact Hd]. apply plain_common.
Qed.
End P.

(** ** Once the executor has decided *)
Section Dec.
Variable P : kop -> Prop.
Variable rr : run_result.
Hypothesis HP : forall op, settling op -> P op.
Definition kbrings : kstate -> Prop := kleads P (fun p => exists r, p = SpDone r /\ mirrors rr r).
Definition todo (H : list stream_op) (f : fphase) : nat :=
  let u := length (sent H) - length (got H) in match f with FNext => 2 * u + 2 | FSend _ => 2 * u + 3 | FResult _ => 1 | FDone => 0 end.
Lemma remote_task d r : the_remote d = Some r -> exists sg pd, ds_task d = Some (DTask (Some r) sg pd).
Proof. unfold the_remote. destruct (ds_task d) as [[r0 sg pd]|]; [|discriminate]. cbn. intros ->. eauto. Qed.
Lemma relay_all n : forall ops s tr dops gs ins w r H q, hist ops s tr dops gs ins -> k_w s = Some w -> xs_result (wk_x w) = Some rr -> wk_pend w = [] -> the_remote (k_d s) = Some r -> r_client r = RLoop ->
  wk_str w = stream_after H -> unpolled H ++ wk_pend w = flat_map worker_ops (k_effects tr) -> fwd_state H (wk_fwd w) q -> relay r q (wk_fwd w) (server_sent (remote_events dops)) -> todo H (wk_fwd w) <= n -> kbrings s.
Proof.
  induction n as [n IH] using (well_founded_induction Wf_nat.lt_wf). intros ops s tr dops gs ins w r H q Hh W Hx Hp Hr Hc Hs He Hf Hrl Hn.
  assert (Hk := Hh). apply khist_inv in Hk as [Hd _ _ _ Hw _]. destruct (Hw w W) as (X & _). destruct (remote_task _ _ Hr) as (sg & pd & Ht).
  assert (Hres : ss_result (stream_after H) = Some rr) by (rewrite Hp, app_nil_r in He; eapply committed_conv; eassumption).
  assert (Hsv : r_server r <> SvIdle) by (intros C; unfold relay in Hrl; rewrite C in Hrl; destruct Hrl as (_ & [Z|(Z & _)]); congruence).
  assert (Hrun : wk_fwd w <> FDone -> r_server r = SvRunning) by (intros C; unfold relay in Hrl; destruct (r_server r); [congruence|reflexivity|destruct Hrl as (_ & Z & _); congruence]).
  destruct w as [c x pend str f b]. cbn [wk_conf wk_x wk_pend wk_str wk_fwd wk_listed] in *. subst pend str.
  assert (Pf : forall f', f' <> FDone -> forall q', q' = q -> f <> FDone -> relay r q' f' (server_sent (remote_events dops))).
  { intros f' Hf' q' -> Hfd. unfold relay in *. rewrite (Hrun Hfd) in *. destruct Hrl as (Z1 & Z2 & Z3). auto. }
  destruct f as [|l|r0|].
  - (* read *)
    destruct (stream_poll sv (stream_after H)) as [[str' p] wk] eqn:Po. destruct p as [l| |].
    + destruct (poll_item sv _ _ _ _ Po) as [G1 G2].
      assert (E1 : ks s KForward = Some (KState (k_d s) (k_ctx s) (Some (Worker c x [] str' (FSend l) b)) (k_lost s), [])) by (cbn [kstep]; rewrite W; cbn [wk_fwd wk_str wk_conf wk_x wk_pend wk_listed]; rewrite Po; reflexivity).
      eapply kleads_after; [exact E1|apply HP; exact Logic.I|]. assert (H1 := khist_step _ _ _ _ _ _ _ _ _ _ _ _ _ _ _ _ Hh E1).
      assert (Ho : outward s KForward = []) by (cbn [outward]; rewrite W; cbn [wk_fwd]; destruct (posting s); reflexivity).
      eapply (IH (todo (H ++ [SPoll sv]) (FSend l))); [| exact H1|reflexivity|exact Hx|reflexivity|exact Hr|exact Hc|exact G1| | | |reflexivity].
      * destruct (poll_outcome H sv) as (P1 & _ & _). destruct (P1 l) as [P2 _]. unfold stream_output in P2. cbn [stream_step snd] in P2. rewrite Po in P2. destruct (P2 eq_refl) as [rest Hrest].
        unfold todo in *. rewrite G2, sent_app, Hrest. cbn [sent]. rewrite !app_length. rewrite Hrest in Hn. rewrite !app_length in Hn. cbn [length] in *. lia.
      * rewrite unpolled_poll, (app_nil_r tr). exact He.
      * cbn [wk_fwd fwd_state] in *. exists (got H). split; [exact G2|exact Hf].
      * rewrite Ho, app_nil_r. apply Pf; [discriminate|reflexivity|discriminate].
    + destruct (poll_other sv _ _ _ _ Po) as (G1 & G2 & G3 & G4); [discriminate|].
      assert (E1 : ks s KForward = Some (KState (k_d s) (k_ctx s) (Some (Worker c x [] str' (FResult rr) b)) (k_lost s), [])) by (cbn [kstep]; rewrite W; cbn [wk_fwd wk_str wk_conf wk_x wk_pend wk_listed]; rewrite Po, Hres; reflexivity).
      eapply kleads_after; [exact E1|apply HP; exact Logic.I|]. assert (H1 := khist_step _ _ _ _ _ _ _ _ _ _ _ _ _ _ _ _ Hh E1).
      assert (Ho : outward s KForward = []) by (cbn [outward]; rewrite W; cbn [wk_fwd]; destruct (posting s); reflexivity).
      eapply (IH (todo (H ++ [SPoll sv]) (FResult rr))); [| exact H1|reflexivity|exact Hx|reflexivity|exact Hr|exact Hc|exact G1| | | |reflexivity].
      * unfold todo in *. lia.
      * rewrite unpolled_poll, (app_nil_r tr). exact He.
      * cbn [wk_fwd fwd_state] in *. rewrite G2, G4, result_poll. split; [exact Hf|]. split; [exact G3|exact Hres].
      * rewrite Ho, app_nil_r. apply Pf; [discriminate|reflexivity|discriminate].
    + exfalso. unfold stream_poll in Po. rewrite Hres in Po. destruct (nth_error _ _); discriminate Po.
  - (* send a line *)
    destruct Hf as (g & Hg & ->). assert (Hsr : r_server r = SvRunning) by (apply Hrun; discriminate). set (r' := Remote (r_client r) SvRunning (r_wire r ++ [RspLog l]) (r_effs r) (r_sent r)).
    assert (E1 : exists d', the_remote d' = Some r' /\ ks s KForward = Some (KState d' (k_ctx s) (Some (Worker c x [] (stream_after H) FNext b)) (k_lost s), [])).
    { cbn [kstep]. rewrite W. cbn [wk_fwd]. unfold kpost. rewrite posting_eq, Hr, Hsr. unfold kflow. cbn [dstep]. rewrite Ht. cbn [client_side andb remote_step]. rewrite Hsr. eexists. split; [|reflexivity]. reflexivity. }
    destruct E1 as (d' & Hd' & E1). eapply kleads_after; [exact E1|apply HP; exact Logic.I|]. assert (H1 := khist_step _ _ _ _ _ _ _ _ _ _ _ _ _ _ _ _ Hh E1).
    assert (Ho : outward s KForward = [DRemote (RiLog l)]) by (cbn [outward]; rewrite W, posting_eq, Hr, Hsr; reflexivity).
    eapply (IH (todo H FNext)); [| exact H1|reflexivity|exact Hx|reflexivity|exact Hd'|exact Hc|reflexivity| | | |reflexivity].
    + unfold todo in *. lia.
    + rewrite (app_nil_r tr). exact He.
    + reflexivity.
    + rewrite Ho, events_app. cbn [remote_events flat_map app]. rewrite server_sent_snoc. unfold relay in *. rewrite Hsr in Hrl. destruct Hrl as (-> & _ & Z). cbn. rewrite Hg, map_app. split; [reflexivity|]. split; [discriminate|exact Z].
  - (* send the result *)
    destruct Hf as (-> & Hg & Hr0). assert (Hsr : r_server r = SvRunning) by (apply Hrun; discriminate). set (r' := Remote (r_client r) SvDone (r_wire r ++ [RspResult r0]) (r_effs r) (r_sent r)).
    assert (E1 : exists d', the_remote d' = Some r' /\ ks s KForward = Some (KState d' (k_ctx s) (Some (Worker c x [] (stream_after H) FDone b)) (k_lost s), [])).
    { cbn [kstep]. rewrite W. cbn [wk_fwd]. unfold kpost. rewrite posting_eq, Hr, Hsr. unfold kflow. cbn [dstep]. rewrite Ht. cbn [client_side andb remote_step]. rewrite Hsr. eexists. split; [|reflexivity]. reflexivity. }
    destruct E1 as (d' & Hd' & E1). eapply kleads_after; [exact E1|apply HP; exact Logic.I|]. assert (H1 := khist_step _ _ _ _ _ _ _ _ _ _ _ _ _ _ _ _ Hh E1).
    assert (Ho : outward s KForward = [DRemote (RiResult r0)]) by (cbn [outward]; rewrite W, posting_eq, Hr, Hsr; reflexivity).
    eapply (IH (todo H FDone)); [| exact H1|reflexivity|exact Hx|reflexivity|exact Hd'|exact Hc|reflexivity| | | |reflexivity].
    + unfold todo in *. lia.
    + rewrite (app_nil_r tr). exact He.
    + cbn [wk_fwd fwd_state]. exists r0. eauto.
    + rewrite Ho, events_app. cbn [remote_events flat_map app]. rewrite server_sent_snoc. unfold relay in *. rewrite Hsr in Hrl. destruct Hrl as (-> & _ & Z). cbn. auto.
  - (* the engine gets it *)
    assert (Hsd : r_server r = SvDone) by (unfold relay in Hrl; destruct (r_server r); [congruence|destruct Hrl as (_ & Z & _); congruence|reflexivity]).
    destruct Hf as (r0 & -> & Hg & Hr0). unfold relay in Hrl. rewrite Hsd in Hrl. destruct Hrl as (Hss & _).
    assert (B := wire_arrives cx me cl st0 _ _ _ _ _ _ _ _ Hd Ht Hc Hsd eq_refl). rewrite Hss, result_of_map in B. assert (r0 = rr) by congruence. subst r0.
    eapply kleads_brings; [|intros r1 M; exists r1; split; [reflexivity|exact M]|exact B]. intros d Hpd. apply HP. right. exact Hpd.
Qed.
Lemma drain_worker n : forall ops s tr dops gs ins w r, hist ops s tr dops gs ins -> k_w s = Some w -> xs_result (wk_x w) = Some rr -> length (wk_pend w) = n -> the_remote (k_d s) = Some r -> r_client r = RLoop -> kbrings s.
Proof.
  induction n as [|n IH]; intros ops s tr dops gs ins w r H W Hx Hn Hr Hc.
  - assert (K := H). apply khist_inv in K as [_ _ _ _ Hw _]. destruct (Hw w W) as (X & _ & r1 & Hh & q & Q1 & Q2 & Q3 & Q4 & Q5). rewrite Hr in Q1. injection Q1 as <-.
    eapply relay_all; try eassumption; [destruct (wk_pend w); [reflexivity|discriminate]|reflexivity].
  - destruct w as [c x [|o pd] str f b]; [discriminate|]. cbn in *.
    assert (E1 : ks s KSender = Some (KState (k_d s) (k_ctx s) (Some (Worker c x pd (fst (stream_step str o)) f b)) (k_lost s), [])) by (cbn [kstep]; rewrite W; reflexivity).
    eapply kleads_after; [exact E1|apply HP; exact Logic.I|]. eapply IH; [eapply khist_step; [exact H|exact E1]|reflexivity|exact Hx|cbn; lia|exact Hr|exact Hc].
Qed.
Lemma decided_call n : forall ops s tr dops gs ins w r sg pd, hist ops s tr dops gs ins -> k_w s = Some w -> xs_result (wk_x w) = Some rr -> ds_task (k_d s) = Some (DTask (Some r) sg pd) -> length pd = n -> r_client r <> RDone -> kbrings s.
Proof.
  induction n as [|n IH]; intros ops s tr dops gs ins w r sg pd H W Hx Ht Hn Hc.
  - destruct pd; [|discriminate]. destruct (r_client r) eqn:Rc; [| |congruence].
    + set (r' := Remote RLoop SvRunning (r_wire r) (r_effs r ++ []) (r_sent r)).
      assert (E1 : exists d', the_remote d' = Some r' /\ ks s (KFlow (DRemote (RiAnswer None))) = Some (KState d' (k_ctx s) (k_w s) (k_lost s), [])).
      { cbn [kstep]. rewrite W. unfold kflow. cbn [dstep]. rewrite Ht. cbn [client_side andb remote_step]. unfold client_gets. rewrite Rc. cbn [client_step]. eexists. split; [|reflexivity]. reflexivity. }
      destruct E1 as (d' & Hd' & E1). eapply kleads_after; [exact E1|apply HP; left; reflexivity|]. eapply drain_worker; [eapply khist_step; [exact H|exact E1]|exact W|exact Hx|reflexivity|exact Hd'|reflexivity].
    + eapply drain_worker; try eassumption; [reflexivity|]. unfold the_remote. rewrite Ht. reflexivity.
  - destruct pd as [|o pd]; [discriminate|]. set (d' := DState (ds_sh (k_d s)) (at_engine cx me (k_d s) o) (Some (DTask (Some r) sg pd))).
    assert (E1 : ks s (KFlow DSender) = Some (KState d' (k_ctx s) (k_w s) (k_lost s), [])) by (cbn [kstep]; unfold kflow; cbn [dstep]; rewrite Ht; reflexivity).
    eapply kleads_after; [exact E1|apply HP; right; left; reflexivity|]. eapply IH; [eapply khist_step; [exact H|exact E1]|exact W|exact Hx|reflexivity|cbn in Hn; lia|exact Hc].
Qed.
End Dec.

(** ** From wherever the step is *)
Lemma no_remote_stays s op s' ob : dstep cx me cl s op = Some (s', ob) -> the_remote s = None ->
  the_remote s' = None \/ exists clients pick srv, op = DPick clients pick /\ client_start clients pick = Some (inr srv).
Proof.
  intros E N. destruct op as [o|clients pick|i| |e]; cbn [dstep] in E.
  - left. assert (D : dengine cx me s o = Some (s', ob)).
    { destruct o as [|c'|[]| | | |x]; try discriminate E; try exact E. destruct (ds_task s) as [[[r|] sg [|]]|]; try discriminate E; exact E. }
    unfold dengine in D. destruct (step_step _ _ _ _ _) as [[[sh' p'] ob']|]; [|discriminate]. injection D as <- <-. unfold the_remote in *. cbn [ds_task].
    destruct (ds_task s) as [[r sg pd]|]; [|reflexivity]. cbn [option_map dt_remote share] in *. destruct p'; exact N.
  - destruct (ds_step s); try discriminate E. destruct (ds_task s); try discriminate E. destruct (client_start clients pick) as [[effs|srv]|] eqn:C; try discriminate E.
    + injection E as <- <-. left. reflexivity.
    + right. eauto.
  - unfold the_remote in N. destruct (ds_task s) as [[[r|] sg pd]|]; try discriminate E. discriminate N.
  - unfold the_remote in *. destruct (ds_task s) as [[r sg [|x rest]]|]; try discriminate E. injection E as <- <-. left. exact N.
  - injection E as <- <-. left. exact N.
Qed.
Lemma ctx_known ops s tr dops gs ins : hist ops s tr dops gs ins -> the_remote (k_d s) <> None -> k_ctx s <> None.
Proof.
  induction 1 as [sh|ops s tr dops gs ins op s' o R IH E]; [cbn; congruence|]. intros T. apply kstep_trans in E.
  inv E; cbn [k_d k_ctx] in *; try (apply IH; exact T).
  - apply IH. intros N. match goal with E : dstep _ _ _ _ _ = _ |- _ => destruct (no_remote_stays _ _ _ _ E N) as [N'|(? & ? & ? & -> & _)] end; [exact (T N')|discriminate].
  - match goal with E : dstep _ _ _ _ _ = _ |- _ => rename E into Es end. cbn [dstep] in Es. destruct (ds_step (k_d s)); try discriminate Es. destruct (ds_task (k_d s)); try discriminate Es.
    destruct (client_start clients pick) as [[effs|srv]|]; try discriminate Es; [|discriminate]. injection Es as <- <-. exfalso. apply T. reflexivity.
  - apply IH. intros N. match goal with E : dstep _ _ _ _ _ = _ |- _ => destruct (no_remote_stays _ _ _ _ E N) as [N'|(? & ? & ? & [=] & _)] end. exact (T N').
  - apply IH. intros N. match goal with E : dstep _ _ _ _ _ = _ |- _ => destruct (no_remote_stays _ _ _ _ E N) as [N'|(? & ? & ? & [=] & _)] end. exact (T N').
  - apply IH. intros N. match goal with E : dstep _ _ _ _ _ = _ |- _ => destruct (no_remote_stays _ _ _ _ E N) as [N'|(? & ? & ? & [=] & _)] end. exact (T N').
Qed.
Section Ends.
Variable c : exec_context unit.
Variables (clients : map_ string runner_meta) (pick : option runner_meta) (code : option Z).
Hypothesis Hpick : client_start clients pick <> None.
Notation P := (plain_worker c clients pick code).
Lemma settling_plain op : settling op -> P op.
Proof. destruct op as [d| | | | | |]; cbn; try tauto. intros [-> | [-> | [-> | [-> | [-> | [-> | ->]]]]]]; cbn; auto. Qed.
Definition kcan : kstate -> Prop := kleads P over.
Lemma kcan_brings s rr : kbrings P rr s -> kcan s.
Proof. intros (more & s' & o & Hm & X & r & D & _). exists more, s', o. split; [exact Hm|]. split; [exact X|]. left. eauto. Qed.
Lemma kcan_dbrings s rr : brings cx me cl (k_d s) rr -> kcan s.
Proof. apply kleads_brings; [intros d Hd; apply settling_plain; right; exact Hd|]. intros r _. left. eauto. Qed.
Lemma executor_ends n : forall m ops s tr dops gs ins w r, hist ops s tr dops gs ins -> k_w s = Some w -> rank (xs_phase (wk_x w)) <= n -> length (wk_pend w) = m -> the_remote (k_d s) = Some r -> r_client r <> RDone -> kcan s.
Proof.
  induction n as [n IHn] using (well_founded_induction Wf_nat.lt_wf). induction m as [|m IHm]; intros ops s tr dops gs ins w r H W Hn Hm Hr Hc.
  - destruct (xs_result (wk_x w)) as [rr|] eqn:Er.
    { destruct (remote_task _ _ Hr) as (sg & pd & Ht). eapply kcan_brings, decided_call; [apply settling_plain|exact H|exact W|exact Er|exact Ht|reflexivity|exact Hc]. }
    destruct w as [cf x pd str f b]. cbn in *. destruct pd; [|discriminate]. assert (K := H). apply khist_inv in K as [_ _ _ _ Hw _]. destruct (Hw _ W) as (X & _). cbn in X.
    destruct (task_moves code _ _ _ _ X Er) as (x' & o & E & Hlt).
    assert (Hi : forall g, next_input code (xs_phase x) <> XISignal g) by (intros g; destruct (xs_phase x) as [| | |[]| | | | |]; discriminate).
    assert (E1 : ks s (KExec (next_input code (xs_phase x))) = Some (KState (k_d s) (k_ctx s) (Some (Worker cf x' (flat_map worker_ops o) str f b)) (k_lost s), map KEff o)).
    { cbn [kstep]. rewrite W, E. destruct (next_input code (xs_phase x)) eqn:En; try reflexivity. exfalso; eapply Hi; reflexivity. }
    eapply kleads_after; [exact E1| |].
    + cbn. destruct (xs_phase x) as [| | |[]| | | | |]; cbn; auto 6.
    + eapply (IHn (rank (xs_phase x'))); [lia|eapply khist_step; [exact H|exact E1]|reflexivity|cbn; lia|reflexivity|exact Hr|exact Hc].
  - destruct w as [cf x [|o pd] str f b]; [discriminate|]. cbn in *.
    assert (E1 : ks s KSender = Some (KState (k_d s) (k_ctx s) (Some (Worker cf x pd (fst (stream_step str o)) f b)) (k_lost s), [])) by (cbn [kstep]; rewrite W; reflexivity).
    eapply kleads_after; [exact E1|exact Logic.I|]. eapply IHm; [eapply khist_step; [exact H|exact E1]|reflexivity|exact Hn|cbn; lia|exact Hr|exact Hc].
Qed.
Lemma called_ends ops s tr dops gs ins t : hist ops s tr dops gs ins -> ds_task (k_d s) = Some t -> kcan s.
Proof.
  intros H T. assert (K := H). apply khist_inv in K as [Hd _ _ _ _ _]. destruct t as [[r|] sg pd].
  - destruct (rphase_eq_done r) as [Hdn|Hdn].
    + eapply kcan_dbrings, (calls_complete cx me cl st0); [exact Hd|exact T|reflexivity|]. rewrite T. cbn [task_effs].
      destruct (dhist_inv _ _ _ _ _ _ _ _ Hd) as [_ _ _ _ Ht]. destruct (Ht _ T) as (_ & _ & _ & _ & Kr). destruct Kr as (Kr & _). apply remote_result_eq; [exact Kr|auto].
    + assert (Hr : the_remote (k_d s) = Some r) by (unfold the_remote; rewrite T; reflexivity).
      destruct (k_w s) as [w|] eqn:W; [eapply executor_ends; [exact H|exact W|reflexivity|reflexivity|exact Hr|exact Hdn]|].
      destruct (k_ctx s) as [[rc srv]|] eqn:C; [|exfalso; eapply ctx_known; [exact H| |exact C]; congruence].
      assert (E1 : exists w', ks s KArrive = Some (KState (k_d s) (k_ctx s) (Some w') (k_lost s), [])) by (cbn [kstep]; rewrite T, C, W; eexists; reflexivity).
      destruct E1 as (w' & E1). eapply kleads_after; [exact E1|exact Logic.I|]. eapply executor_ends; [eapply khist_step; [exact H|exact E1]|reflexivity|reflexivity|reflexivity|exact Hr|exact Hdn].
  - eapply kcan_dbrings, (calls_complete cx me cl st0); [exact Hd|exact T|reflexivity|]. rewrite T. reflexivity.
Qed.
Lemma worker_ends_from n : forall ops s tr dops gs ins, hist ops s tr dops gs ins -> early_rank (ds_step (k_d s)) <= n -> kcan s.
Proof.
  induction n as [n IH] using (well_founded_induction Wf_nat.lt_wf). intros ops s tr dops gs ins H Hn.
  destruct (ds_task (k_d s)) as [t|] eqn:T; [eapply called_ends; [exact H|exact T]|]. assert (K := H). apply khist_inv in K as [Hd _ _ _ _ _].
  destruct (dhist_inv _ _ _ _ _ _ _ _ Hd) as [_ Hnone _ _ _]. destruct (Hnone T) as (_ & _ & Hp). clear Hnone.
  assert (Go : forall o sh' p' ob, (o = OpNext \/ o = OpBefore c) -> step_step cx me (ds_sh (k_d s)) (ds_step (k_d s)) o = Some (sh', p', ob) -> early_rank p' < early_rank (ds_step (k_d s)) -> kcan s).
  { intros o sh' p' ob Ho E Hlt.
    assert (E1 : ks s (KFlow (DEngine o)) = Some (KState (DState sh' p' None) (k_ctx s) (k_w s) (k_lost s), map KObs ob)) by (cbn [kstep]; unfold kflow; cbn [dstep]; destruct Ho as [-> | ->]; unfold dengine; rewrite E, T; reflexivity).
    eapply kleads_after; [exact E1|destruct Ho as [-> | ->]; cbn; auto|]. eapply (IH (early_rank p')); [lia|eapply khist_step; [exact H|exact E1]|reflexivity]. }
  destruct s as [[sh p tk] ctx w lost]. cbn [k_d ds_step ds_sh ds_task] in *. subst tk. destruct Hp as [Hp|Hp]; destruct p; try discriminate Hp.
  - eapply (Go (OpBefore c)); [auto|reflexivity|cbn; lia].
  - eapply (Go OpNext); [auto|reflexivity|cbn; lia].
  - eapply (Go OpNext); [auto|reflexivity|cbn; lia].
  - eapply (Go OpNext); [auto|reflexivity|cbn; lia].
  - destruct (lookup (step_id_job_id (st_id st)) (sm_reg (sh_sm sh))) as [a|] eqn:El.
    + eapply (Go OpNext); [auto|cbn [step_step]; rewrite El; reflexivity|cbn; lia].
    + exists [KFlow (DEngine OpNext)]. do 2 eexists. split; [constructor; [exact Logic.I|constructor]|]. cbn [kexec kstep]. unfold kflow. cbn [k_d dstep]. unfold dengine. cbn [ds_sh ds_step ds_task step_step]. rewrite El. split; [reflexivity|]. right. eexists. reflexivity.
  - eapply (Go OpNext); [auto|reflexivity|cbn; lia].
  - eexists [], _, []. split; [constructor|]. split; [reflexivity|]. right. eexists; reflexivity.
  - assert (E1 : exists s1 o1 t, ks (KState (DState sh (SpCalling st t0 a sg str) None) ctx w lost) (KFlow (DPick clients pick)) = Some (s1, o1) /\ ds_task (k_d s1) = Some t).
    { cbn [kstep k_d dstep ds_step ds_task]. destruct (client_start clients pick) as [[effs|m]|]; [| |congruence]; do 3 eexists; split; reflexivity. }
    destruct E1 as (s1 & o1 & t & E1 & T1). eapply kleads_after; [exact E1|cbn; auto|]. eapply called_ends; [eapply khist_step; [exact H|exact E1]|exact T1].
Qed.
End Ends.
End Live.
