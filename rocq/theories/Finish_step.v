From Verif Require Import Base Types Signals_model Signals_proof Stream_model Stream_spec Stream_proof Cond_model
  Plugins_model Plugins_spec Plugins_proof Exec_model Exec_spec Step_proof Job_proof Workflow_model Workflow_spec
  Runner_model Runner_spec Runner_proof Local_model Local_spec Local_proof Local_live System_model System_spec System_proof System_inst Finish_spec Finish_proof.

Section L.
Variables (cx : ectx) (me : task) (rhooks : run_context -> run_context) (conf : run_context -> xconf) (st0 : step).
Variable c : exec_context unit.
Variable code : option Z.
Notation lx := (lexec cx me rhooks conf).
Notation ls := (lstep cx me rhooks conf).
Notation hist := (lhist cx me rhooks conf st0).
Notation plainl := (plain_local c code).

Definition over (p : step_phase) : Prop := (exists r, p = SpDone r) \/ exists w, p = SpPanic w.
Definition can_end (s : lstate) : Prop := exists more s' o, Forall plainl more /\ lx s more = Some (s', o) /\ over (lo_step s').
Lemma can_end_after s op s1 o1 : ls s op = Some (s1, o1) -> plainl op -> can_end s1 -> can_end s.
Proof. intros E P (more & s' & o & Hm & X & D). exists (op :: more), s', (o1 ++ o). split; [constructor; assumption|]. split; [cbn [lexec]; rewrite E, X; reflexivity|exact D]. Qed.
Lemma can_end_reaches s rr : reaches cx me rhooks conf s rr -> can_end s.
Proof.
  intros (more & s' & o & r & Hd & X & D & _). exists more, s', o. split; [|split; [exact X|left; eauto]].
  eapply Forall_impl; [|exact Hd]. intros op [-> | [-> | [-> | ->]]]; exact I.
Qed.

(** The task decides. *)
Definition next_input (p : xphase) : xinput :=
  match p with
  | XCheck | XKill _ | XFinish | XAfter | XStop | XSelect (CDone _) => XIGo
  | XMkdir | XWrite | XRemove => XIFs true
  | XSelect CSpawn => XICmd (CISpawn true) | XSelect CRead => XICmd (CIOut RdEof) | XSelect CWait => XICmd (CIExit code)
  end.
Lemma task_moves cf x ins tr : xrun cf ins x tr -> xs_result x = None -> exists x' o, xstep cf x (next_input (xs_phase x)) = Some (x', o) /\ rank (xs_phase x') < rank (xs_phase x).
Proof.
  intros X Hr. assert (P := x_result_phase _ _ _ _ X).
  assert (K : exists x' o, xstep cf x (next_input (xs_phase x)) = Some (x', o)).
  { destruct x as [ph sg res]. cbn [xs_phase xs_result xs_signal] in *. subst res. destruct ph as [| | |[| | |[]]| | | | |]; cbn [next_input xstep xs_phase xs_signal xs_result cmd_step]; try (do 2 eexists; reflexivity); try congruence; contradiction. }
  destruct K as (x' & o & E). exists x', o. split; [exact E|]. eapply xstep_rank; [exact E| |]; destruct (xs_phase x) as [| | |[]| | | | |]; reflexivity.
Qed.
Lemma task_ends n : forall m ops s tr ins t, hist ops s tr ins -> lo_task s = Some t -> rank (xs_phase (lt_x t)) <= n -> length (lt_pending t) = m -> can_end s.
Proof.
  induction n as [n IHn] using (well_founded_induction Wf_nat.lt_wf). induction m as [|m IHm]; intros ops s tr ins t H T Hn Hm.
  - destruct (xs_result (lt_x t)) as [rr|] eqn:Er; [eapply can_end_reaches, result_always_arrives; eassumption|].
    destruct t as [cf x pd]. cbn in *. destruct pd; [|discriminate]. destruct (lhist_inv _ _ _ _ _ _ _ _ _ H) as [_ _ _ _ Ht]. destruct (Ht _ T) as (X & _). cbn in X.
    destruct (task_moves _ _ _ _ X Er) as (x' & o & E & Hlt).
    assert (Hi : forall g, next_input (xs_phase x) <> XISignal g) by (intros g; destruct (xs_phase x) as [| | |[]| | | | |]; discriminate).
    assert (E1 : ls s (LRunner (next_input (xs_phase x))) = Some (LState (lo_sh s) (lo_step s) (Some (LTask cf x' (flat_map sender_ops o))), map LEff o)).
    { cbn [lstep]. rewrite T, E. destruct (next_input (xs_phase x)) eqn:En; try reflexivity. exfalso; eapply Hi; reflexivity. }
    eapply can_end_after; [exact E1| |].
    + cbn. destruct (xs_phase x) as [| | |[]| | | | |]; cbn; auto 6.
    + assert (H1 := lhist_step _ _ _ _ _ _ _ _ _ _ _ _ H E1). eapply (IHn (rank (xs_phase x'))); [lia|exact H1|reflexivity|cbn; lia|reflexivity].
  - destruct t as [cf x [|o rest]]; [discriminate|]. cbn in *.
    assert (E1 : exists s1 o1, ls s LSender = Some (s1, o1) /\ lo_task s1 = Some (LTask cf x rest)).
    { cbn [lstep]. rewrite T. destruct (step_step cx me (lo_sh s) (lo_step s) (OpRunner o)) as [[[sh' p'] out]|]; do 2 eexists; split; reflexivity. }
    destruct E1 as (s1 & o1 & E1 & T1). eapply can_end_after; [exact E1|exact I|].
    assert (H1 := lhist_step _ _ _ _ _ _ _ _ _ _ _ _ H E1). eapply IHm; [exact H1|exact T1|cbn; lia|cbn; lia].
Qed.

Definition early_rank (p : step_phase) : nat :=
  match p with SpBefore _ => 7 | SpStarted _ => 6 | SpRunEvent _ _ => 5 | SpQueue _ _ => 4 | SpGetSignal _ _ => 3 | SpCall _ _ _ => 2 | SpCalling _ _ _ _ _ => 1 | _ => 0 end.
Lemma local_ends n : forall ops s tr ins, hist ops s tr ins -> early_rank (lo_step s) <= n -> can_end s.
Proof.
  induction n as [n IH] using (well_founded_induction Wf_nat.lt_wf). intros ops s tr ins H Hn.
  destruct (lo_task s) as [t|] eqn:T; [eapply task_ends; [exact H|exact T|reflexivity|reflexivity]|].
  destruct (lhist_inv _ _ _ _ _ _ _ _ _ H) as [_ Hnone _ _ _]. destruct (Hnone T) as (_ & _ & Hp). clear Hnone.
  assert (Go : forall o sh' p' ob, (o = OpNext \/ o = OpBefore c) -> step_step cx me (lo_sh s) (lo_step s) o = Some (sh', p', ob) -> early_rank p' < early_rank (lo_step s) -> can_end s).
  { intros o sh' p' ob Ho E Hlt.
    assert (E1 : ls s (LEngine o) = Some (LState sh' p' None, map LObs ob)) by (cbn [lstep]; rewrite T; destruct Ho as [-> | ->]; rewrite E; reflexivity).
    eapply can_end_after; [exact E1|destruct Ho as [-> | ->]; cbn; auto|]. eapply (IH (early_rank p')); [lia|eapply lhist_step; [exact H|exact E1]|reflexivity]. }
  destruct s as [sh p tk]. cbn [lo_step lo_sh lo_task] in *. subst tk. destruct Hp as [Hp|Hp]; destruct p; try discriminate Hp.
  - eapply (Go (OpBefore c)); [auto|reflexivity|cbn; lia].
  - eapply (Go OpNext); [auto|reflexivity|cbn; lia].
  - eapply (Go OpNext); [auto|reflexivity|cbn; lia].
  - eapply (Go OpNext); [auto|reflexivity|cbn; lia].
  - destruct (lookup (step_id_job_id (st_id st)) (sm_reg (sh_sm sh))) as [a|] eqn:El.
    + eapply (Go OpNext); [auto|cbn [step_step]; rewrite El; reflexivity|cbn; lia].
    + exists [LEngine OpNext]. do 2 eexists. split; [constructor; [exact I|constructor]|]. cbn [lexec lstep lo_sh lo_step lo_task step_step]. rewrite El. split; [reflexivity|]. right. eexists. reflexivity.
  - eapply (Go OpNext); [auto|reflexivity|cbn; lia].
  - exists [], (LState sh (SpPanic why) None), []. split; [constructor|]. split; [reflexivity|]. right. eexists; reflexivity.
  - assert (E1 : exists s1 o1 t, ls (LState sh (SpCalling st t0 a sg str) None) LSpawn = Some (s1, o1) /\ lo_task s1 = Some t) by (cbn; do 3 eexists; split; reflexivity).
    destruct E1 as (s1 & o1 & t & E1 & T1). eapply can_end_after; [exact E1|exact I|]. eapply task_ends; [eapply lhist_step; [exact H|exact E1]|exact T1|reflexivity|reflexivity].
Qed.
End L.

Section B.
Variables (cx : ectx) (rhooks : run_context -> run_context) (conf : run_context -> xconf).
Variable c : exec_context unit.
Variable code : option Z.
Notation B := (builtin cx rhooks conf).
Lemma builtin_iexec me more : forall sh p x s' o, Forall (plain_local c code) more -> lexec cx me rhooks conf (LState sh p x) more = Some (s', o) ->
  iexec B me sh p x more = Some (lo_sh s', lo_step s', lo_task s', o).
Proof.
  induction more as [|op more IH]; intros sh p x s' o P E; cbn [lexec] in E; [injection E as <- <-; reflexivity|]. inv P.
  destruct (lstep cx me rhooks conf (LState sh p x) op) as [[[sh1 p1 x1] o1]|] eqn:E1; [|discriminate].
  destruct (lexec cx me rhooks conf (LState sh1 p1 x1) more) as [[s2 o2]|] eqn:E2; [|discriminate]. injection E as <- <-.
  cbn [iexec]. replace (rs_step B me sh p x op) with (Some (sh1, p1, x1, o1)); [rewrite (IH _ _ _ _ _ H2 E2); reflexivity|].
  symmetry. cbn [rs_step builtin]. destruct op; try (rewrite E1; reflexivity). destruct H1.
Qed.
Lemma builtin_ends : ends_steps B (plain_local c code).
Proof.
  intros me st ops sh p x tr H. apply builtin_hist in H. destruct (lrun_hist _ _ _ _ _ _ _ _ H) as [ins Hh].
  destruct (local_ends cx me rhooks conf st c code _ _ _ _ _ Hh (Nat.le_refl _)) as (more & s' & o & Hm & X & D).
  exists more, (lo_sh s'), (lo_step s'), (lo_task s'), o. split; [exact Hm|]. split; [apply builtin_iexec; assumption|exact D].
Qed.
Lemma builtin_tracks : tracks B cx tame_local.
Proof.
  intros me sh p x op sh' p' x' o E0. destruct (builtin_step _ _ _ _ _ _ _ _ _ _ _ _ E0) as [E Hw]. rewrite builtin_events.
  destruct op as [eo| |i| |e]; cbn [lstep lo_sh lo_step lo_task] in E.
  - right. exists eo.
    assert (K : match step_step cx me sh p eo with Some (sh', p', obs) => Some (LState sh' p' (option_map (see_signal p') x), map LObs obs) | None => None end = Some (LState sh' p' x', o)).
    { destruct eo as [|c0|[]| | | |ro]; try discriminate E; try exact E; destruct x; try discriminate E; exact E. }
    destruct (step_step cx me sh p eo) as [[[sh1 p1] obs]|]; [|discriminate K]. injection K as <- <- _ <-. rewrite engine_obs. split; [reflexivity|]. destruct eo; cbn; auto.
  - left. destruct p; try discriminate E. destruct x; [discriminate E|]. injection E as <- <- _ <-. auto.
  - left. assert (K : match x with Some (LTask c x0 []) => match xstep c x0 i with Some (x', o0) => Some (LState sh p (Some (LTask c x' (flat_map sender_ops o0))), map LEff o0) | None => None end | _ => None end = Some (LState sh' p' x', o)).
    { destruct i; try discriminate E; exact E. }
    destruct x as [[c0 x0 [|pd pds]]|]; try discriminate K. destruct (xstep c0 x0 i) as [[x1 o0]|]; [|discriminate K]. injection K as <- <- _ <-. rewrite engine_eff. auto.
  - destruct x as [[c0 x0 [|pd pds]]|]; try discriminate E. destruct (step_step cx me sh p (OpRunner pd)) as [[[sh1 p1] out]|] eqn:Es.
    + injection E as <- <- _ <-. right. exists (OpRunner pd). rewrite Es, (runner_silent _ _ _ _ _ _ _ _ Es). split; [reflexivity|intros _; exact I].
    + injection E as <- <- _ <-. left. auto.
  - destruct (Hw e eq_refl).
Qed.
Lemma plain_tame : keeps_steps c -> forall op, plain_local c code op -> tame_local op.
Proof. intros K op. destruct op as [[]| | | |]; cbn; auto. intros ->. exact K. Qed.
End B.

From Verif Require Import Sched_model Remote_model Remote_spec Remote_proof Distant_model Distant_spec Distant_proof Distant_live.
Section D.
Variables (cx : ectx) (me cl : task) (st0 : step).
Variable c : exec_context unit.
Variables (clients : map_ string runner_meta) (pick : option runner_meta) (rr : run_result).
Hypothesis Hpick : client_start clients pick <> None.
Notation dx := (dexec cx me cl).
Notation ds := (dstep cx me cl).
Notation hist := (dhist cx me cl st0).
Notation plaind := (plain_distant c clients pick rr).

Definition dcan_end (s : dstate) : Prop := exists more s' o, Forall plaind more /\ dx s more = Some (s', o) /\ over (ds_step s').
Lemma dcan_end_after s op s1 o1 : ds s op = Some (s1, o1) -> plaind op -> dcan_end s1 -> dcan_end s.
Proof. intros E P (more & s' & o & Hm & X & D). exists (op :: more), s', (o1 ++ o). split; [constructor; assumption|]. split; [cbn [dexec]; rewrite E, X; reflexivity|exact D]. Qed.
Lemma dcan_end_brings s r : brings cx me cl s r -> dcan_end s.
Proof.
  intros (more & s' & o & r' & Hd & X & D & _). exists more, s', o. split; [|split; [exact X|left; eauto]].
  eapply Forall_impl; [|exact Hd]. intros op [-> | [-> | [-> | [-> | [-> | ->]]]]]; cbn; auto.
Qed.
Lemma loop_server ins st : remote_run ins st -> r_client st = RLoop -> r_server st <> SvIdle.
Proof.
  induction 1 as [|ins st i st' R IH E]; [discriminate|]. intros Hc. destruct i as [[e|]|l|r| | | |e|s [e|]]; cbn [remote_step] in E;
    try (destruct (r_server st); try discriminate E; injection E as <-; discriminate);
    try (destruct (r_wire st); try (destruct (r_server st)); try discriminate E); unfold client_gets in E; destruct (client_step _ _ _) as [[p o]|] eqn:Es; try discriminate E; injection E as <-; cbn in *; subst;
    try discriminate;
    try (apply IH; destruct (r_client st); cbn in Es; try discriminate Es; try reflexivity;
         try (destruct r; discriminate Es)); try (destruct (r_client st); discriminate Es).
Qed.
Lemma flushed n : forall ops s tr gs r sg pd, hist ops s tr gs -> ds_task s = Some (DTask r sg pd) -> length pd = n ->
  (forall ops' s' tr' gs' , hist ops' s' tr' gs' -> ds_task s' = Some (DTask r sg []) -> dcan_end s') -> dcan_end s.
Proof.
  intros ops s tr gs r sg pd H T Hn K. destruct (flush cx me cl st0 n _ _ _ _ _ _ _ H T Hn) as (s' & H' & T' & E). destruct (K _ _ _ _ H' T') as (more & s2 & o & Hm & X & D).
  exists (repeat DSender n ++ more), s2, ([] ++ o). split; [apply Forall_app; split; [apply Forall_forall; intros op Hop; apply repeat_spec in Hop; subst; exact I|exact Hm]|].
  split; [eapply dexec_app; eassumption|exact D].
Qed.
Lemma remote_ends ops s tr gs t : hist ops s tr gs -> ds_task s = Some t -> dcan_end s.
Proof.
  intros H T. destruct t as [[rm|] sg pd].
  2: { eapply dcan_end_brings, (calls_complete cx me cl st0); [exact H|exact T|reflexivity|]. rewrite T. reflexivity. }
  (* the server is done *)
  assert (Done : forall ops s tr gs rm sg pd, hist ops s tr gs -> ds_task s = Some (DTask (Some rm) sg pd) -> r_client rm = RLoop -> r_server rm = SvDone -> dcan_end s).
  { clear. intros ops s tr gs rm sg pd H T Hc Hs. eapply dcan_end_brings, wire_arrives; [exact H|exact T|exact Hc|exact Hs|reflexivity]. }
  assert (Loop : forall ops s tr gs rm sg pd, hist ops s tr gs -> ds_task s = Some (DTask (Some rm) sg pd) -> r_client rm = RLoop -> dcan_end s).
  { clear - Done. intros ops s tr gs rm sg pd H T Hc. destruct (r_server rm) eqn:Hs; [| |eapply Done; eassumption].
    - exfalso. destruct (dhist_inv _ _ _ _ _ _ _ _ H) as [_ _ _ _ Ht]. destruct (Ht _ T) as (_ & _ & _ & _ & K). destruct K as (K & _). exact (loop_server _ _ K Hc Hs).
    - assert (E1 : exists s1 o1 pd1, ds s (DRemote (RiResult rr)) = Some (s1, o1) /\ ds_task s1 = Some (DTask (Some (Remote RLoop SvDone (r_wire rm ++ [RspResult rr]) (r_effs rm) (r_sent rm))) sg pd1)).
      { cbn [dstep]. rewrite T. cbn [client_side andb remote_step]. rewrite Hs, Hc. do 3 eexists. split; reflexivity. }
      destruct E1 as (s1 & o1 & pd1 & E1 & T1). eapply dcan_end_after; [exact E1|cbn; auto|]. eapply Done; [eapply dhist_step; [exact H|exact E1]|exact T1|reflexivity|reflexivity]. }
  eapply flushed; [exact H|exact T|reflexivity|]. clear - Loop. intros ops s tr gs H T. destruct (r_client rm) eqn:Hc; [|eapply Loop; eassumption|].
  - assert (E1 : exists s1 o1 rm1 sg1 pd1, ds s (DRemote (RiAnswer None)) = Some (s1, o1) /\ ds_task s1 = Some (DTask (Some rm1) sg1 pd1) /\ r_client rm1 = RLoop).
    { cbn [dstep]. rewrite T. cbn [client_side andb remote_step]. unfold client_gets. rewrite Hc. cbn [client_step]. do 5 eexists. split; [reflexivity|]. split; reflexivity. }
    destruct E1 as (s1 & o1 & rm1 & sg1 & pd1 & E1 & T1 & Hc1). eapply dcan_end_after; [exact E1|cbn; auto|]. eapply Loop; [eapply dhist_step; [exact H|exact E1]|exact T1|exact Hc1].
  - eapply dcan_end_brings, (calls_complete cx me cl st0); [exact H|exact T|reflexivity|]. rewrite T. cbn [task_effs].
    destruct (dhist_inv _ _ _ _ _ _ _ _ H) as [_ _ _ _ Ht]. destruct (Ht _ T) as (_ & _ & _ & _ & K). destruct K as (K & _). apply remote_result_eq; [exact K|auto].
Qed.
Lemma distant_ends_from n : forall ops s tr gs, hist ops s tr gs -> early_rank (ds_step s) <= n -> dcan_end s.
Proof.
  induction n as [n IH] using (well_founded_induction Wf_nat.lt_wf). intros ops s tr gs H Hn.
  destruct (ds_task s) as [t|] eqn:T; [eapply remote_ends; [exact H|exact T]|].
  destruct (dhist_inv _ _ _ _ _ _ _ _ H) as [_ Hnone _ _ _]. destruct (Hnone T) as (_ & _ & Hp). clear Hnone.
  assert (Go : forall o sh' p' ob, (o = OpNext \/ o = OpBefore c) -> step_step cx me (ds_sh s) (ds_step s) o = Some (sh', p', ob) -> early_rank p' < early_rank (ds_step s) -> dcan_end s).
  { intros o sh' p' ob Ho E Hlt.
    assert (E1 : ds s (DEngine o) = Some (DState sh' p' None, ob)) by (cbn [dstep]; destruct Ho as [-> | ->]; unfold dengine; rewrite E, T; reflexivity).
    eapply dcan_end_after; [exact E1|destruct Ho as [-> | ->]; cbn; auto|]. eapply (IH (early_rank p')); [lia|eapply dhist_step; [exact H|exact E1]|reflexivity]. }
  destruct s as [sh p tk]. cbn [ds_step ds_sh ds_task] in *. subst tk. destruct Hp as [Hp|Hp]; destruct p; try discriminate Hp.
  - eapply (Go (OpBefore c)); [auto|reflexivity|cbn; lia].
  - eapply (Go OpNext); [auto|reflexivity|cbn; lia].
  - eapply (Go OpNext); [auto|reflexivity|cbn; lia].
  - eapply (Go OpNext); [auto|reflexivity|cbn; lia].
  - destruct (lookup (step_id_job_id (st_id st)) (sm_reg (sh_sm sh))) as [a|] eqn:El.
    + eapply (Go OpNext); [auto|cbn [step_step]; rewrite El; reflexivity|cbn; lia].
    + exists [DEngine OpNext]. do 2 eexists. split; [constructor; [exact I|constructor]|]. cbn [dexec dstep]. unfold dengine. cbn [ds_sh ds_step ds_task step_step]. rewrite El. split; [reflexivity|]. right. eexists. reflexivity.
  - eapply (Go OpNext); [auto|reflexivity|cbn; lia].
  - exists [], (DState sh (SpPanic why) None), []. split; [constructor|]. split; [reflexivity|]. right. eexists; reflexivity.
  - assert (E1 : exists s1 o1 t, ds (DState sh (SpCalling st t0 a sg str) None) (DPick clients pick) = Some (s1, o1) /\ ds_task s1 = Some t).
    { cbn [dstep ds_step ds_task]. destruct (client_start clients pick) as [[effs|m]|]; [| |congruence]; do 3 eexists; split; reflexivity. }
    destruct E1 as (s1 & o1 & t & E1 & T1). eapply dcan_end_after; [exact E1|cbn; auto|]. eapply remote_ends; [eapply dhist_step; [exact H|exact E1]|exact T1].
Qed.
End D.

Section E.
Variables (cx : ectx) (cl : task -> task).
Variable c : exec_context unit.
Variables (clients : map_ string runner_meta) (pick : option runner_meta) (rr : run_result).
Notation D := (distant cx cl).
Lemma distant_iexec me more : forall sh p x s' o, Forall (plain_distant c clients pick rr) more -> dexec cx me (cl me) (DState sh p x) more = Some (s', o) ->
  iexec D me sh p x more = Some (ds_sh s', ds_step s', ds_task s', o).
Proof.
  induction more as [|op more IH]; intros sh p x s' o P E; cbn [dexec] in E; [injection E as <- <-; reflexivity|]. inv P.
  destruct (dstep cx me (cl me) (DState sh p x) op) as [[[sh1 p1 x1] o1]|] eqn:E1; [|discriminate].
  destruct (dexec cx me (cl me) (DState sh1 p1 x1) more) as [[s2 o2]|] eqn:E2; [|discriminate]. injection E as <- <-.
  cbn [iexec]. replace (rs_step D me sh p x op) with (Some (sh1, p1, x1, o1)); [rewrite (IH _ _ _ _ _ H2 E2); reflexivity|].
  symmetry. cbn [rs_step distant]. destruct op; try (rewrite E1; reflexivity). destruct H1.
Qed.
Lemma distant_ends : client_start clients pick <> None -> ends_steps D (plain_distant c clients pick rr).
Proof.
  intros Hp me st ops sh p x tr H. apply distant_hist in H as [gs Hh].
  destruct (distant_ends_from cx me (cl me) st c clients pick rr Hp _ _ _ _ _ Hh (Nat.le_refl _)) as (more & s' & o & Hm & X & Dn).
  exists more, (ds_sh s'), (ds_step s'), (ds_task s'), o. split; [exact Hm|]. split; [apply distant_iexec; assumption|exact Dn].
Qed.
Lemma distant_tracks : tracks D cx tame_distant.
Proof.
  intros me sh p x op sh' p' x' o E0. destruct (distant_step _ _ _ _ _ _ _ _ _ _ _ E0) as [E Hw]. rewrite distant_events.
  destruct op as [eo|cs pk|i| |e]; cbn [dstep] in E.
  - right. exists eo. split; [|destruct eo; cbn; auto].
    apply (dengine_faithful cx me sh p x eo (DState sh' p' x') o). destruct eo as [|c0|[]| | | |ro]; try discriminate E; try exact E.
    cbn [ds_task] in E. destruct x as [[[rm|] sg pend]|]; try discriminate E; [exact E|]. destruct pend; [exact E|discriminate E].
  - left. cbn [ds_step ds_task ds_sh] in E. destruct p; try discriminate E. destruct x; [discriminate E|]. destruct (client_start cs pk) as [[effs|?]|]; try discriminate E; injection E as <- <- _ <-; auto.
  - cbn [ds_task ds_sh ds_step] in E. destruct x as [[[rm|] sg pend]|]; try discriminate E. destruct (_ && _); [discriminate E|]. destruct (remote_step rm i) as [r'|]; [|discriminate E].
    assert (Keep : forall t, Some (DState sh p t, @nil obs) = Some (DState sh' p' x', o) -> sh' = sh /\ p' = p /\ o = []) by (intros t [= <- <- _ <-]; auto).
    destruct i; try (left; eapply Keep; exact E).
    destruct (sig_poll (cl me) sg) as [sg' [g'|]]; [|discriminate E]. destruct (eqb _ _); [|discriminate E]. injection E as <- <- _ <-.
    destruct (at_engine_faithful cx me sh p (Some (DTask (Some rm) sg pend)) (RSig (OPoll (cl me)))) as [->|(sh1 & H & ->)]; [left; auto|right].
    exists (OpRunner (RSig (OPoll (cl me)))). split; [exact H|]. intros _. exact Logic.I.
  - cbn [ds_task ds_sh] in E. destruct x as [[rm sg [|ro rest]]|]; try discriminate E. injection E as <- <- _ <-.
    destruct (at_engine_faithful cx me sh p (Some (DTask rm sg (ro :: rest))) ro) as [->|(sh1 & H & ->)]; [left; auto|right].
    exists (OpRunner ro). split; [exact H|]. intros _. exact Logic.I.
  - destruct (Hw e eq_refl).
Qed.
Lemma plain_tame_distant : keeps_steps c -> forall op, plain_distant c clients pick rr op -> tame_distant op.
Proof. intros K op. destruct op as [[]| | | |]; cbn; auto. intros ->. exact K. Qed.
End E.
