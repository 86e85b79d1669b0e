From Verif Require Import Base Types Signals_model Signals_proof Stream_model Stream_spec Stream_proof Cond_model
  Plugins_model Plugins_spec Plugins_proof Exec_model Exec_spec Step_proof Job_proof Workflow_model Workflow_spec
  Runner_model Runner_spec Runner_proof Local_model Local_spec Local_proof Local_live System_model System_spec System_proof System_inst Finish_spec Finish_proof Finish_step Pace_spec Pace_proof.

Definition cost (l : list runner_op) : nat := total (map rop_cost l).
Lemma cost_app a b : cost (a ++ b) = cost a + cost b.
Proof. unfold cost. rewrite map_app, total_app. reflexivity. Qed.

(** ** The built-in runner *)
Definition xr (p : xphase) : nat :=
  match p with
  | XCheck => 23 | XMkdir => 22 | XWrite => 21 | XSelect CSpawn => 20 | XSelect CRead => 19 | XSelect CWait => 12 | XSelect (CDone _) => 9
  | XKill _ => 8 | XRemove => 5 | XFinish => 4 | XAfter => 1 | XStop => 0
  end.
Definition lrx (t : option ltask) : nat := match t with None => 24 | Some t => xr (xs_phase (lt_x t)) + cost (lt_pending t) end.
Lemma see_lrx p t : lrx (option_map (see_signal p) t) = lrx t.
Proof. destruct t as [[c x pd]|]; [|reflexivity]. unfold see_signal. cbn [option_map]. destruct (phase_signal p); reflexivity. Qed.
Lemma end_cost r res : cost (flat_map sender_ops (snd (x_end r res))) <= 2.
Proof. unfold x_end. destruct res; cbn; lia. Qed.
Lemma xstep_pace c x i x' o : xstep c x i = Some (x', o) -> (forall g, i <> XISignal g) ->
  xr (xs_phase x') + cost (flat_map sender_ops o) <= xr (xs_phase x) + (match i with XICmd (CIOut (RdLine _)) | XICmd (CIErr (RdLine _)) => 6 | _ => 0 end) /\
  (match i with XICmd (CIOut (RdLine _)) | XICmd (CIErr (RdLine _)) => True | _ => xr (xs_phase x') + cost (flat_map sender_ops o) < xr (xs_phase x) end).
Proof.
  intros E Hs. destruct x as [ph sg res]. unfold xstep in E. cbn [xs_phase xs_signal xs_result] in *.
  destruct i as [|ok|ci|g|]; [| | |destruct (Hs g eq_refl)|].
  - destruct ph as [| | |[| | |[]]|s| | | |]; try discriminate E.
    + injection E as <- <-. destruct sg; cbn; lia.
    + assert (U := end_cost (signal_result s) res). destruct (x_end (signal_result s) res) as [res' oo]. injection E as <- <-. cbn [xs_phase xr flat_map sender_ops app snd] in *. lia.
    + assert (U := end_cost (RFailed 1) res). destruct (x_end (RFailed 1) res) as [res' oo]. injection E as <- <-. cbn [xs_phase xr snd] in *. lia.
    + injection E as <- <-. cbn. lia.
  - destruct ph as [| | |[| | |[]]|s| | | |]; try discriminate E.
    + destruct ok; injection E as <- <-; [destruct (xc_host c)|]; cbn; lia.
    + destruct ok; injection E as <- <-; cbn; lia.
    + destruct ok; injection E as <- <-; cbn; lia.
  - destruct ph as [| | |p|s| | | |]; try discriminate E.
    destruct p as [| | |[]], ci as [ok|[l| |m]|[l| |m]|code|]; try discriminate E; cbn [cmd_step] in E; cbn [x_stream fold_left fst snd app] in E; try destruct ok;
      try (destruct res; cbn [x_end] in E); injection E as <- <-; cbn; lia.
  - destruct ph as [| | |p|s| | | |]; try discriminate E. destruct sg as [s|]; [|discriminate E]. destruct (xc_host c).
    + assert (U := end_cost (signal_result s) res). destruct (x_end (signal_result s) res) as [res' oo]. injection E as <- <-. destruct p as [| | |[]]; cbn [xs_phase xr snd] in *; lia.
    + injection E as <- <-. destruct p as [| | |[]]; cbn; lia.
Qed.
Lemma builtin_paced cx rhooks conf : paced (builtin cx rhooks conf) local_kind lrx 6.
Proof.
  intros me sh p x op sh' p' x' o E0. destruct (builtin_step _ _ _ _ _ _ _ _ _ _ _ _ E0) as [E Hw].
  destruct op as [eo| |i| |e]; cbn [lstep lo_sh lo_step lo_task] in E.
  - assert (K : (forall ro, eo <> OpRunner ro) /\ match step_step cx me sh p eo with Some (sh', p', obs) => Some (LState sh' p' (option_map (see_signal p') x), map LObs obs) | None => None end = Some (LState sh' p' x', o)).
    { destruct eo as [|c0|[]| | | |ro]; try discriminate E; (split; [discriminate|]); try exact E; destruct x; try discriminate E; exact E. }
    destruct K as [Hn K]. destruct (step_step cx me sh p eo) as [[[sh1 p1] obs]|] eqn:Es; [|discriminate K]. injection K as <- <- <- <-. rewrite see_lrx.
    apply step_prank in Es. cbn [local_kind]. destruct eo as [|c0|b| | | |ro]; try (destruct (Hn ro eq_refl)); destruct (engine_kind _ _); lia.
  - destruct p; try discriminate E. destruct x; [discriminate E|]. injection E as <- <- <- _. cbn. lia.
  - assert (K : (forall g, i <> XISignal g) /\ match x with Some (LTask c x0 []) => match xstep c x0 i with Some (x', o0) => Some (LState sh p (Some (LTask c x' (flat_map sender_ops o0))), map LEff o0) | None => None end | _ => None end = Some (LState sh' p' x', o)).
    { destruct i; try discriminate E; (split; [discriminate|exact E]). }
    destruct K as [Hn K]. destruct x as [[c0 x0 [|pd pds]]|]; try discriminate K. destruct (xstep c0 x0 i) as [[x1 o0]|] eqn:Ex; [|discriminate K]. injection K as <- <- <- _.
    destruct (xstep_pace _ _ _ _ _ Ex Hn) as [X1 X2]. cbn [lrx lt_x lt_pending local_kind]. change (cost []) with 0.
    destruct i as [|ok|[ok|[l| |m]|[l| |m]|code|]|g|]; cbn [local_kind] in *; lia.
  - destruct x as [[c0 x0 [|pd pds]]|]; try discriminate E. cbn [local_kind]. change (lrx (Some (LTask c0 x0 (pd :: pds)))) with (xr (xs_phase x0) + (rop_cost pd + cost pds)).
    assert (1 <= rop_cost pd) by (destruct pd; cbn; lia).
    destruct (step_step cx me sh p (OpRunner pd)) as [[[sh1 p1] out]|] eqn:Es.
    + injection E as <- <- <- _. apply step_prank in Es. cbn [lrx lt_x lt_pending]. lia.
    + injection E as <- <- <- _. cbn [lrx lt_x lt_pending]. lia.
  - destruct (Hw e eq_refl).
Qed.

(** ** Remote runners *)
From Verif Require Import Sched_model Remote_model Remote_spec Remote_proof Distant_model Distant_spec Distant_proof Distant_live.
Definition cr (p : rphase) : nat := match p with RCall => 15 | RLoop => 9 | RDone => 0 end.
Definition sr (p : sphase) : nat := match p with SvIdle => 5 | SvRunning => 4 | SvDone => 0 end.
Definition mr (m : response) : nat := match m with RspLog _ => 7 | RspResult _ => 3 end.
Definition remr (r : remote) : nat := cr (r_client r) + sr (r_server r) + total (map mr (r_wire r)).
Definition drx (t : option dtask) : nat :=
  match t with None => 24 | Some t => (match dt_remote t with Some r => remr r | None => 0 end) + cost (dt_pending t) end.
Lemma share_drx p t : drx (option_map (share p) t) = drx t.
Proof. destruct t as [[r sg pd]|]; [|reflexivity]. unfold share. cbn [option_map]. destruct (phase_signal p); reflexivity. Qed.
Definition fresh (r r' : remote) : nat := cost (flat_map calls_of (skipn (length (r_effs r)) (r_effs r'))).
Lemma fresh_app c s w n c' s' w' n' effs o : fresh (Remote c s w effs n) (Remote c' s' w' (effs ++ o) n') = cost (flat_map calls_of o).
Proof. unfold fresh. cbn [r_effs]. rewrite skipn_app, skipn_all, Nat.sub_diag. reflexivity. Qed.
Lemma fresh_same c s w n c' s' w' n' effs : fresh (Remote c s w effs n) (Remote c' s' w' effs n') = 0.
Proof. unfold fresh. cbn [r_effs]. rewrite skipn_all. reflexivity. Qed.
Lemma remote_pace r i r' : remote_step r i = Some r' ->
  match i with
  | RiLog _ => remr r' + fresh r r' <= remr r + 7
  | RiSignal _ None => remr r' + fresh r r' <= remr r
  | _ => remr r' + fresh r r' < remr r
  end.
Proof.
  destruct r as [c s w effs n]. intros E. destruct i as [err|l|rr| | | |e|g err]; cbn [remote_step r_client r_server r_wire r_effs r_sent] in E.
  - unfold client_gets in E. cbn [r_client r_effs] in E. destruct c, err; cbn [client_step] in E; try discriminate E; injection E as <-; rewrite fresh_app; unfold remr; cbn; destruct s; cbn; lia.
  - destruct s; try discriminate E. injection E as <-. rewrite fresh_same. unfold remr. cbn [r_client r_server r_wire cr sr]. rewrite map_app, total_app. cbn. lia.
  - destruct s; try discriminate E. injection E as <-. rewrite fresh_same. unfold remr. cbn [r_client r_server r_wire cr sr]. rewrite map_app, total_app. cbn. lia.
  - destruct s; try discriminate E. injection E as <-. rewrite fresh_same. unfold remr. cbn. lia.
  - destruct w as [|m w]; [discriminate E|]. unfold client_gets in E. cbn [r_client r_effs] in E. destruct c, m as [[[] msg]|rr]; cbn [client_step l_type l_message] in E; try discriminate E; injection E as <-; rewrite fresh_app; unfold remr; cbn; lia.
  - destruct w as [|m w]; [|discriminate E]. destruct s; try discriminate E. unfold client_gets in E. cbn [r_client r_effs] in E. destruct c; cbn [client_step] in E; try discriminate E. injection E as <-. rewrite fresh_app. unfold after_run. destruct (has_end effs); unfold remr; cbn; lia.
  - unfold client_gets in E. cbn [r_client r_effs] in E. destruct c; cbn [client_step] in E; try discriminate E. injection E as <-. rewrite fresh_app. unfold remr; cbn; lia.
  - unfold client_gets in E. cbn [r_client r_effs] in E. destruct c, err; cbn [client_step] in E; try discriminate E; injection E as <-; rewrite fresh_app; unfold after_run; try destruct (has_end effs); unfold remr; cbn; lia.
Qed.
Lemma at_engine_prank cx me s ro : prank (at_engine cx me s ro) < prank (ds_step s) + rop_cost ro \/ (at_engine cx me s ro = ds_step s).
Proof.
  unfold at_engine. destruct (step_step cx me (ds_sh s) (ds_step s) (OpRunner ro)) as [[[sh' p'] o]|] eqn:E; [left|right; reflexivity]. apply step_prank in E. exact E.
Qed.
Lemma sig_prank cx me s so : prank (at_engine cx me s (RSig so)) <= prank (ds_step s).
Proof. destruct (at_engine_prank cx me s (RSig so)) as [H|H]; [cbn in H; lia|rewrite H; lia]. Qed.
Lemma distant_paced cx cl : paced (distant cx cl) distant_kind drx 7.
Proof.
  intros me sh p x op sh' p' x' o E0. destruct (distant_step _ _ _ _ _ _ _ _ _ _ _ E0) as [E Hw].
  destruct op as [eo|cs pk|i| |e]; cbn [dstep] in E.
  - assert (K : (forall ro, eo <> OpRunner ro) /\ dengine cx me (DState sh p x) eo = Some (DState sh' p' x', o)).
    { destruct eo as [|c0|[]| | | |ro]; try discriminate E; (split; [discriminate|]); try exact E. cbn [ds_task] in E. destruct x as [[[rm|] sg [|]]|]; try discriminate E; exact E. }
    destruct K as [Hn K]. unfold dengine in K. cbn [ds_sh ds_step ds_task] in K. destruct (step_step cx me sh p eo) as [[[sh1 p1] obs]|] eqn:Es; [|discriminate K]. injection K as <- <- <- <-. rewrite share_drx.
    apply step_prank in Es. cbn [distant_kind client_kind]. destruct eo as [|c0|b| | | |ro]; try (destruct (Hn ro eq_refl)); destruct (engine_kind _ _); lia.
  - cbn [ds_step ds_task ds_sh] in E. destruct p; try discriminate E. destruct x; [discriminate E|]. unfold client_start in E. cbn [distant_kind client_kind].
    destruct pk as [rm|]; [destruct (lookup _ _)|]; try discriminate E; injection E as <- <- <- _; cbn; lia.
  - cbn [ds_task ds_sh ds_step] in E. destruct x as [[[rm|] sg pend]|]; try discriminate E. destruct (_ && _); [discriminate E|]. destruct (remote_step rm i) as [r'|] eqn:Er; [|discriminate E].
    apply remote_pace in Er. unfold fresh in Er.
    assert (Hx : forall sg', drx (Some (DTask (Some r') sg' (pend ++ flat_map calls_of (skipn (length (r_effs rm)) (r_effs r'))))) = remr r' + fresh rm r' + cost pend) by (intros sg'; cbn [drx dt_remote dt_pending]; rewrite cost_app; unfold fresh; lia).
    assert (Hx0 : drx (Some (DTask (Some rm) sg pend)) = remr rm + cost pend) by reflexivity.
    destruct i as [err|l|rr| | | |e|g err]; cbn [distant_kind client_kind];
      try (injection E as <- <- <- _; rewrite Hx, Hx0; unfold fresh; lia).
    destruct (sig_poll (cl me) sg) as [sg' [g'|]]; [|discriminate E]. destruct (eqb _ _); [|discriminate E]. injection E as <- <- <- _. rewrite Hx, Hx0.
    assert (S1 := sig_prank cx me (DState sh p (Some (DTask (Some rm) sg pend))) (OPoll (cl me))). cbn [ds_step] in S1. unfold fresh. destruct err; lia.
  - cbn [ds_task ds_sh] in E. destruct x as [[rm sg [|ro rest]]|]; try discriminate E. injection E as <- <- <- _.
    assert (A := at_engine_prank cx me (DState sh p (Some (DTask rm sg (ro :: rest)))) ro). assert (1 <= rop_cost ro) by (destruct ro; cbn; lia).
    cbn [distant_kind client_kind drx dt_remote dt_pending ds_step] in *. change (cost (ro :: rest)) with (rop_cost ro + cost rest). destruct A as [A|A]; [lia|rewrite A; lia].
  - destruct (Hw e eq_refl).
Qed.
