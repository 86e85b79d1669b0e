From Verif Require Import Base Types Signals_model Signals_proof Stream_model Stream_spec Stream_proof Cond_model
  Plugins_model Plugins_spec Plugins_proof Exec_model Exec_spec Step_proof Job_proof Workflow_model Workflow_spec
  Runner_model Runner_spec Runner_proof Local_model Local_spec Local_proof Sched_model Remote_model Remote_spec Remote_proof Distant_model Distant_spec Distant_proof Worker_model Worker_spec Worker_proof
  System_model System_spec System_proof System_inst Finish_spec Finish_proof Finish_step Chain_model Chain_spec Chain_proof Pace_spec Pace_proof Pace_step.

Definition fr (f : fphase) : nat := match f with FNext => 5 | FSend _ => 13 | FResult _ => 4 | FDone => 0 end.
Definition sop_cost (o : stream_op) : nat := match o with SLog _ | SError _ => 10 | _ => 1 end.
Definition wcost (l : list stream_op) : nat := total (map sop_cost l).
Definition wkr (w : worker) : nat := 2 * xr (xs_phase (wk_x w)) + wcost (wk_pend w) + 9 * unread (wk_str w) + fr (wk_fwd w).
Definition wrx (w : option worker) : nat := match w with None => 52 | Some w => wkr w end.
Definition krx (x : kside) : nat := drx (kd_task x) + wrx (kd_w x).

Lemma worker_cost o : wcost (flat_map worker_ops o) <= 2 * cost (flat_map sender_ops o).
Proof.
  induction o as [|e o IH]; [cbn; lia|]. cbn [flat_map]. unfold wcost, cost in *. rewrite !map_app, !total_app. destruct e as [| | |[[] m]|r| | |]; cbn; lia.
Qed.
Lemma stream_unread str o : (forall t, o <> SPoll t) -> 9 * unread (fst (stream_step str o)) < 9 * unread str + sop_cost o.
Proof.
  intros Hp. destruct o as [m|m|c r|c|t| |]; cbn [stream_step sop_cost]; try (cbn [fst]; lia).
  - unfold stream_log, unread. cbn [fst ss_logs ss_index]. rewrite app_length. cbn [length]. lia.
  - unfold stream_error, unread. cbn [fst ss_logs ss_index]. rewrite app_length. cbn [length]. lia.
  - unfold stream_end_check. destruct (ss_result str); cbn [fst]; unfold unread; cbn [ss_logs ss_index]; lia.
  - unfold stream_end_commit. destruct (lookup c (ss_enders str)); cbn [fst]; unfold unread; cbn [ss_logs ss_index]; lia.
  - destruct (Hp t eq_refl).
Qed.
Lemma stream_unread_le str o : 9 * unread (fst (stream_step str o)) < 9 * unread str + sop_cost o.
Proof.
  destruct o as [m|m|c r|c|t| |]; try (apply stream_unread; discriminate). cbn [stream_step sop_cost]. assert (U := poll_unread t str). destruct (stream_poll t str) as [[str' [l| |]] w]; cbn [fst]; lia.
Qed.
Lemma dstep_pace cx me cl sh p x op d' o : dstep cx me cl (DState sh p x) op = Some (d', o) -> (forall e, op <> DWorld e) ->
  match client_kind op (ds_step d') with
  | Move => prank (ds_step d') + drx (ds_task d') < prank p + drx x
  | Idle => prank (ds_step d') + drx (ds_task d') <= prank p + drx x
  | Printed => prank (ds_step d') + drx (ds_task d') <= prank p + drx x + 7
  end.
Proof.
  intros E Hw. apply (distant_paced cx (fun _ => cl) me sh p x op (ds_sh d') (ds_step d') (ds_task d') o).
  cbn [rs_step distant]. destruct op as [eo|cs pk|i| |e]; [rewrite E; reflexivity..|destruct (Hw e eq_refl)].
Qed.
Lemma raise_wkr g w : wkr (raise_at g w) = wkr w.
Proof. unfold raise_at. destruct (wk_listed w); reflexivity. Qed.

Lemma chained_paced cx cl sv rhooks conf : paced (chained cx cl sv rhooks conf) chained_kind krx 12.
Proof.
  intros me sh p x op sh' p' x' o E0. destruct (chained_step _ _ _ _ _ _ _ _ _ _ _ _ _ _ E0) as [E Hw]. clear E0.
  destruct x as [tk ct w lost]. unfold kwhole in E. cbn [kd_task kd_ctx kd_w kd_lost] in E.
  set (s := KState (DState sh p tk) ct w lost) in *. destruct x' as [tk' ct' w' lost']. unfold kwhole in E. cbn [kd_task kd_ctx kd_w kd_lost] in E.
  (* what goes through the client *)
  assert (Fl : forall d wn ln, kflow cx me (cl me) s d wn ln = Some (KState (DState sh' p' tk') ct' w' lost', o) -> (forall e, d <> DWorld e) ->
    w' = wn /\ match client_kind d p' with Move => prank p' + drx tk' < prank p + drx tk | Idle => prank p' + drx tk' <= prank p + drx tk | Printed => prank p' + drx tk' <= prank p + drx tk + 7 end).
  { intros d wn ln Ek Hd. unfold kflow in Ek. subst s. cbn [k_d k_ctx] in Ek. destruct (dstep cx me (cl me) (DState sh p tk) d) as [[d' ob]|] eqn:Ed; [|discriminate Ek]. injection Ek as -> _ -> _ _.
    split; [reflexivity|]. exact (dstep_pace _ _ _ _ _ _ _ _ _ Ed Hd). }
  unfold krx. cbn [kd_task kd_w].
  destruct op as [d| |i| | | |].
  - cbn [chained_kind]. assert (Hd : forall e, d <> DWorld e) by (intros e ->; exact (Hw e eq_refl)).
    assert (Plain : forall ln, kflow cx me (cl me) s d w ln = Some (KState (DState sh' p' tk') ct' w' lost', o) -> match client_kind d p' with
      | Move => prank p' + (drx tk' + wrx w') < prank p + (drx tk + wrx w) | Idle => prank p' + (drx tk' + wrx w') <= prank p + (drx tk + wrx w) | Printed => prank p' + (drx tk' + wrx w') <= prank p + (drx tk + wrx w) + 12 end).
    { intros ln Ek. destruct (Fl _ _ _ Ek Hd) as [-> H]. destruct (client_kind d p'); lia. }
    destruct d as [eo|cs pk|ri| |e]; cbn [kstep] in E.
    + eapply Plain, E.
    + assert (Ed : exists ob ln, dstep cx me (cl me) (DState sh p tk) (DPick cs pk) = Some (DState sh' p' tk', ob) /\ w' = w /\ ln = lost').
      { subst s. cbn [k_d k_w k_lost ds_step] in E. destruct (dstep cx me (cl me) (DState sh p tk) (DPick cs pk)) as [[d' ob]|]; [|discriminate E]. destruct p; try discriminate E. injection E as -> _ -> _ _. eauto. }
      destruct Ed as (ob & _ & Ed & -> & _). apply dstep_pace in Ed; [|exact Hd]. cbn [ds_step ds_task client_kind] in *. lia.
    + destruct ri as [[err|]|l|rr| | | |e|g [err|]]; try discriminate E; try (eapply Plain, E).
      * subst s. cbn [k_w] in E. destruct w; [|discriminate E]. eapply Plain, E.
      * destruct (Fl _ _ _ E Hd) as [-> H]. subst s. cbn [k_w client_kind] in *. replace (wrx (option_map (raise_at g) w)) with (wrx w); [lia|]. destruct w; [|reflexivity]. symmetry. apply raise_wkr.
    + eapply Plain, E.
    + eapply Plain, E.
  - cbn [kstep] in E. subst s. cbn [k_d k_ctx k_w ds_task] in E. destruct tk as [[[rm|] sg pend]|]; try discriminate E. destruct ct as [[? ?]|]; try discriminate E. destruct w; [discriminate E|]. injection E as <- <- <- _ <- _ _.
    cbn. lia.
  - assert (K : (forall g, i <> XISignal g) /\ match w with Some (Worker c x0 [] str f b) => match xstep c x0 i with
       | Some (x1, o1) => Some (KState (DState sh p tk) ct (Some (Worker c x1 (flat_map worker_ops o1) str f b)) lost, map KEff o1) | None => None end | _ => None end = Some (KState (DState sh' p' tk') ct' w' lost', o)).
    { subst s. destruct i; try discriminate E; (split; [discriminate|exact E]). }
    destruct K as [Hn K]. destruct w as [[c0 x0 [|pd pds] str f b]|]; try discriminate K. destruct (xstep c0 x0 i) as [[x1 o0]|] eqn:Ex; [|discriminate K]. injection K as <- <- <- _ <- _ _.
    destruct (xstep_pace _ _ _ _ _ Ex Hn) as [X1 X2]. assert (Wc := worker_cost o0). cbn [wrx]. unfold wkr. cbn [wk_x wk_pend wk_str wk_fwd]. change (wcost []) with 0.
    destruct i as [|ok|[ok|[l| |m]|[l| |m]|code|]|g|]; cbn [chained_kind] in *; lia.
  - cbn [kstep chained_kind] in *. subst s. cbn [k_w k_d k_ctx k_lost] in E. destruct w as [[c0 x0 [|pd pds] str f b]|]; try discriminate E. injection E as <- <- <- _ <- _ _.
    assert (U := stream_unread_le str pd). cbn [wrx]. unfold wkr. cbn [wk_x wk_pend wk_str wk_fwd]. change (wcost (pd :: pds)) with (sop_cost pd + wcost pds). lia.
  - cbn [kstep chained_kind] in *. subst s. cbn [k_w k_d k_ctx k_lost] in E. destruct w as [[c0 x0 pd str f b]|]; [|discriminate E]. cbn [wk_fwd wk_conf wk_x wk_pend wk_str wk_listed] in E.
    (* sending *)
    assert (Po : forall i wn, (forall g e, i <> RiSignal g e) -> kpost cx me (cl me) (KState (DState sh p tk) ct (Some (Worker c0 x0 pd str f b)) lost) i wn = Some (KState (DState sh' p' tk') ct' w' lost', o) ->
      w' = Some wn /\ prank p' + drx tk' <= prank p + drx tk + (match i with RiLog _ => 7 | _ => 0 end)).
    { intros i wn Hi Ek. unfold kpost in Ek. destruct (posting _); [|injection Ek as <- <- <- _ <- _ _; split; [reflexivity|destruct i; lia]|discriminate Ek].
      destruct (Fl _ _ _ Ek ltac:(discriminate)) as [Hw' H]. split; [exact Hw'|]. destruct i as [[err|]|l|rr| | | |e|g [err|]]; cbn [client_kind] in H; lia. }
    destruct f as [|l|rr|].
    + assert (U := poll_unread (sv me) str). destruct (stream_poll (sv me) str) as [[str' pl] wk]. destruct pl as [l| |].
      * injection E as <- <- <- _ <- _ _. cbn [listens kd_w wk_fwd andb wrx]. unfold wkr. cbn [wk_x wk_pend wk_str wk_fwd fr]. lia.
      * destruct (ss_result str) as [r|].
        -- injection E as <- <- <- _ <- _ _. cbn [listens kd_w wk_fwd andb wrx]. unfold wkr. cbn [wk_x wk_pend wk_str wk_fwd fr]. lia.
        -- destruct (Po RiRunnerFails _ ltac:(discriminate) E) as [-> H]. cbn [listens kd_w wk_fwd andb wrx]. unfold wkr. cbn [wk_x wk_pend wk_str wk_fwd fr]. lia.
      * injection E as <- <- <- _ <- _ _. cbn [listens kd_w wk_fwd andb wrx]. unfold wkr. cbn [wk_x wk_pend wk_str wk_fwd fr]. lia.
    + destruct (Po (RiLog l) _ ltac:(discriminate) E) as [-> H]. cbn [listens kd_w wk_fwd andb wrx]. unfold wkr, set_fwd. cbn [wk_x wk_pend wk_str wk_fwd fr]. lia.
    + destruct (Po (RiResult rr) _ ltac:(discriminate) E) as [-> H]. cbn [listens kd_w wk_fwd andb wrx]. unfold wkr, set_fwd. cbn [wk_x wk_pend wk_str wk_fwd fr]. lia.
    + discriminate E.
  - cbn [kstep chained_kind] in *. subst s. cbn [k_w k_d k_ctx k_lost] in E. destruct lost as [|g rest]; [discriminate E|]. destruct w as [w|]; [|discriminate E]. injection E as <- <- <- _ <- _ _. cbn [wrx]. rewrite raise_wkr. lia.
  - cbn [kstep chained_kind] in *. subst s. cbn [k_w k_d k_ctx k_lost] in E. destruct w as [[c0 x0 pd str f b]|]; [|discriminate E]. injection E as <- <- <- _ <- _ _. cbn [wrx]. unfold wkr. cbn. lia.
Qed.
