From Coq Require Import Sorting.Permutation.
From Verif Require Import Base Types Signals_model Signals_proof Stream_model Cond_model Plugins_model Exec_model Exec_spec Workflow_model Workflow_spec Workflow_proof Runner_model
  Sched_model Sched_spec Sched_proof Remote_model Distant_model System_model System_spec System_proof System_inst Finish_spec Finish_proof Pace_spec Pace_proof Pace_props System_props
  Fleet_model Fleet_spec Fleet_proof Fleet_main Live_spec Live_proof Dispatch_model Dispatch_spec Dispatch_proof Dispatch_main Placed_spec Placed_proof
  Worker_model Worker_spec Worker_proof Worker_live Chain_model Chain_spec Chain_proof Farm_model Farm_spec Farm_place Farm_proof Farm_main Farmlive_spec.

Lemma pick_works s op s' : inner_picks op = true -> kind_of chained_kind s op s' = Move.
Proof.
  destruct op as [o|i o|p o]; try discriminate; destruct o as [[]| | | | | |]; try discriminate; intros _; cbn [kind_of].
  - destruct (nth_error (sy_cur s) i); [|reflexivity]. destruct (nth_error (ws_tasks (sy_w s')) i) as [t|]; [|reflexivity]. destruct (nth_error (sy_cur s') i); [|reflexivity]. destruct (tk_phase t); reflexivity.
  - destruct (nth_error (sy_past s) p) as [[a [[b c] d]]|]; [|reflexivity]. destruct (nth_error (sy_past s') p) as [[a' [[b' c'] d']]|]; reflexivity.
Qed.
Section P.
Variables (cl sv : task -> task) (rhooks : runner_meta -> run_context -> run_context) (conf : runner_meta -> run_context -> xconf) (glob : glob_oracle).
Notation C cx := (chained cx cl sv rhooks conf).
Notation D cx := (distant cx cl).
Notation qs := (qstep cl sv rhooks conf glob).

Lemma farm_tasks_step cx wf s op s' o : sysstep (C cx) glob cx wf s op = Some (s', o) ->
  length (ws_tasks (sy_w s')) <= length (ws_tasks (sy_w s)) + (if is_move (kind_of chained_kind s op s') then 1 else 0).
Proof.
  intros E. destruct op as [fo|i fo|p fo]; cbn [sysstep] in E.
  - destruct (is_step_op fo) eqn:Es; [discriminate|]. destruct (wstep glob cx wf (sy_w s) fo) as [[w' tr]|] eqn:Ew; [|discriminate].
    assert (L : length (ws_tasks w') <= length (ws_tasks (sy_w s)) + match fo with WEnv _ => 0 | _ => 1 end).
    { destruct fo as [|g|i jo|i|e]; cbn [wstep] in Ew.
      - apply main_tasks in Ew as [[-> _]|(kj & -> & _)]; [|rewrite app_length; cbn [length]]; lia.
      - repeat (match type of Ew with context [match ?x with _ => _ end] => destruct x end; try discriminate Ew); injection Ew as <- <-; cbn [ws_tasks]; lia.
      - destruct (nth_error _ _) as [t|]; [|discriminate]. destruct (job_step _ _ _ _ _ _ _) as [[[? ?] ?]|]; [|discriminate]. injection Ew as <- <-. cbn [ws_tasks]. rewrite list_set_length. lia.
      - destruct (nth_error _ _) as [[? ? p ?]|]; [|discriminate]. destruct p; try discriminate. repeat (match type of Ew with context [match ?x with _ => _ end] => destruct x end; try discriminate Ew); injection Ew as <- <-; unfold set_task; cbn [ws_tasks]; rewrite ?list_set_length; lia.
      - injection Ew as <- <-. cbn [ws_tasks]. lia. }
    destruct (match step_over (sy_w s) fo with Some _ => _ | None => _ end) as [cur past]. injection E as <- <-. cbn [sy_w kind_of]. destruct fo; cbn [is_move]; exact L.
  - destruct (nth_error (ws_tasks (sy_w s)) i) as [t|]; [|discriminate]. destruct (nth_error (sy_cur s) i); [|discriminate]. destruct (tk_phase t); try discriminate.
    destruct (rs_step _ _ _ _ _ _) as [[[[? ?] ?] ?]|]; [|discriminate]. injection E as <- <-. cbn [sy_w ws_tasks]. rewrite list_set_length. lia.
  - destruct (nth_error (sy_past s) p) as [[? [[? ?] ?]]|]; [|discriminate]. destruct (rs_step _ _ _ _ _ _) as [[[[? ?] ?] ?]|]; [|discriminate]. injection E as <- <-. cbn [sy_w]. lia.
Qed.
Lemma farm_work_done cx wf sh0 ops s tr : sysrun (C cx) glob cx wf sh0 ops s tr ->
  length (ws_tasks (sy_w s)) <= moves (C cx) glob cx wf chained_kind (start sh0) ops /\ length (filter inner_picks ops) <= moves (C cx) glob cx wf chained_kind (start sh0) ops.
Proof.
  induction 1 as [|ops s tr op s' o R [I1 I2] E]; [split; cbn; lia|]. destruct (moves_one (fun cx => C cx) glob chained_kind cx wf _ _ _ _ _ _ _ R E) as [-> _].
  assert (L := farm_tasks_step _ _ _ _ _ _ E). split; [lia|]. rewrite filter_app, app_length. cbn [filter]. destruct (inner_picks op) eqn:Ep; [rewrite (pick_works s op s' Ep); cbn [is_move length]|cbn [length]]; lia.
Qed.

(** *** What an action is for the runs *)
Definition ftaken (q : farm) (op : qop) : option (fop (iop := kop)) :=
  match op with
  | QConnect _ => None
  | QFleet o => Some o
  | QAsk k i l =>
      match farm_wanting (fm_fleet q) k i with
      | Some st => match smach_step (fm_sched q) (SBegin (length (fm_asked q)) (request l st)) with
                   | Some (_, o) => option_map (fun r => FRunOp k (YStep i (KFlow (DPick (fm_clients q) r)))) (answered o)
                   | None => None
                   end
      | None => None
      end
  | QLock c =>
      match nth_error (fm_asked q) c, smach_step (fm_sched q) (SNext c) with
      | Some a, Some (_, o) => option_map (fun r => FRunOp (as_run a) (YStep (as_job a) (KFlow (DPick (as_clients a) r)))) (answered o)
      | _, _ => None
      end
  end.
Lemma then_ftaken q asked a m o q' out : then_send cl sv rhooks conf glob q asked a m o = Some (q', out) ->
  fm_sched q' = m /\ fm_asked q' = asked /\ fm_clients q' = fm_clients q /\
  match option_map (fun r => FRunOp (as_run a) (YStep (as_job a) (KFlow (DPick (as_clients a) r)))) (answered o) with
  | Some f => exists x, farm_fleet_step cl sv rhooks conf glob (fm_fleet q) f = Some (fm_fleet q', x)
  | None => fm_fleet q' = fm_fleet q
  end.
Proof.
  unfold then_send. destruct (answered o) as [r|]; cbn [option_map].
  - destruct (farm_fleet_step _ _ _ _ _ _ _) as [[f x]|]; [|discriminate]. intros [= <- <-]. cbn. eauto 6.
  - intros [= <- <-]. cbn. auto.
Qed.
Lemma ftaken_step q op q' o : qs q op = Some (q', o) ->
  match ftaken q op with Some f => exists x, farm_fleet_step cl sv rhooks conf glob (fm_fleet q) f = Some (fm_fleet q', x) | None => fm_fleet q' = fm_fleet q end.
Proof.
  destruct op as [a|fo|k i l|c]; cbn [qstep ftaken].
  - intros [= <- <-]. reflexivity.
  - destruct (picks_server fo); [discriminate|]. destruct (farm_fleet_step _ _ _ _ _ _ _) as [[f x]|]; [|discriminate]. intros [= <- <-]. cbn. eauto.
  - destruct (farm_wanting _ _ _) as [st|]; [|discriminate]. destruct (_ || _); [discriminate|]. destruct (smach_step _ _) as [[m o1]|]; [|discriminate]. intros E. apply then_ftaken in E as (_ & _ & _ & E). exact E.
  - destruct (nth_error (fm_asked q) c) as [a|]; [|discriminate]. destruct (smach_step _ _) as [[m o1]|]; [|discriminate]. intros E. apply then_ftaken in E as (_ & _ & _ & E). exact E.
Qed.
Lemma ftaken_kind q op q' o : qs q op = Some (q', o) -> match op with QFleet fo => ftaken q op = Some fo /\ picks_server fo = false | _ => forall fo, ftaken q op = Some fo -> picks_server fo = true end.
Proof.
  destruct op as [a|fo|k i l|c]; cbn [qstep ftaken].
  - discriminate.
  - destruct (picks_server fo); [discriminate|auto].
  - intros _ fo. destruct (farm_wanting _ _ _); [|discriminate]. destruct (smach_step _ _) as [[m o1]|]; [|discriminate]. destruct (answered o1); [|discriminate]. intros [= <-]. reflexivity.
  - intros _ fo. destruct (nth_error _ _); [|discriminate]. destruct (smach_step _ _) as [[m o1]|]; [|discriminate]. destruct (answered o1); [|discriminate]. intros [= <-]. reflexivity.
Qed.

(** *** Seen from the client *)
(** What the client sees is enough for what has to do with the scheduler. *)
Lemma pick_inner cx wf s i cs r s1 o1 : sysstep (D cx) glob cx wf (outer_sys s) (YStep i (DPick cs r)) = Some (s1, o1) -> exists s' o, sysstep (C cx) glob cx wf s (YStep i (KFlow (DPick cs r))) = Some (s', o).
Proof.
  cbn [sysstep]. cbn [outer_sys sy_w sy_cur]. destruct (nth_error (ws_tasks (sy_w s)) i) as [t|]; [|discriminate]. rewrite nth_error_map. destruct (nth_error (sy_cur s) i) as [x|]; [|discriminate]. cbn [option_map].
  destruct (tk_phase t) as [| | | | | | | | | |t0 js rs sp rest| | | |]; try discriminate. intros E.
  assert (K : dstep cx (S i) (cl (S i)) (DState (ws_sh (sy_w s)) sp (kd_task x)) (DPick cs r) <> None) by (cbn [rs_step distant] in E; intros K; rewrite K in E; discriminate E).
  cbn [rs_step chained kstep kwhole k_d]. destruct (dstep cx (S i) (cl (S i)) _ (DPick cs r)) as [[d' ob]|] eqn:Ed; [|contradiction]. cbn [ds_step]. cbn [dstep ds_step] in Ed. destruct sp; try discriminate Ed. eexists _, _. reflexivity.
Qed.
Lemma then_inner q d asked a m o1 d' o' : seen_as q d -> then_pick cl glob d asked a m o1 = Some (d', o') -> exists q' o, then_send cl sv rhooks conf glob q asked a m o1 = Some (q', o) /\ seen_as q' d' /\ client_view o = o'.
Proof.
  intros S E. cut (exists q' o, then_send cl sv rhooks conf glob q asked a m o1 = Some (q', o)).
  { intros (q' & o & Hs). destruct (outer_then _ _ _ _ _ _ _ _ _ _ _ _ _ S Hs) as (d2 & H1 & H2). rewrite E in H1. injection H1 as <- ->. eauto. }
  destruct S as [F Ec Es Ea]. unfold then_pick in E. unfold then_send. destruct (answered o1) as [r|]; [|eauto]. destruct (remote_fleet_step _ _ _ _) as [[g y]|] eqn:Eg; [|discriminate].
  destruct (fstep_same _ _ _ _ _ _ _ F Eg) as (g' & Hg & _). unfold farm_fleet_step. cbn [fstep] in Hg |- *. cbn [outer_fleet fl_runs fl_ctx fl_now fl_sm] in Hg. rewrite nth_error_map in Hg.
  destruct (nth_error (fl_runs (fm_fleet q)) (as_run a)) as [rr|]; [|discriminate]. cbn [option_map outer_run fr_ctx fr_wf fr_sys] in Hg. destruct (nth_error (fl_ctx (fm_fleet q)) (fr_ctx rr)) as [[cx ca]|]; [|discriminate]. cbn [is_env] in *.
  rewrite <- outer_settle in Hg. destruct (sysstep (D cx) glob cx (fr_wf rr) _ _) as [[s1 o2]|] eqn:Ess; [|discriminate]. destruct (pick_inner _ _ _ _ _ _ _ _ Ess) as (s' & o & Hs). rewrite Hs. eauto.
Qed.
Definition to_farm (op : pop) : option qop := match op with PAsk k i l => Some (QAsk k i l) | PLock c => Some (QLock c) | _ => None end.
Lemma step_inner q d op op' d' o' : seen_as q d -> to_farm op' = Some op -> pstep cl glob d op' = Some (d', o') -> exists q' o, qs q op = Some (q', o) /\ seen_as q' d' /\ client_view o = o'.
Proof.
  intros S T E. assert (S' := S). destruct S' as [F Ec Es Ea]. destruct op' as [a|fo|k i l|c]; cbn [to_farm] in T; try discriminate T; injection T as <-; cbn [pstep qstep] in *.
  - rewrite (wanting_outer _ _ _ _ S), (asked_for_outer _ _ _ _ S), Ec, Es, Ea in E. destruct (farm_wanting (fm_fleet q) k i) as [st|]; [|discriminate]. destruct (_ || _); [discriminate|].
    destruct (smach_step _ _) as [[m o1]|]; [|discriminate]. eapply then_inner; eassumption.
  - rewrite Es, Ea in E. destruct (nth_error _ _) as [a|]; [|discriminate]. destruct (smach_step _ _) as [[m o1]|]; [|discriminate]. eapply then_inner; eassumption.
Qed.

(** *** Looking around does not make a step want a runner *)
Definition fwant (s : @system kside) (i : nat) : option step := want (outer_sys s) i.
Lemma gives_only_engine cx me sh sp x op sh' sp' x' out rc : rs_step (C cx) me sh sp x op = Some (sh', sp', x', out) -> k_events out = [ORun rc] -> op = KFlow (DEngine OpNext).
Proof.
  intros E He. destruct (side_step _ _ _ _ _ _ _ _ _ _ _ _ _ _ E) as [(_ & _ & _ & K & _)|(d & Ho & Hd)]; [rewrite K in He; discriminate He|]. rewrite He in Hd. apply run_only_engine in Hd. subst d.
  destruct op as [d0| | | | | |]; cbn [outward] in Ho; try discriminate Ho; [injection Ho as ->; reflexivity|].
  destruct (k_w _) as [w|]; [|discriminate Ho]. destruct (posting _); try discriminate Ho. destruct (wk_fwd w); discriminate Ho.
Qed.
Lemma idle_fwant cx wf s op s' o : tidy (outer_sys s) -> sysstep (C cx) glob cx wf s op = Some (s', o) -> tidy (outer_sys s') /\ (kind_of chained_kind s op s' = Idle -> forall i, fwant s' i = fwant s i).
Proof.
  intros Ht E. unfold fwant. destruct (sys_outer _ _ _ _ _ _ _ _ _ _ _ E) as [(-> & _)|(op' & E' & Hp & _ & _)]; [auto|].
  destruct (sys_cases cx cl glob wf _ _ _ _ Ht E') as [Ht' H]. split; [exact Ht'|]. intros Hk i. destruct (H i) as [(H1 & _)|[(st & rc & _ & Hw & Hv & _)|(clients & pick & st & -> & _)]]; [exact H1| |].
  - exfalso. destruct op as [fo|j io|p io]; cbn [sysstep] in E.
    + destruct (is_step_op fo); [discriminate|]. destruct (wstep _ _ _ _ _) as [[w' tr]|]; [|discriminate]. destruct (match step_over (sy_w s) fo with Some _ => _ | None => _ end) as [cur past]. injection E as <- <-.
      rewrite sys_view_inl in Hv. destruct tr as [|y tr]; [discriminate Hv|]. cbn [map] in Hv. injection Hv as _ Hv _. discriminate Hv.
    + destruct (nth_error (ws_tasks (sy_w s)) j) as [t|] eqn:Et; [|discriminate]. destruct (nth_error (sy_cur s) j) as [x|] eqn:Ex; [|discriminate]. destruct (tk_phase t) as [| | | | | | | | | |t0 js rs sp rest| | | |] eqn:Ep; try discriminate.
      destruct (rs_step _ _ _ _ _ _) as [[[[sh' sp'] x'] out]|] eqn:Er; [|discriminate]. injection E as <- <-. rewrite sys_view_inr in Hv.
      destruct (k_events out) as [|e1 [|e2 l]] eqn:Eo; try discriminate Hv. cbn [map] in Hv. injection Hv as -> ->. apply (gives_only_engine _ _ _ _ _ _ _ _ _ _ rc) in Er; [|exact Eo]. subst io.
      cbn [kind_of] in Hk. rewrite Ex in Hk. unfold want in Hw. cbn [outer_sys sy_w sy_cur ws_tasks] in Hw, Hk. rewrite nth_error_map in Hw.
      destruct (nth_error (list_set i _ (ws_tasks (sy_w s))) i) as [t'|]; [|discriminate Hw]. destruct (nth_error (list_set i x' (sy_cur s)) i) as [y|]; [|discriminate Hw]. cbn [option_map] in Hw. destruct (kd_task y); [discriminate Hw|].
      destruct (tk_phase t') as [| | | | | | | | | |t0' js' rs' sp2 rest'| | | |]; try discriminate Hw. destruct sp2; try discriminate Hw. cbn in Hk. discriminate Hk.
    + destruct (nth_error (sy_past s) p) as [[j [[sh sp] x]]|] eqn:Ex; [|discriminate]. destruct (rs_step _ _ _ _ _ _) as [[[[sh' sp'] x'] out]|] eqn:Er; [|discriminate]. injection E as <- <-. rewrite sys_view_inr in Hv.
      destruct Ht as (_ & _ & Hpast). destruct (Hpast (outer_past (j, (sh, sp, x)))) as [r Hr]; [cbn [outer_sys sy_past]; apply in_map, (nth_error_In _ _ Ex)|]. cbn [outer_past fst snd] in Hr. subst sp.
      destruct (side_step _ _ _ _ _ _ _ _ _ _ _ _ _ _ Er) as [(_ & _ & _ & K & _)|(d & Ho & Hd)]; [rewrite K in Hv; discriminate Hv|]. apply (done_still cx cl) in Hd as [_ K]. rewrite K in Hv. discriminate Hv.
  - cbn [outer_picks] in Hp. rewrite (pick_works s op s') in Hk by (symmetry; exact Hp). discriminate Hk.
Qed.
Lemma look_fwant cx wf look : forall s s' o, tidy (outer_sys s) -> sysexec (C cx) glob cx wf s look = Some (s', o) -> (forall x, In x (kinds (C cx) glob cx wf chained_kind s look) -> x = Idle) ->
  tidy (outer_sys s') /\ (forall i, fwant s' i = fwant s i) /\ Forall (fun op => inner_picks op = false) look.
Proof.
  induction look as [|op look IH]; intros s s' o Ht E Hk; cbn [sysexec] in E; [injection E as <- <-; auto|].
  destruct (sysstep _ _ _ _ s op) as [[s1 o1]|] eqn:E1; [|discriminate]. destruct (sysexec _ _ _ _ s1 look) as [[s2 o2]|] eqn:E2; [|discriminate]. injection E as <- <-.
  cbn [kinds] in Hk. rewrite E1 in Hk. assert (K1 := Hk _ (or_introl eq_refl)). destruct (idle_fwant _ _ _ _ _ _ Ht E1) as [Ht1 Hw1].
  destruct (IH _ _ _ Ht1 E2 (fun x Hx => Hk x (or_intror Hx))) as (H1 & H2 & H3). split; [exact H1|]. split; [intros i; rewrite H2; apply Hw1, K1|].
  constructor; [|exact H3]. destruct (inner_picks op) eqn:Ep; [|reflexivity]. rewrite (pick_works s op s1 Ep) in K1. discriminate K1.
Qed.
Lemma pick_fwants cx wf s op s' o : sysstep (C cx) glob cx wf s op = Some (s', o) -> inner_picks op = true -> (forall p io, op <> YPast p io) -> exists i st, fwant s i = Some st.
Proof.
  intros E Hp Hn. destruct (sys_outer _ _ _ _ _ _ _ _ _ _ _ E) as [(_ & _ & K)|(op' & E' & Hp' & _ & Hc)]; [congruence|].
  destruct op as [fo|i io|p io]; [discriminate Hp| |destruct (Hn p io eq_refl)]. destruct io as [[|cs r| | |]| | | | | |]; try discriminate Hp. rewrite (Hc _ _ _ eq_refl) in E'.
  destruct (pick_wants cl glob cx wf _ _ _ _ E' eq_refl) as (i' & c1 & p1 & st & _ & Hw); [discriminate|]. exists i', st. exact Hw.
Qed.
(** Whenever a run can go on if the scheduler refuses, it can go on by itself or a step of it waits for the scheduler. *)
Lemma goes_or_consults cx wf s gh c code : tidy (outer_sys s) -> can_move (C cx) glob cx wf chained_kind (goes_on gh (plain_worker c [] None code)) s ->
  can_move (C cx) glob cx wf chained_kind (goes_on gh (plain_served c code)) s \/ exists i st, fwant s i = Some st.
Proof.
  intros Ht (look & op & s1 & o1 & s2 & o2 & Hf & El & Hk & Es & Hm). destruct (look_fwant _ _ _ _ _ _ Ht El Hk) as (Ht1 & Hw & Hnp).
  assert (Conv : forall x, goes_on gh (plain_worker c [] None code) x -> inner_picks x = false -> goes_on gh (plain_served c code) x).
  { intros x. destruct x as [fo|i io|p io]; cbn [goes_on inner_picks]; try tauto. destruct io as [d| | | | | |]; cbn [plain_worker plain_served]; try tauto. destruct d; try tauto. discriminate. }
  apply Forall_app in Hf as [Hf1 Hf2]. inversion Hf2 as [|? ? Hop _]. subst. destruct (inner_picks op) eqn:Ep.
  - right. destruct (pick_fwants _ _ _ _ _ _ Es Ep) as (i & st & Hi); [intros p io ->; exact Hop|]. exists i, st. rewrite <- Hw. exact Hi.
  - left. exists look, op, s1, o1, s2, o2. split; [|auto]. apply Forall_app. split; [|constructor; auto]. rewrite Forall_forall in *. intros x Hx. apply Conv; auto.
Qed.
Lemma fwanting_fwant q k i : farm_wanting (fm_fleet q) k i = match nth_error (fl_runs (fm_fleet q)) k with Some r => fwant (fr_sys r) i | None => None end.
Proof.
  unfold fwant, want, farm_wanting. destruct (nth_error (fl_runs _) k) as [r|]; [|reflexivity]. cbn [outer_sys sy_w sy_cur]. rewrite nth_error_map. destruct (nth_error (ws_tasks _) i); [|reflexivity].
  destruct (nth_error (sy_cur (fr_sys r)) i) as [x|]; [|reflexivity]. cbn [option_map]. destruct (kd_task x); reflexivity.
Qed.
Lemma farm_tidy now ops q tr k cx wf s : farm_run cl sv rhooks conf glob now ops q tr -> run_at (fm_fleet q) k cx wf s -> tidy (outer_sys s).
Proof.
  intros R (r & ca & Hk & _ & _ & ->). destruct (outer_farm _ _ _ _ _ _ _ _ _ R) as (pops & d & Hd & S & _). destruct S as [F _ _ _].
  rewrite outer_settle. apply tidy_settle. assert (Ho : nth_error (fl_runs (outer_fleet (fm_fleet q))) k = Some (outer_run r)) by (cbn [outer_fleet fl_runs]; apply map_nth_error, Hk).
  destruct (same_run _ _ _ _ (same_sym _ _ F) Ho) as (r' & Hr' & Hf). assert (T := proj1 (di_tidy _ _ _ (dinv_run _ _ _ _ _ _ Hd) k r' Hr')).
  assert (K : unsettled (fr_sys r') = unsettled (outer_sys (fr_sys r))) by exact (f_equal fr_sys Hf).
  assert (T' := tidy_settle 0%N sm_init None _ T). change (tidy (unsettled (fr_sys r'))) in T'. rewrite K in T'. exact T'.
Qed.

(** *** Completing a run *)
Lemma own_fstep f k x f' o cx wf s : farm_fleet_step cl sv rhooks conf glob f (FRunOp k x) = Some (f', o) -> run_at f k cx wf s -> exists s' o', sysstep (C cx) glob cx wf s x = Some (s', o') /\ run_at f' k cx wf s'.
Proof.
  intros E (r & ca & Hk & Hc & Hw & Hs). unfold farm_fleet_step in E. cbn [fstep] in E. rewrite Hk, Hc in E. destruct (is_env x); [discriminate|]. subst wf s.
  destruct (sysstep (C cx) glob cx (fr_wf r) _ x) as [[s1 o1]|]; [|discriminate]. injection E as <- <-. exists s1, o1. split; [reflexivity|].
  exists (FRun (fr_ctx r) (fr_wf r) s1), (sh_cache (ws_sh (sy_w s1))). cbn [fl_runs fl_ctx fl_now fl_sm fr_ctx fr_wf fr_sys]. split; [apply (list_set_eq _ _ _ _ Hk)|]. split; [apply (list_set_eq _ _ _ _ Hc)|]. split; [reflexivity|]. symmetry. apply settle_same.
Qed.
Lemma fasked_grows q op q' o : qs q op = Some (q', o) -> exists extra, fm_asked q' = fm_asked q ++ extra.
Proof.
  intros E. destruct op as [a|fo|k i l|c]; cbn [qstep] in E.
  - injection E as <- <-. exists []. symmetry. apply app_nil_r.
  - destruct (picks_server fo); [discriminate|]. destruct (farm_fleet_step _ _ _ _ _ _ _) as [[f x]|]; [|discriminate]. injection E as <- <-. exists []. symmetry. apply app_nil_r.
  - destruct (farm_wanting _ _ _); [|discriminate]. destruct (_ || _); [discriminate|]. destruct (smach_step _ _) as [[m o1]|]; [|discriminate]. apply then_ftaken in E as (_ & E & _). eauto.
  - destruct (nth_error _ _); [|discriminate]. destruct (smach_step _ _) as [[m o1]|]; [|discriminate]. apply then_ftaken in E as (_ & E & _). exists []. rewrite app_nil_r. exact E.
Qed.
Notation qx := (qexec cl sv rhooks conf glob).
Lemma call_grows more : forall q q' o c k i, qx q more = Some (q', o) -> call_for q c k i -> call_for q' c k i.
Proof.
  induction more as [|op more IH]; intros d0 d' o c k i E M; cbn [qexec] in E; [injection E as <- <-; exact M|].
  destruct (qs d0 op) as [[d1 o1]|] eqn:E1; [|discriminate]. destruct (qx d1 more) as [[d2 o2]|] eqn:E2; [|discriminate]. injection E as <- <-.
  eapply IH; [exact E2|]. destruct (fasked_grows _ _ _ _ E1) as [ex Ex]. destruct M as (a & Ea & Ha). exists a. rewrite Ex, nth_error_app1; [auto|]. apply nth_error_Some. congruence.
Qed.
Lemma qexec_app a : forall b d d1 o1 d2 o2, qx d a = Some (d1, o1) -> qx d1 b = Some (d2, o2) -> qx d (a ++ b) = Some (d2, o1 ++ o2).
Proof.
  induction a as [|op a IH]; intros b d d1 o1 d2 o2 E1 E2; cbn [qexec app] in *; [injection E1 as <- <-; exact E2|].
  destruct (qs d op) as [[d3 o3]|]; [|discriminate]. destruct (qx d3 a) as [[d4 o4]|] eqn:E; [|discriminate]. injection E1 as <- <-.
  rewrite (IH _ _ _ _ _ _ E E2). rewrite app_assoc. reflexivity.
Qed.
Lemma qexec_reach now more : forall ops d tr d' o, farm_run cl sv rhooks conf glob now ops d tr -> qx d more = Some (d', o) -> farm_run cl sv rhooks conf glob now (ops ++ more) d' (tr ++ o).
Proof.
  induction more as [|op more IH]; intros ops d tr d' o R E; cbn [qexec] in E; [injection E as <- <-; rewrite !app_nil_r; exact R|].
  destruct (qs d op) as [[d1 o1]|] eqn:E1; [|discriminate]. destruct (qx d1 more) as [[d2 o2]|] eqn:E2; [|discriminate]. injection E as <- <-.
  change (op :: more) with ([op] ++ more). rewrite !app_assoc. eapply IH; [|exact E2]. eapply farm_step; eassumption.
Qed.
Lemma qexec_fleet k L : forall d f o, fexec (fun cx => C cx) glob (fm_fleet d) (map (FRunOp k) L) = Some (f, o) -> Forall (fun op => inner_picks op = false) L ->
  exists d' o', qx d (map (fun x => QFleet (FRunOp k x)) L) = Some (d', o') /\ fm_fleet d' = f.
Proof.
  induction L as [|x L IH]; intros d f o E H; cbn [map fexec qexec] in *; [injection E as <- <-; eauto|]. inversion_clear H as [|? ? Hx HL].
  destruct (fstep _ _ (fm_fleet d) (FRunOp k x)) as [[f1 o1]|] eqn:E1; [|discriminate]. destruct (fexec _ _ f1 _) as [[f2 o2]|] eqn:E2; [|discriminate]. injection E as <- <-.
  cbn [qstep]. assert (Hp : picks_server (FRunOp k x) = false) by (destruct x as [|? [[]| | | | | |]|? [[]| | | | | |]]; try reflexivity; discriminate Hx). rewrite Hp. unfold farm_fleet_step. rewrite E1.
  destruct (IH (Farm f1 (fm_clients d) (fm_sched d) (fm_asked d)) _ _ E2 HL) as (d' & o' & H1 & H2). rewrite H1. eauto.
Qed.
(** Asking and going on with calls: what the run does is to take the answers. *)
Definition take_op (op : sysop (iop := kop)) : Prop := exists i cs p, op = YStep i (KFlow (DPick cs p)).
Lemma consult_exec k cx wf more : forall d d' o s, qx d more = Some (d', o) -> run_at (fm_fleet d) k cx wf s -> Forall (fun op => (exists i l, op = QAsk k i l) \/ exists c i, op = QLock c /\ call_for d' c k i) more ->
  exists L s' o', Forall take_op L /\ sysexec (C cx) glob cx wf s L = Some (s', o') /\ run_at (fm_fleet d') k cx wf s'.
Proof.
  induction more as [|op more IH]; intros d d' o s E Hat H; cbn [qexec] in E; [injection E as <- <-; exists [], s, []; auto|].
  destruct (qs d op) as [[d1 o1]|] eqn:E1; [|discriminate]. destruct (qx d1 more) as [[d2 o2]|] eqn:E2; [|discriminate]. injection E as <- <-.
  assert (Ho := Forall_inv H). assert (HL := Forall_inv_tail H). clear H.
  assert (Et := ftaken_step _ _ _ _ E1).
  assert (Mine : (fm_fleet d1 = fm_fleet d) \/ exists i cs p x, farm_fleet_step cl sv rhooks conf glob (fm_fleet d) (FRunOp k (YStep i (KFlow (DPick cs p)))) = Some (fm_fleet d1, x)).
  { destruct Ho as [(i & l & ->)|(c & i & -> & M)]; cbn [ftaken] in Et.
    - destruct (farm_wanting _ _ _); [|auto]. destruct (smach_step _ _) as [[m o3]|]; [|auto]. destruct (answered o3); cbn [option_map] in Et; [|auto]. right. destruct Et as [x Et]. eauto.
    - destruct (nth_error (fm_asked d) c) as [a|] eqn:Ea; [|auto]. destruct (smach_step _ _) as [[m o3]|]; [|auto]. destruct (answered o3); cbn [option_map] in Et; [|auto]. right. destruct Et as [x Et].
      assert (as_run a = k) as <-; [|eauto]. assert (M' : call_for d2 c (as_run a) (as_job a)) by (eapply (call_grows (QLock c :: more)); [cbn [qexec]; rewrite E1, E2; reflexivity|exists a; auto]).
      destruct M as (b & B1 & B2 & _), M' as (b' & B3 & B4 & _). rewrite B1 in B3. injection B3 as <-. congruence. }
  destruct Mine as [Es|(i & cs & p & x & Es)].
  - rewrite <- Es in Hat. eapply IH; eassumption.
  - destruct (own_fstep _ _ _ _ _ _ _ _ Es Hat) as (s1 & o4 & Hs & Hat1). destruct (IH _ _ _ _ E2 Hat1 HL) as (L & s' & o' & H1 & H2 & H3).
    exists (YStep i (KFlow (DPick cs p)) :: L), s', (o4 ++ o'). split; [constructor; [unfold take_op; eauto|exact H1]|]. split; [|exact H3]. cbn [sysexec]. rewrite Hs, H2. reflexivity.
Qed.
Lemma exec_inner qmore : forall pmore q d d' o', seen_as q d -> Forall2 (fun op' op => to_farm op' = Some op) pmore qmore -> pexec cl glob d pmore = Some (d', o') -> exists q' o, qx q qmore = Some (q', o) /\ seen_as q' d'.
Proof.
  induction qmore as [|op qmore IH]; intros pmore q d d' o' S F E; inversion F as [|op' ? pm ? Ht F']; subst; cbn [pexec qexec] in *; [injection E as <- <-; eauto|].
  destruct (pstep cl glob d op') as [[d1 o1]|] eqn:E1; [|discriminate]. destruct (pexec cl glob d1 pm) as [[d2 o2]|] eqn:E2; [|discriminate]. injection E as <- <-.
  destruct (step_inner _ _ _ _ _ _ S Ht E1) as (q1 & o3 & Hq & S1 & _). rewrite Hq. destruct (IH _ _ _ _ _ S1 F' E2) as (q' & o & Hx & S2). rewrite Hx. eauto.
Qed.
Lemma made_call q d c k i : seen_as q d -> made_for d c k i -> call_for q c k i.
Proof. intros [_ _ _ A] (a & H1 & H2). exists a. rewrite <- A. auto. Qed.
Lemma farm_wait_over ops q tr now k i st l cx wf s : farm_run cl sv rhooks conf glob now ops q tr -> farm_wanting (fm_fleet q) k i = Some st -> Permutation l (map snd (farm_connected ops)) -> run_at (fm_fleet q) k cx wf s ->
  exists more q' o L s' o', Forall (fun op => (exists i, op = QAsk k i l) \/ exists c i, op = QLock c /\ call_for q' c k i) more /\ qx q more = Some (q', o) /\ L <> [] /\ Forall take_op L /\
    sysexec (C cx) glob cx wf s L = Some (s', o') /\ run_at (fm_fleet q') k cx wf s'.
Proof.
  intros R W P Hat. destruct (outer_farm _ _ _ _ _ _ _ _ _ R) as (pops & d & Hd & S & Hc & _). rewrite <- Hc in P. rewrite <- (wanting_outer _ _ _ _ S) in W.
  assert (Fin : forall pmore qmore d' o, Forall (fun op => op = PAsk k i l \/ exists c, op = PLock c /\ made_for d' c k i) pmore -> Forall2 (fun op' op => to_farm op' = Some op) pmore qmore ->
    pexec cl glob d pmore = Some (d', o) -> wanting (dp_fleet d') k i = None ->
    exists more q' o L s' o', Forall (fun op => (exists i, op = QAsk k i l) \/ exists c i, op = QLock c /\ call_for q' c k i) more /\ qx q more = Some (q', o) /\ L <> [] /\ Forall take_op L /\
      sysexec (C cx) glob cx wf s L = Some (s', o') /\ run_at (fm_fleet q') k cx wf s').
  { intros pmore qmore d' o Hp F E Hn. destruct (exec_inner _ _ _ _ _ _ S F E) as (q' & o1 & Hq & S').
    assert (Hq' : Forall (fun op => (exists i, op = QAsk k i l) \/ exists c i, op = QLock c /\ call_for q' c k i) qmore).
    { clear - Hp F S'. induction F as [|op' op pm qm Ht F IH]; [constructor|]. inversion Hp as [|? ? Ho Hp']. subst. constructor; [|auto]. destruct Ho as [->|(c & -> & M)]; cbn [to_farm] in Ht; injection Ht as <-; [eauto|].
      right. exists c, i. split; [reflexivity|eapply made_call; eassumption]. }
    destruct (consult_exec k cx wf qmore q q' o1 s Hq Hat) as (L & s' & o' & A1 & A2 & A3); [eapply Forall_impl; [|exact Hq']; intros op [[i0 ->]|H]; [left; eauto|right; exact H]|].
    exists qmore, q', o1, L, s', o'. repeat (split; [assumption|]). split; [|auto]. intros ->. cbn in A2. injection A2 as <- _.
    rewrite (wanting_outer _ _ _ _ S) in W. rewrite (wanting_outer _ _ _ _ S') in Hn. rewrite fwanting_fwant in W, Hn.
    destruct Hat as (r & ca & H1 & _ & _ & H2). destruct A3 as (r' & ca' & H1' & _ & _ & H2'). rewrite H1 in W. rewrite H1' in Hn.
    assert (A : fwant s i = fwant (fr_sys r) i) by (rewrite H2; reflexivity). assert (B : fwant s i = fwant (fr_sys r') i) by (rewrite H2'; reflexivity). congruence. }
  assert (Lk : forall c more, Forall (fun op => op = PLock c) more -> Forall2 (fun op' op => to_farm op' = Some op) more (map (fun _ => QLock c) more)) by (intros c more H; induction H as [|op more -> _ IH]; constructor; [reflexivity|exact IH]).
  destruct (asked_for d k i) eqn:Ea.
  - apply asked_for_spec in Ea as [c [Ln M]]. destruct (lookup c (sm_calls (dp_sched d))) as [x|] eqn:Ex; [|contradiction].
    destruct (lock_answers _ _ _ 2 _ _ _ c k i x Hd M Ex) as (more & d' & o & q0 & r & _ & H2 & H3 & H4 & _); [destruct x; cbn; lia|].
    eapply (Fin more _ d' o); [|apply (Lk c), H2|exact H3|exact H4]. eapply Forall_impl; [|exact H2]. intros op ->. right. exists c. split; [reflexivity|]. eapply made_grows; eassumption.
  - assert (Np : forall c, ~ pending d c k i) by (intros c Hc'; assert (C : asked_for d k i = true) by (apply asked_for_spec; eauto); congruence).
    destruct (ask_answers _ _ _ _ _ _ _ _ _ l Hd W Np P) as (more & d' & o & q0 & r & _ & H2 & H3 & H4 & _).
    eapply (Fin (PAsk k i l :: more) (QAsk k i l :: map (fun _ => QLock (length (dp_asked d))) more) d' o); [|constructor; [reflexivity|apply Lk, H2]|exact H3|exact H4]. constructor; [auto|].
    eapply Forall_impl; [|exact H2]. intros op ->. right. exists (length (dp_asked d)). split; [reflexivity|]. cbn [pexec] in H3. destruct (pstep cl glob d (PAsk k i l)) as [[d1 o1]|] eqn:E1; [|discriminate].
    destruct (pexec cl glob d1 more) as [[d2 o2]|] eqn:E2; [|discriminate]. injection H3 as <- _. eapply made_grows; [exact E2|]. cbn [pstep] in E1. destruct (wanting (dp_fleet d) k i); [|discriminate]. destruct (_ || _); [discriminate|].
    destruct (smach_step _ _) as [[m o3]|]; [|discriminate]. apply then_taken in E1 as (_ & Eq & _). exists (Asking k i (dp_clients d)). rewrite Eq, nth_error_app2, Nat.sub_diag by lia. auto.
Qed.

Lemma own_connects gh c code l q k more : Forall (own_doing gh c code l q k) more -> flat_map (fun op => match op with QConnect a => [a] | _ => [] end) more = [].
Proof. induction 1 as [|op more [(x & -> & _)|[(i & ->)|(n & i & -> & _)]] _ IH]; [reflexivity|exact IH..]. Qed.
Lemma own_doing_grows gh c code l k more b : forall d d' o, qx d b = Some (d', o) -> Forall (own_doing gh c code l d k) more -> Forall (own_doing gh c code l d' k) more.
Proof.
  intros d d' o E. apply Forall_impl. intros op [H|[H|(n & i & -> & M)]]; [left; exact H|right; left; exact H|]. right. right. exists n, i. split; [reflexivity|eapply call_grows; eassumption].
Qed.
Lemma take_kinds cx wf L : forall s s' o, Forall take_op L -> sysexec (C cx) glob cx wf s L = Some (s', o) -> length (filter is_move (kinds (C cx) glob cx wf chained_kind s L)) = length L /\ length (filter is_printed (kinds (C cx) glob cx wf chained_kind s L)) = 0.
Proof.
  induction L as [|op L IH]; intros s s' o H E; [split; reflexivity|]. cbn [sysexec] in E. destruct (sysstep _ _ _ _ s op) as [[s1 o1]|] eqn:E1; [|discriminate]. destruct (sysexec _ _ _ _ s1 L) as [[s2 o2]|] eqn:E2; [|discriminate].
  cbn [kinds]. rewrite E1. destruct (Forall_inv H) as (i & cs & p & Eop). rewrite (pick_works s op s1) by (rewrite Eop; reflexivity). cbn [filter is_move is_printed length].
  destruct (IH _ _ _ (Forall_inv_tail H) E2) as [-> ->]. auto.
Qed.
Lemma served_quiet cx wf gh c code L : forall s, Forall (goes_on gh (plain_served c code)) L -> length (filter is_printed (kinds (C cx) glob cx wf chained_kind s L)) = 0.
Proof.
  induction L as [|op L IH]; intros s H; [reflexivity|]. cbn [kinds]. destruct (sysstep _ _ _ _ s op) as [[s1 o1]|]; [|reflexivity]. cbn [filter].
  assert (Q : kind_of chained_kind s op s1 <> Printed).
  { assert (Ho := Forall_inv H). apply (quiet_chained gh c [] None code). destruct op as [fo|i io|p io]; cbn [goes_on] in *; auto. destruct io as [d| | | | | |]; cbn [plain_served plain_worker] in *; auto. destruct d; auto. destruct Ho. }
  destruct (kind_of chained_kind s op s1); [|exact (IH s1 (Forall_inv_tail H))|congruence]. exact (IH s1 (Forall_inv_tail H)).
Qed.
Section Y.
Variables (now : time) (k : nat) (cx : ectx) (wf : workflow) (sh0 : shared) (gh : github) (c : exec_context unit) (code : option Z) (l : list runner_meta).
Hypothesis Hnd : NoDup (keys (wf_jobs wf)).
Hypothesis Run : runnable wf.
Hypothesis Keep : keeps_steps c.
Notation mv ops := (moves (C cx) glob cx wf chained_kind (start sh0) ops).
Notation ln ops := (lines (C cx) glob cx wf chained_kind (start sh0) ops).
Lemma farm_more_moves sops s str L s' o : sysrun (C cx) glob cx wf sh0 sops s str -> sysexec (C cx) glob cx wf s L = Some (s', o) ->
  mv (sops ++ L) = mv sops + length (filter is_move (kinds (C cx) glob cx wf chained_kind s L)) /\ ln (sops ++ L) = ln sops + length (filter is_printed (kinds (C cx) glob cx wf chained_kind s L)).
Proof. intros R E. unfold moves, lines. rewrite (kinds_app (C cx) glob cx wf chained_kind _ _ _ _ _ (run_exec (C cx) glob cx wf _ _ _ _ R)). rewrite !filter_app, !app_length. auto. Qed.
Lemma farm_complete j : forall ops d tr s sops str, farm_run cl sv rhooks conf glob now ops d tr -> run_at (fm_fleet d) k cx wf s -> sysrun (C cx) glob cx wf sh0 sops s str -> (forall op, In op sops -> orderly wf tame_worker op) ->
  Permutation l (map snd (farm_connected ops)) -> work_bound 76 wf + 12 * ln sops - mv sops <= j ->
  exists more d' o s' r, Forall (own_doing gh c code l d' k) more /\ qx d more = Some (d', o) /\ run_at (fm_fleet d') k cx wf s' /\ ws_main (sy_w s') = WpDone r.
Proof.
  induction j as [j IH] using (well_founded_induction Wf_nat.lt_wf). intros ops d tr s sops str R Hat Hs Ho P Hj. destruct Run as (R1 & R2 & R3 & R4).
  destruct (C126_chained_never_stuck _ _ _ _ _ _ _ _ _ _ _ Hnd R1 R2 R3 R4 Hs Ho gh c [] None code Keep) as [[r Hd]|Hc]; [cbn; discriminate|exists [], d, [], s, r; cbn; auto|].
  assert (Htd := farm_tidy _ _ _ _ _ _ _ _ R Hat).
  assert (Next : forall more d1 o1 L s1 o2, Forall (own_doing gh c code l d1 k) more -> qx d more = Some (d1, o1) -> sysexec (C cx) glob cx wf s L = Some (s1, o2) -> run_at (fm_fleet d1) k cx wf s1 ->
    (forall op, In op L -> orderly wf tame_worker op) -> ln (sops ++ L) = ln sops -> mv sops < mv (sops ++ L) ->
    exists more d' o s' r, Forall (own_doing gh c code l d' k) more /\ qx d more = Some (d', o) /\ run_at (fm_fleet d') k cx wf s' /\ ws_main (sy_w s') = WpDone r).
  { intros more d1 o1 L s1 o2 Hm E1 E2 Hat1 HL Hln Hmv. assert (Hs1 := sysexec_run _ _ _ _ _ _ _ _ _ _ _ Hs E2). assert (B := C125_chained _ _ _ _ _ _ _ _ _ _ _ Hnd Hs1).
    destruct (IH (work_bound 76 wf + 12 * ln (sops ++ L) - mv (sops ++ L))) with (ops := ops ++ more) (d := d1) (tr := tr ++ o1) (s := s1) (sops := sops ++ L) (str := str ++ o2) as (more2 & d' & o & s' & r & A1 & A2 & A3 & A4);
      [lia|eapply qexec_reach; eassumption|exact Hat1|exact Hs1|intros op Hop; apply in_app_iff in Hop as [Hop|Hop]; auto| |lia|].
    { unfold farm_connected. rewrite flat_map_app, (own_connects _ _ _ _ _ _ _ Hm), app_nil_r. exact P. }
    exists (more ++ more2), d', (o1 ++ o), s', r. split; [apply Forall_app; split; [eapply own_doing_grows; eassumption|exact A1]|]. split; [eapply qexec_app; eassumption|auto]. }
  destruct (goes_or_consults _ _ _ _ _ _ Htd Hc) as [(look & op & s1 & o1 & s2 & o2 & Hf & El & Hk & Es & Hm)|(i & st & W)].
  - assert (EL : sysexec (C cx) glob cx wf s (look ++ [op]) = Some (s2, o1 ++ o2)) by (eapply (sysexec_app (C cx)); [exact El|]; cbn [sysexec]; rewrite Es, app_nil_r; reflexivity).
    assert (Fe : Forall (fun op => is_env op = false) (look ++ [op])) by (eapply Forall_impl; [|exact Hf]; intros x Hx; destruct x as [[]| |]; cbn in *; auto; destruct Hx).
    assert (Fp : Forall (fun op => inner_picks op = false) (look ++ [op])) by (eapply Forall_impl; [|exact Hf]; intros x Hx; destruct x as [|? [[]| | | | | |]|? [[]| | | | | |]]; cbn in *; auto; destruct Hx).
    destruct (lift_exec (fun cx => C cx) glob _ _ _ _ _ _ _ _ Hat EL Fe) as (f' & F1 & F2). destruct (qexec_fleet k _ d _ _ F1 Fp) as (d1 & o3 & G1 & G2).
    destruct (farm_more_moves _ _ _ _ _ _ Hs EL) as [M1 M2]. rewrite (served_quiet _ _ _ _ _ _ _ Hf) in M2.
    eapply (Next _ d1 o3 (look ++ [op]) s2 (o1 ++ o2)); [|exact G1|exact EL|rewrite G2; exact F2| |lia|].
    + apply Forall_map. eapply Forall_impl; [|exact Hf]. intros x Hx. left. eauto.
    + intros x Hx. rewrite Forall_forall in Hf. specialize (Hf x Hx). destruct x as [[|g|i jo|i|e]|i io|p io]; cbn [goes_on orderly] in *; try exact Logic.I; try (destruct Hf; fail).
      * destruct jo as [|g|[]]; try exact Logic.I; destruct Hf.
      * destruct io as [[[]| | | |]| | | | | |]; cbn [plain_served tame_worker tame_distant] in *; try exact Logic.I. subst. exact Keep.
    + rewrite M1, (kinds_app (C cx) glob cx wf chained_kind _ _ _ _ _ El), filter_app, app_length. cbn [kinds]. rewrite Es, Hm. cbn [filter is_move length]. lia.
  - assert (W' : farm_wanting (fm_fleet d) k i = Some st) by (rewrite fwanting_fwant; destruct Hat as (r & ca & -> & _ & _ & ->); exact W).
    destruct (farm_wait_over _ _ _ _ _ _ _ _ _ _ _ R W' P Hat) as (more & d1 & o1 & L & s1 & o2 & A1 & A2 & A3 & A4 & A5 & A6). destruct (farm_more_moves _ _ _ _ _ _ Hs A5) as [M1 M2]. destruct (take_kinds _ _ _ _ _ _ A4 A5) as [K1 K2].
    eapply (Next more d1 o1 L s1 o2); [eapply Forall_impl; [|exact A1]; intros op [H|H]; right; auto|exact A2|exact A5|exact A6| |lia|].
    + intros op Hop. rewrite Forall_forall in A4. destruct (A4 op Hop) as (i' & cs & p & ->). exact Logic.I.
    + destruct L; [congruence|]. cbn [length] in K1. lia.
Qed.
End Y.
Lemma farm_alone_filter (fops : list (fop (iop := kop))) (f : @fleet kside) k : alone (filter (fun op => negb (picks_server op)) fops) f k -> alone fops f k.
Proof.
  intros H k' r r' id op Hne Hr Hr' J J' Hop. destruct (inner_picks op) eqn:Ep; [destruct op as [|? [[]| | | | | |]|? [[]| | | | | |]]; try discriminate Ep; reflexivity|].
  eapply (H k' r r' id op Hne Hr Hr' J J').
  assert (S : since k (filter (fun op => negb (picks_server op)) fops) = filter (fun op => negb (picks_server op)) (since k fops)).
  { clear. revert k. induction fops as [|x fops IH]; intros k; [reflexivity|]. cbn [filter since]. destruct x as [| |k' [|? [[]| | | | | |]|? [[]| | | | | |]]| | |]; cbn [picks_server negb since]; try apply IH. destruct k; [reflexivity|apply IH]. }
  rewrite S. unfold run_ops in *. apply in_flat_map in Hop as (x & Hx & Hin). apply in_flat_map. exists x. split; [|exact Hin]. apply filter_In. split; [exact Hx|].
  destruct x as [| |k1 o| | |]; try destruct Hin. destruct (Nat.eqb k1 k'); [|destruct Hin]. destruct Hin as [->|[]]. destruct op as [|? [[]| | | | | |]|? [[]| | | | | |]]; try discriminate Ep; reflexivity.
Qed.

(** *** How often a run asks and goes on with its calls *)
Definition my_call (q : farm) (k c : nat) : bool := match nth_error (fm_asked q) c with Some a => Nat.eqb (as_run a) k | None => false end.
Definition consulting (q : farm) (k : nat) (op : qop) : bool := match op with QAsk k' _ _ => Nat.eqb k' k | QLock c => my_call q k c | _ => false end.
Definition in_progress (q : farm) (k : nat) : nat := weight (fun c x => if my_call q k c then 3 - rank x else 0) (sm_calls (fm_sched q)).
Definition fpick_of (k : nat) (f : option (fop (iop := kop))) : nat := match f with Some f => length (filter inner_picks (run_ops k [f])) | None => 0 end.
Lemma consulting_spec q k op : qs q op <> None -> consulting q k op = true <-> consults q k op.
Proof.
  intros E. destruct op as [a|fo|k' i l|c]; cbn [consulting]; unfold consults.
  - split; [discriminate|]. intros [(i & l & K)|(c & i & K & _)]; discriminate K.
  - split; [discriminate|]. intros [(i & l & K)|(c & i & K & _)]; discriminate K.
  - rewrite Nat.eqb_eq. split; [intros ->; eauto|]. intros [(i' & l' & [= <- <- <-])|(c & i' & K & _)]; [reflexivity|discriminate K].
  - unfold my_call. split.
    + destruct (nth_error (fm_asked q) c) as [a|] eqn:Ea; [|discriminate]. intros H. apply Nat.eqb_eq in H. right. exists c, (as_job a). split; [reflexivity|]. exists a. auto.
    + intros [(i & l & K)|(c' & i & [= <-] & a & Ea & <- & _)]; [discriminate K|]. rewrite Ea. apply Nat.eqb_refl.
Qed.
Lemma mine_same q d k c : seen_as q d -> mine_call d k c = my_call q k c.
Proof. intros [_ _ _ A]. unfold mine_call, my_call. rewrite A. reflexivity. Qed.
Lemma progress_same q d k : seen_as q d -> under_way d k = in_progress q k.
Proof. intros S. unfold under_way, in_progress. rewrite (sa_sched _ _ S). apply weight_same. intros c x _. rewrite (mine_same _ _ _ _ S). reflexivity. Qed.
Lemma pick_count k k' i cs r : pick_of k (Some (FRunOp k' (YStep i (DPick cs r)))) = fpick_of k (Some (FRunOp k' (YStep i (KFlow (DPick cs r))))).
Proof. unfold pick_of, fpick_of, run_ops. cbn [flat_map]. destruct (Nat.eqb k' k); reflexivity. Qed.
Lemma consulted_step now ops q tr k op q' o : farm_run cl sv rhooks conf glob now ops q tr -> qs q op = Some (q', o) ->
  (if consulting q k op then 1 else 0) + in_progress q k <= in_progress q' k + 3 * fpick_of k (ftaken q op).
Proof.
  intros R E. destruct (outer_farm _ _ _ _ _ _ _ _ _ R) as (pops & d & Hd & S & _). assert (S' := S). destruct S' as [SF SC SS SA].
  assert (Eq : match op with QConnect _ | QFleet _ => fm_asked q' = fm_asked q /\ fm_sched q' = fm_sched q | _ => True end).
  { destruct op as [a|fo|k' i l|c]; try exact Logic.I; cbn [qstep] in E; [injection E as <- <-; auto|]. destruct (picks_server fo); [discriminate|]. destruct (farm_fleet_step _ _ _ _ _ _ _) as [[f x]|]; [|discriminate]. injection E as <- <-. auto. }
  assert (Same : fm_asked q' = fm_asked q /\ fm_sched q' = fm_sched q -> in_progress q k = in_progress q' k).
  { intros [H1 H2]. unfold in_progress. rewrite H2. apply weight_same. intros c x _. unfold my_call. rewrite H1. reflexivity. }
  destruct (outer_step _ _ _ _ _ _ _ _ _ _ S E) as [(_ & _ & fo & ->)|(op' & d' & E' & S2 & Hc)]; [cbn [consulting]; rewrite (Same Eq); lia|].
  destruct op as [a|fo|k' i l|c].
  - cbn [consulting]. rewrite (Same Eq). lia.
  - cbn [consulting]. rewrite (Same Eq). lia.
  - destruct op' as [| |k2 i2 l2|]; cbn [as_client] in Hc; try (exfalso; exact Hc). destruct Hc as (<- & <- & <-). assert (K := served_step _ _ _ _ _ _ k _ _ _ Hd E'). rewrite (progress_same _ _ _ S), (progress_same _ _ _ S2) in K. cbn [serving consulting] in *.
    replace (fpick_of k (ftaken q (QAsk k' i l))) with (pick_of k (taken d (PAsk k' i l))); [exact K|]. cbn [taken ftaken]. rewrite (wanting_outer _ _ _ _ S), SC, SS, SA. destruct (farm_wanting _ _ _); [|reflexivity]. destruct (smach_step _ _) as [[m o1]|]; [|reflexivity].
    destruct (answered o1); [|reflexivity]. apply pick_count.
  - destruct op' as [| | |c2]; cbn [as_client] in Hc; try (exfalso; exact Hc). subst c2. assert (K := served_step _ _ _ _ _ _ k _ _ _ Hd E'). rewrite (progress_same _ _ _ S), (progress_same _ _ _ S2) in K. cbn [serving consulting] in *. rewrite (mine_same _ _ _ _ S) in K.
    replace (fpick_of k (ftaken q (QLock c))) with (pick_of k (taken d (PLock c))); [exact K|]. cbn [taken ftaken]. rewrite SS, SA. destruct (nth_error _ _); [|reflexivity]. destruct (smach_step _ _) as [[m o1]|]; [|reflexivity].
    destruct (answered o1); [|reflexivity]. apply pick_count.
Qed.
Lemma progress_bound now ops q tr k r : farm_run cl sv rhooks conf glob now ops q tr -> nth_error (fl_runs (fm_fleet q)) k = Some r -> in_progress q k <= 2 * length (ws_tasks (sy_w (fr_sys r))).
Proof.
  intros R Hr. destruct (outer_farm _ _ _ _ _ _ _ _ _ R) as (pops & d & Hd & S & _). rewrite <- (progress_same _ _ _ S). destruct S as [SF _ _ _].
  assert (Ho : nth_error (fl_runs (outer_fleet (fm_fleet q))) k = Some (outer_run r)) by (cbn [outer_fleet fl_runs]; apply map_nth_error, Hr).
  destruct (same_run _ _ _ _ (same_sym _ _ SF) Ho) as (r' & Hr' & Hf). assert (B := under_way_bound _ _ _ _ _ _ _ _ Hd Hr').
  assert (K : unsettled (fr_sys r') = unsettled (outer_sys (fr_sys r))) by exact (f_equal fr_sys Hf). assert (K2 := f_equal (fun s => ws_tasks (sy_w s)) K). cbn in K2. rewrite K2 in B. exact B.
Qed.

(** *** Unending executions *)
Section X.
Variable now : time.
Variable stq : nat -> farm.
Variable act : nat -> option qop.
Hypothesis Ex : farm_execution cl sv rhooks conf glob stq act now.
Definition ffact (n : nat) : option (fop (iop := kop)) := match act n with Some op => ftaken (stq n) op | None => None end.
Lemma farm_fleet_exec : fleet_execution (fun cx => C cx) glob (fun n => fm_fleet (stq n)) ffact now.
Proof.
  destruct Ex as [E0 En]. split; [rewrite E0; reflexivity|]. intros n. specialize (En n). unfold ffact. destruct (act n) as [op|]; [|rewrite En; reflexivity].
  destruct En as [o E]. apply ftaken_step in E. destruct (ftaken (stq n) op); [exact E|exact E].
Qed.
Lemma doings_run n : exists tr, farm_run cl sv rhooks conf glob now (doings act n) (stq n) tr.
Proof.
  destruct Ex as [E0 En]. induction n as [|n [tr IH]]; [exists []; rewrite E0; constructor|]. specialize (En n). cbn [doings]. destruct (act n) as [op|].
  - destruct En as [o E]. exists (tr ++ o). eapply farm_step; eassumption.
  - exists tr. rewrite En, app_nil_r. exact IH.
Qed.
Lemma farm_hist_filter n : filter (fun op => negb (picks_server op)) (history ffact n) = farm_ops (doings act n).
Proof.
  induction n as [|n IH]; [reflexivity|]. cbn [history doings]. unfold farm_ops. rewrite filter_app, flat_map_app. fold (farm_ops (doings act n)). rewrite IH. f_equal.
  destruct Ex as [_ En]. specialize (En n). unfold ffact. destruct (act n) as [op|]; [|reflexivity]. destruct En as [o E]. apply ftaken_kind in E.
  destruct op as [a|fo|k i l|c]; [| destruct E as [-> E]; cbn [filter flat_map]; rewrite E; reflexivity| |].
  all: match goal with |- context [ftaken ?d ?op] => destruct (ftaken d op) as [fo|]; [|reflexivity]; cbn [filter flat_map]; rewrite (E fo eq_refl); reflexivity end.
Qed.
Hypothesis Nam : forall n, named (fm_fleet (stq n)).
Variables (k n0 : nat) (cx : ectx) (wf : workflow) (s0 : @system kside).
Hypothesis At0 : run_at (fm_fleet (stq n0)) k cx wf s0.
Hypothesis Al : forall n, alone (farm_ops (doings act n)) (fm_fleet (stq n)) k.
Hypothesis Ok : forall n op, act n = Some (QFleet (FRunOp k op)) -> orderly wf tame_worker op.
Hypothesis Run : runnable wf.
Variables (gh : github) (c : exec_context unit) (code : option Z).
Hypothesis Keep : keeps_steps c.
Hypothesis Fair : tended cl sv rhooks conf glob stq act (plain_served c code) gh k cx wf.
Hypothesis Silent : falls_silent stq act k cx wf.

Lemma ffact_own n op : ffact n = Some (FRunOp k op) -> inner_picks op = false -> act n = Some (QFleet (FRunOp k op)).
Proof.
  unfold ffact. destruct Ex as [_ En]. specialize (En n). destruct (act n) as [p|]; [|discriminate]. destruct En as [o E]. apply ftaken_kind in E. intros H Hp.
  destruct p as [a|fo|k' i l|c']; [|destruct E as [E _]; rewrite E in H; congruence| |]; specialize (E _ H); destruct op as [|? [[]| | | | | |]|? [[]| | | | | |]]; try discriminate E; discriminate Hp.
Qed.
Lemma ffact_tame n op : ffact n = Some (FRunOp k op) -> orderly wf tame_worker op.
Proof. intros H. destruct (inner_picks op) eqn:Ep; [destruct op as [|? [[]| | | | | |]|? [[]| | | | | |]]; try discriminate Ep; exact Logic.I|]. eapply Ok, ffact_own; eassumption. Qed.
Fixpoint consulted (n : nat) : nat := match n with 0 => 0 | S m => consulted m + match act m with Some op => if consulting (stq m) k op then 1 else 0 | None => 0 end end.
Lemma consulted_bound n : consulted n <= in_progress (stq n) k + 3 * length (filter inner_picks (run_ops k (history ffact n))).
Proof.
  induction n as [|n IH]; [cbn; lia|]. cbn [consulted history]. rewrite run_ops_app, filter_app, app_length. destruct Ex as [_ En]. specialize (En n). unfold ffact at 2. destruct (act n) as [op|].
  - destruct En as [o E]. destruct (doings_run n) as [tr R]. assert (S := consulted_step _ _ _ _ k _ _ _ R E). unfold fpick_of in S. destruct (ftaken (stq n) op); [lia|]. cbn [run_ops flat_map filter length]. lia.
  - rewrite En. cbn [run_ops flat_map filter length]. lia.
Qed.
Notation stf := (fun n => fm_fleet (stq n)).
Notation seen := (seen (fun cx => C cx) glob tame_worker chained_kind stf ffact k cx wf).
Lemma farm_seen_total n s sh0 mv ln : seen n s sh0 mv ln -> mv <= work_bound 76 wf + 12 * ln /\ consulted n <= 5 * mv /\ tidy (outer_sys s).
Proof.
  intros (ops & tr & Hat & Hs & Ho & Hm & Hl & Hf). assert (Hnd : NoDup (keys (wf_jobs wf))) by (destruct Hat as (r & ca & Hr & _ & <- & _); exact (Nam _ k r Hr)).
  assert (B := C125_chained _ _ _ _ _ _ _ _ _ _ _ Hnd Hs). rewrite Hm, Hl in B. split; [exact B|]. destruct (farm_work_done _ _ _ _ _ _ Hs) as [W1 W2]. rewrite Hm in W1, W2. destruct (doings_run n) as [dtr R]. split; [|eapply farm_tidy; eassumption].
  assert (S := consulted_bound n). rewrite <- Hf in S. destruct Hat as (r & ca & Hr & Hc & Hw & ->). assert (U := progress_bound _ _ _ _ _ _ R Hr). cbn [settle sy_w ws_tasks] in W1.
  assert (P : length (filter inner_picks (filter (fun op => negb (is_env op)) ops)) <= length (filter inner_picks ops)).
  { clear. induction ops as [|x ops IH]; [cbn; lia|]. cbn [filter]. destruct (negb (is_env x)); cbn [filter]; destruct (inner_picks x); cbn [length]; lia. }
  lia.
Qed.
Lemma consulted_grows n m : n <= m -> consulted n <= consulted m.
Proof. induction 1 as [|m _ IH]; [lia|]. cbn [consulted]. lia. Qed.
Lemma farm_live : exists r, comes_to stq k cx wf r.
Proof.
  assert (FE := farm_fleet_exec). assert (Al' : forall n, alone (history ffact n) (stf n) k) by (intros n; apply farm_alone_filter; rewrite farm_hist_filter; apply Al).
  destruct Silent as [N HN]. destruct (seen_first (fun cx => C cx) glob tame_worker (fun cx => chained_faithful cx cl sv rhooks conf) chained_kind now stf ffact FE Nam k n0 cx wf s0 At0 Al' ffact_tame) as (sh0 & mv0 & ln0 & S0).
  assert (Later := seen_later (fun cx => C cx) glob tame_worker (fun cx => chained_faithful cx cl sv rhooks conf) chained_kind now stf ffact FE Nam k cx wf Al' ffact_tame).
  assert (Step := seen_step (fun cx => C cx) glob tame_worker (fun cx => chained_faithful cx cl sv rhooks conf) chained_kind now stf ffact FE Nam k cx wf Al' ffact_tame).
  assert (Pr : forall n op, acts chained_kind stf ffact k cx wf n op Printed -> N <= n -> False).
  { intros n op (a & b & Ha & Hb & Hc & Hd) Hn. apply (HN n Hn). exists op, a, b. split; [|auto]. apply ffact_own; [exact Ha|]. destruct (inner_picks op) eqn:Ep; [|reflexivity]. rewrite (pick_works a op b Ep) in Hd. discriminate Hd. }
  destruct (Later n0 (Nat.max n0 N) ltac:(lia) _ _ _ _ S0) as (s1 & mv1 & ln1 & S1 & _).
  set (B := 6 * (work_bound 76 wf + 12 * ln1)).
  assert (Go : forall j n s mv, N <= n -> seen n s sh0 mv ln1 -> B - (mv + consulted n) <= j -> exists n s mv r, seen n s sh0 mv ln1 /\ N <= n /\ ws_main (sy_w s) = WpDone r).
  { induction j as [j IH] using (well_founded_induction Wf_nat.lt_wf). intros n s mv Hn Hse Hle.
    destruct (farm_seen_total _ _ _ _ _ Hse) as (T1 & T2 & Htd). assert (Hse' := Hse). destruct Hse' as (ops & tr & Hat & Hs & Ho & Hm & Hl & _).
    destruct Run as (R1 & R2 & R3 & R4). assert (Hnd : NoDup (keys (wf_jobs wf))) by (destruct Hat as (r & ca & Hr & _ & <- & _); exact (Nam _ k r Hr)).
    destruct (C126_chained_never_stuck _ _ _ _ _ _ _ _ _ _ _ Hnd R1 R2 R3 R4 Hs Ho gh c [] None code Keep) as [[r Hd]|Hc]; [cbn; discriminate|exists n, s, mv, r; auto|].
    assert (Hx : can_move (C cx) glob cx wf chained_kind (goes_on gh (plain_served c code)) s \/ exists op, consults (stq n) k op /\ qs (stq n) op <> None).
    { destruct (goes_or_consults _ _ _ _ _ _ Htd Hc) as [H|(i & st & W)]; [auto|]. right. destruct (doings_run n) as [dtr R]. destruct (outer_farm _ _ _ _ _ _ _ _ _ R) as (pops & d & Hd & S & _).
      assert (W' : farm_wanting (fm_fleet (stq n)) k i = Some st) by (rewrite fwanting_fwant; destruct Hat as (r & ca & -> & _ & _ & ->); exact W). rewrite <- (wanting_outer _ _ _ _ S) in W'.
      destruct (asked_for d k i) eqn:Ea.
      - apply asked_for_spec in Ea as [c0 [L M]]. exists (QLock c0). split; [right; exists c0, i; split; [reflexivity|eapply made_call; eassumption]|].
        assert (K := lock_possible _ _ _ _ _ _ c0 Hd L). destruct (pstep cl glob d (PLock c0)) as [[d1 o1]|] eqn:E1; [|contradiction]. destruct (step_inner _ _ (QLock c0) (PLock c0) _ _ S eq_refl E1) as (q1 & o2 & -> & _). discriminate.
      - assert (Np : forall c0, ~ pending d c0 k i) by (intros c0 Hc0; assert (K : asked_for d k i = true) by (apply asked_for_spec; eauto); congruence).
        exists (QAsk k i (map snd (connected pops))). split; [left; eauto|]. assert (K := ask_possible _ _ _ _ _ _ k i st (map snd (connected pops)) Hd W' Np (Permutation_refl _)).
        destruct (pstep cl glob d (PAsk k i (map snd (connected pops)))) as [[d1 o1]|] eqn:E1; [|contradiction]. destruct (step_inner _ _ (QAsk k i (map snd (connected pops))) (PAsk k i (map snd (connected pops))) _ _ S eq_refl E1) as (q1 & o2 & -> & _). discriminate. }
    destruct (Fair n s Hat Hx) as (m & Hnm & Hdone). destruct (Later n m Hnm _ _ _ _ Hse) as (s2 & mv2 & ln2 & S2 & L1 & L2 & L3 & _).
    assert (ln2 = ln1) as -> by (destruct (Nat.lt_ge_cases ln1 ln2) as [Q|Q]; [destruct (L3 Q) as (p & op' & Hp & Hpr); destruct (Pr p op' Hpr ltac:(lia))|lia]).
    destruct (Step _ _ _ _ _ S2) as (s3 & mv3 & ln3 & S3 & L4 & L5 & L6 & L7 & _).
    assert (ln3 = ln1) as -> by (destruct (Nat.lt_ge_cases ln1 ln3) as [Q|Q]; [destruct (L6 Q) as (op' & Hpr); destruct (Pr m op' Hpr ltac:(lia))|lia]).
    assert (G := consulted_grows n m Hnm). destruct (farm_seen_total _ _ _ _ _ S3) as (T3 & T4 & _).
    assert (Inc : mv2 + consulted m < mv3 + consulted (S m)).
    { destruct Hdone as [(op & a & b & Ha & Hb & Hc' & Hd)|(op & Ha & Hsch)].
      - assert (mv2 < mv3); [|cbn [consulted]; lia]. apply (L7 op). exists a, b. split; [|auto]. unfold ffact. rewrite Ha. reflexivity.
      - cbn [consulted]. rewrite Ha. destruct Ex as [_ En]. specialize (En m). rewrite Ha in En. destruct En as [o E]. apply consulting_spec in Hsch; [|congruence]. rewrite Hsch. lia. }
    eapply (IH (B - (mv3 + consulted (S m)))) with (n := S m); [unfold B in *; lia|lia|exact S3|lia]. }
  destruct (Go (B - (mv1 + consulted (Nat.max n0 N))) (Nat.max n0 N) s1 mv1 (Nat.le_max_r _ _) S1 (Nat.le_refl _)) as (n & s & mv & r & Hse & _ & Hd). exists r, n. intros m Hm.
  destruct (Later n m Hm _ _ _ _ Hse) as (s2 & mv2 & ln2 & (ops & tr & Hat & _) & _ & _ & _ & L). exists s2. auto.
Qed.
End X.
End P.
