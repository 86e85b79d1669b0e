From Verif Require Import Base Types Signals_model Signals_proof Stream_model Stream_spec Stream_proof Cond_model
  Plugins_model Plugins_spec Plugins_proof Exec_model Exec_spec Step_proof Job_proof Workflow_model Workflow_spec Workflow_proof Workflow_inv
  Runner_model Runner_spec Runner_proof Sched_model Remote_model Remote_spec Local_model Local_spec Local_proof Distant_model Distant_spec Distant_proof System_model System_spec System_proof System_flow.

Lemma runner_silent cx me sh p o sh' p' out : step_step cx me sh p (OpRunner o) = Some (sh', p', out) -> out = [].
Proof. unfold step_step. destruct p; try discriminate; destruct (runner_step _ _ _); intros [= <- <- <-]; reflexivity. Qed.

Section B.
Variables (cx : ectx) (rhooks : run_context -> run_context) (conf : run_context -> xconf).
Notation B := (builtin cx rhooks conf).
Lemma builtin_events tr : step_events B tr = engine_events tr.
Proof. induction tr as [|[o|e] tr IH]; cbn; [reflexivity|f_equal; exact IH|exact IH]. Qed.

Lemma lstep_faithful me sh p x op s' o : (forall e, op <> LWorld e) -> lstep cx me rhooks conf (LState sh p x) op = Some (s', o) ->
  (lo_sh s' = sh /\ lo_step s' = p /\ engine_events o = []) \/ exists sop, step_step cx me sh p sop = Some (lo_sh s', lo_step s', engine_events o).
Proof.
  intros Hw E. destruct op as [eo| |i| |e]; cbn [lstep lo_sh lo_step lo_task] in E.
  - right. exists eo.
    assert (K : match step_step cx me sh p eo with Some (sh', p', obs) => Some (LState sh' p' (option_map (see_signal p') x), map LObs obs) | None => None end = Some (s', o)).
    { destruct eo as [|c|[]| | | |ro]; try discriminate E; try exact E; destruct x; try discriminate E; exact E. }
    destruct (step_step cx me sh p eo) as [[[sh' p'] obs]|]; [|discriminate K]. injection K as <- <-. cbn. rewrite engine_obs. reflexivity.
  - left. destruct p; try discriminate E. destruct x; [discriminate E|]. injection E as <- <-. auto.
  - left. assert (K : match x with Some (LTask c x0 []) => match xstep c x0 i with Some (x', o0) => Some (LState sh p (Some (LTask c x' (flat_map sender_ops o0))), map LEff o0) | None => None end | _ => None end = Some (s', o)).
    { destruct i; try discriminate E; exact E. }
    destruct x as [[c x0 [|pd pds]]|]; try discriminate K. destruct (xstep c x0 i) as [[x' o0]|]; [|discriminate K]. injection K as <- <-. cbn. rewrite engine_eff. auto.
  - destruct x as [[c x0 [|pd pds]]|]; try discriminate E. destruct (step_step cx me sh p (OpRunner pd)) as [[[sh' p'] out]|] eqn:Es.
    + injection E as <- <-. right. exists (OpRunner pd). cbn. rewrite Es. rewrite (runner_silent _ _ _ _ _ _ _ _ Es). reflexivity.
    + injection E as <- <-. left. auto.
  - destruct (Hw e eq_refl).
Qed.
Lemma builtin_step me sh p x op sh' p' x' o : rs_step B me sh p x op = Some (sh', p', x', o) ->
  lstep cx me rhooks conf (LState sh p x) op = Some (LState sh' p' x', o) /\ forall e, op <> LWorld e.
Proof.
  cbn [rs_step builtin]. intros E.
  destruct op; try discriminate E;
    (destruct (lstep cx me rhooks conf (LState sh p x) _) as [[[a b c] o']|] eqn:El; [|discriminate E]; cbn in E; injection E as <- <- <- <-; split; [reflexivity|discriminate]).
Qed.
Lemma builtin_faithful : faithful B cx.
Proof.
  intros me sh p x op sh' p' x' o E. destruct (builtin_step _ _ _ _ _ _ _ _ _ E) as [E1 Hw].
  assert (K := lstep_faithful _ _ _ _ _ _ _ Hw E1). rewrite builtin_events. cbn in K. exact K.
Qed.
Definition back (l : lop + env_op) : lop := match l with inl op => op | inr e => LWorld e end.
Lemma builtin_hist me st ops sh p x tr : irun B me st ops sh p x tr -> lrun cx me rhooks conf st (map back ops) (LState sh p x) tr.
Proof.
  induction 1 as [sh|ops sh p x tr op sh' p' x' o Hr IH E|ops sh p x tr e Hr IH]; [apply lrun_init| |].
  - rewrite map_app. eapply lrun_step; [exact IH|]. apply builtin_step in E as [E _]. exact E.
  - rewrite map_app. rewrite <- (app_nil_r tr). eapply lrun_step; [exact IH|reflexivity].
Qed.
Lemma lrun_hist me st ops s tr : lrun cx me rhooks conf st ops s tr -> exists ins, lhist cx me rhooks conf st ops s tr ins.
Proof. induction 1 as [sh|ops s tr op s' o Hr [ins IH] E]; [exists []; constructor|]. eexists. eapply lhist_step; eassumption. Qed.
Lemma ran_is_builtin all i st evs r : ran B all i st evs r -> ran_builtin cx rhooks conf all i st evs r.
Proof.
  intros (ops & sh & x & tr & H1 & H2 & H3). apply builtin_hist in H1. destruct (lrun_hist _ _ _ _ _ H1) as [ins H].
  exists (map back ops), (LState sh (SpDone r) x), tr, ins. split; [exact H|]. split; [reflexivity|]. split; [rewrite <- builtin_events; exact H2|].
  intros op Hop. apply in_map_iff in Hop as (l & <- & Hl). specialize (H3 l Hl). destruct l as [op|e]; cbn in *; [left; exact H3|right; eauto].
Qed.

(** *** Executions without signals: the same machine, with the transitions that hand a signal to a step removed. *)
Definition hushed : rside (option ltask) lop lobs :=
  RSide None (fun me sh p x op => match passes_on (LState sh p x) op with Some _ => None | None => rs_step B me sh p x op end) (rs_ev B).
Lemma hushed_faithful : faithful hushed cx.
Proof.
  intros me sh p x op sh' p' x' o E. cbn [rs_step hushed] in E. destruct (passes_on _ _); [discriminate|]. exact (builtin_faithful _ _ _ _ _ _ _ _ _ E).
Qed.
Lemma hushed_hist me st ops sh p x tr : irun hushed me st ops sh p x tr ->
  exists ins, lhist cx me rhooks conf st (map back ops) (LState sh p x) tr ins /\ raised ins = [] /\ forall i, In i ins -> In (inl (LRunner i)) ops.
Proof.
  induction 1 as [sh|ops sh p x tr op sh' p' x' o Hr (ins & H & Hq & Hi) E|ops sh p x tr e Hr (ins & H & Hq & Hi)].
  - exists []. split; [constructor|]. split; [reflexivity|]. intros i [].
  - cbn [rs_step hushed] in E. destruct (passes_on (LState sh p x) op) as [g|] eqn:Hp; [discriminate|]. apply builtin_step in E as [E Hw].
    exists (ins ++ happens (LState sh p x) op). rewrite map_app. split; [eapply lhist_step; eassumption|]. split.
    + rewrite raised_app, Hq. cbn [app]. destruct op as [eo| |i| |e]; cbn [happens]; rewrite ?Hp; try reflexivity.
      cbn [lstep] in E. destruct i; try discriminate E; reflexivity.
    + intros i Hin. apply in_app_iff in Hin as [Hin|Hin]; apply in_or_app; [left; auto|]. right.
      destruct op as [eo| |i'| |e]; cbn [happens] in Hin; rewrite ?Hp in Hin; try contradiction. destruct Hin as [<-|[]]. left. reflexivity.
  - exists (ins ++ []). rewrite map_app. split; [|split].
    + rewrite <- (app_nil_r tr). replace (@nil xinput) with (happens (LState sh p x) (LWorld e)); [eapply lhist_step; [exact H|reflexivity]|].
      cbn [happens]. unfold passes_on. cbn [lo_step]. destruct p; reflexivity.
    + rewrite app_nil_r. exact Hq.
    + rewrite app_nil_r. intros i Hin. apply in_or_app. left. auto.
Qed.

Lemma unraised_env sh e : ~ raises e -> unraised sh -> unraised (env_step sh e).
Proof.
  intros Hn U. destruct e as [d|o|c]; cbn [env_step]; [exact U| |exact U]. unfold unraised, set_sm. cbn [sh_sm]. intros a c. destruct o as [j|j|k j|k|b so]; cbn [sm_step fst].
  - cbn [sm_heap]. intros H. destruct (Nat.lt_ge_cases a (length (sm_heap (sh_sm sh)))) as [Hl|Hl].
    + rewrite nth_error_app1 in H by exact Hl. eapply U, H.
    + rewrite nth_error_app2 in H by exact Hl. apply nth_error_In in H as [<-|[]]. reflexivity.
  - exact (U a c).
  - destruct (lookup _ _); exact (U a c).
  - destruct (Hn I).
  - destruct (nth_error (sm_heap (sh_sm sh)) b) as [cell|] eqn:Eb; [|exact (U a c)].
    destruct (sig_step cell so) as [cell' r] eqn:Es. cbn [fst sm_heap]. intros H. destruct (Nat.eq_dec a b) as [->|Hne].
    + erewrite list_set_eq in H by exact Eb. injection H as <-. assert (Hc := U _ _ Eb).
      destruct so; try (destruct (Hn I)); cbn in Es; try (injection Es as <- <-; exact Hc).
      unfold sig_poll in Es. rewrite Hc in Es. destruct (sg_notified cell); injection Es as <- <-; (reflexivity || exact Hc).
    + rewrite list_set_ne in H by exact Hne. eapply U, H.
Qed.
Lemma unraised_envs es : forall sh, (forall e, In e es -> ~ raises e) -> unraised sh -> unraised (env_steps sh es).
Proof. induction es as [|e es IH]; intros sh He U; [exact U|]. apply (IH (env_step sh e)); [intros e' H; apply He; right; exact H|]. apply unraised_env; [apply He; left; reflexivity|exact U]. Qed.
Lemma unraised_passes sh p x op : unraised sh -> op <> LEngine OpTimer -> passes_on (LState sh p x) op = None.
Proof.
  intros U H. unfold passes_on. cbn [lo_step lo_sh]. destruct p; try reflexivity. destruct op as [[]| | | |]; try reflexivity; [congruence|].
  destruct (nth_error _ a) as [c|] eqn:En; [|reflexivity]. destruct (sg_notified c); [reflexivity|]. eapply U, En.
Qed.

Variable glob : glob_oracle.
Variable wf : workflow.
Lemma hush sh0 ops s tr : sysrun B glob cx wf sh0 ops s tr -> unraised sh0 -> (forall e, In (YFlow (WEnv e)) ops -> ~ raises e) -> (forall i, ~ In (YStep i (LEngine OpTimer)) ops) ->
  sysrun hushed glob cx wf sh0 ops s tr /\ unraised (ws_sh (sy_w s)).
Proof.
  intros Hr U0. induction Hr as [|ops s tr op s' o Hr IH E]; intros He Ht; [split; [constructor|exact U0]|].
  destruct IH as [H U]; [intros e Hin; apply He, in_or_app; left; exact Hin|intros i Hin; apply (Ht i), in_or_app; left; exact Hin|].
  assert (Last : In op (ops ++ [op])) by (apply in_or_app; right; left; reflexivity).
  assert (I := sys_inv B glob cx wf builtin_faithful _ _ _ _ Hr).
  assert (K : sysstep hushed glob cx wf s op = Some (s', o)).
  { destruct op as [wo|i io|k io]; cbn [sysstep] in E |- *; [exact E| |].
    - destruct (nth_error (ws_tasks (sy_w s)) i) as [t|]; [|discriminate]. destruct (nth_error (sy_cur s) i) as [x|]; [|discriminate].
      destruct (tk_phase t) as [| | | | | | | | | |t0 js rs sp rest| | | |]; try discriminate E. cbn [rs_step hushed].
      rewrite unraised_passes; [exact E|exact U|]. intros ->. exact (Ht i Last).
    - destruct (nth_error (sy_past s) k) as [[i [[sh p] x]]|] eqn:Ek; [|discriminate]. cbn [rs_step hushed].
      destruct (si_past B cx _ _ _ I _ (nth_error_In _ _ Ek)) as (st & r & iops & os & Hp & _). cbn [fst snd] in Hp. subst p. exact E. }
  split; [eapply sysrun_step; eassumption|]. clear K.
  destruct op as [wo|i io|k io]; cbn [sysstep] in E.
  - destruct (is_step_op wo) eqn:Hs; [discriminate|]. destruct (wstep glob cx wf (sy_w s) wo) as [[w' wtr]|] eqn:Ew; [|discriminate].
    assert (Hw : sy_w s' = w') by (destruct (step_over (sy_w s) wo) as [[i p]|]; injection E as <- <-; reflexivity). rewrite Hw.
    destruct wo as [|gh|i jo|i|e]; cbn [wstep] in Ew.
    + rewrite (main_sh _ _ _ _ _ _ Ew). exact U.
    + destruct (ws_main (sy_w s)); try discriminate Ew. destruct (is_match_second _ _ _ _) as [cache' b]. injection Ew as <- <-. exact U.
    + destruct (nth_error (ws_tasks (sy_w s)) i) as [t|]; [|discriminate Ew].
      destruct (job_step glob cx (S i) (tk_job t) (ws_sh (sy_w s)) (tk_phase t) jo) as [[[sh' p'] out]|] eqn:Ej; [|discriminate Ew]. injection Ew as <- <-. cbn [ws_sh].
      destruct (job_quiet_env _ _ _ _ _ _ _ _ _ _ Ej) as (es & -> & Hes). apply unraised_envs; assumption.
    + destruct (nth_error (ws_tasks (sy_w s)) i) as [[key j p sent]|] eqn:Ei; [|discriminate]. destruct p as [| | | | | | | | | | | | | |r]; try discriminate.
      destruct sent; [discriminate|]. destruct (ws_main (sy_w s)); try (destruct (Nat.ltb _ _); [|discriminate Ew]); injection Ew as <- <-; exact U.
    + injection Ew as <- <-. cbn [ws_sh]. apply unraised_env; [apply He, Last|exact U].
  - destruct (nth_error (ws_tasks (sy_w s)) i) as [t|]; [|discriminate]. destruct (nth_error (sy_cur s) i) as [x|]; [|discriminate].
    destruct (tk_phase t) as [| | | | | | | | | |t0 js rs sp rest| | | |]; try discriminate E.
    destruct (rs_step B (S i) (ws_sh (sy_w s)) sp x io) as [[[[sh' sp'] x'] out]|] eqn:Es; [|discriminate E]. injection E as <- <-. cbn [sy_w ws_sh].
    destruct (inner_env B cx builtin_faithful _ _ _ _ _ _ _ _ _ Es) as (es & -> & Hes). apply unraised_envs; assumption.
  - destruct (nth_error (sy_past s) k) as [[i [[sh p] x]]|]; [|discriminate]. destruct (rs_step B (S i) sh p x io) as [[[[sh' p'] x'] out]|]; [|discriminate E]. injection E as <- <-. exact U.
Qed.
End B.

Section D.
Variables (cx : ectx) (cl : task -> task).
Notation D := (distant cx cl).
Lemma distant_events tr : step_events D tr = tr.
Proof. induction tr as [|o tr IH]; [reflexivity|]. change (step_events D (o :: tr)) with (o :: step_events D tr). f_equal. exact IH. Qed.
Lemma at_engine_faithful me sh p x o : at_engine cx me (DState sh p x) o = p \/ exists sh', step_step cx me sh p (OpRunner o) = Some (sh', at_engine cx me (DState sh p x) o, []) /\ sh' = sh.
Proof.
  unfold at_engine. cbn [ds_sh ds_step]. destruct (step_step cx me sh p (OpRunner o)) as [[[sh' p'] out]|] eqn:E; [|left; reflexivity]. right. exists sh'.
  rewrite (runner_silent _ _ _ _ _ _ _ _ E) in *. split; [reflexivity|]. unfold step_step in E. destruct p; try discriminate E; destruct (runner_step _ _ _); injection E as <- _; reflexivity.
Qed.
Lemma dengine_faithful me sh p x eo s' o : dengine cx me (DState sh p x) eo = Some (s', o) -> step_step cx me sh p eo = Some (ds_sh s', ds_step s', o).
Proof. unfold dengine. cbn [ds_sh ds_step]. destruct (step_step cx me sh p eo) as [[[sh' p'] out]|]; [|discriminate]. intros [= <- <-]. reflexivity. Qed.
Lemma dstep_faithful me sh p x op s' o : (forall e, op <> DWorld e) -> dstep cx me (cl me) (DState sh p x) op = Some (s', o) ->
  (ds_sh s' = sh /\ ds_step s' = p /\ o = []) \/ exists sop, step_step cx me sh p sop = Some (ds_sh s', ds_step s', o).
Proof.
  intros Hw E. destruct op as [eo|clients pick|i| |e]; cbn [dstep] in E.
  - right. exists eo. apply (dengine_faithful me sh p x). destruct eo as [|c|[]| | | |ro]; try discriminate E; try exact E.
    cbn [ds_task] in E. destruct x as [[[rm|] sg pend]|]; try discriminate E; [exact E|]. destruct pend; [exact E|discriminate E].
  - left. cbn [ds_step ds_task ds_sh] in E. destruct p; try discriminate E. destruct x; [discriminate E|]. destruct (client_start clients pick) as [[effs|?]|]; try discriminate E; injection E as <- <-; auto.
  - cbn [ds_task ds_sh ds_step] in E. destruct x as [[[rm|] sg pend]|]; try discriminate E. destruct (_ && _); [discriminate E|]. destruct (remote_step rm i) as [r'|]; [|discriminate E].
    assert (Keep : forall t, Some (DState sh p t, @nil obs) = Some (s', o) -> ds_sh s' = sh /\ ds_step s' = p /\ o = []) by (intros t [= <- <-]; auto).
    destruct i; try (left; eapply Keep; exact E).
    destruct (sig_poll (cl me) sg) as [sg' [g'|]]; [|discriminate E]. destruct (eqb _ _); [|discriminate E]. injection E as <- <-. cbn [ds_sh ds_step].
    destruct (at_engine_faithful me sh p (Some (DTask (Some rm) sg pend)) (RSig (OPoll (cl me)))) as [->|(sh' & H & ->)]; [left; auto|right; eauto].
  - cbn [ds_task ds_sh] in E. destruct x as [[rm sg [|ro rest]]|]; try discriminate E. injection E as <- <-. cbn [ds_sh ds_step].
    destruct (at_engine_faithful me sh p (Some (DTask rm sg (ro :: rest))) ro) as [->|(sh' & H & ->)]; [left; auto|right; eauto].
  - destruct (Hw e eq_refl).
Qed.
Lemma distant_step me sh p x op sh' p' x' o : rs_step D me sh p x op = Some (sh', p', x', o) ->
  dstep cx me (cl me) (DState sh p x) op = Some (DState sh' p' x', o) /\ forall e, op <> DWorld e.
Proof.
  cbn [rs_step distant]. intros E.
  destruct op; try discriminate E;
    (destruct (dstep cx me (cl me) (DState sh p x) _) as [[[a b c] o']|] eqn:El; [|discriminate E]; cbn in E; injection E as <- <- <- <-; split; [reflexivity|discriminate]).
Qed.
Lemma distant_faithful : faithful D cx.
Proof.
  intros me sh p x op sh' p' x' o E. destruct (distant_step _ _ _ _ _ _ _ _ _ E) as [E1 Hw].
  assert (K := dstep_faithful _ _ _ _ _ _ _ Hw E1). rewrite distant_events. exact K.
Qed.
Definition dback (l : dop + env_op) : dop := match l with inl op => op | inr e => DWorld e end.
Lemma distant_hist me st ops sh p x tr : irun D me st ops sh p x tr -> exists gs, dhist cx me (cl me) st (map dback ops) (DState sh p x) tr gs.
Proof.
  induction 1 as [sh|ops sh p x tr op sh' p' x' o Hr [gs IH] E|ops sh p x tr e Hr [gs IH]]; [exists []; apply dhist_init| |].
  - rewrite map_app. apply distant_step in E as [E _]. eexists. eapply dhist_step; [exact IH|exact E].
  - rewrite map_app. rewrite <- (app_nil_r tr). eexists. eapply dhist_step; [exact IH|reflexivity].
Qed.
Lemma ran_is_remote all i st evs r : ran D all i st evs r -> ran_remotely cx cl all i st evs r.
Proof.
  intros (ops & sh & x & tr & H1 & H2 & H3). rewrite distant_events in H2. subst tr. apply distant_hist in H1 as [gs H].
  exists (map dback ops), (DState sh (SpDone r) x), gs. split; [exact H|]. split; [reflexivity|].
  intros op Hop. apply in_map_iff in Hop as (l & <- & Hl). specialize (H3 l Hl). destruct l as [op|e]; cbn in *; [left; exact H3|right; eauto].
Qed.
End D.
