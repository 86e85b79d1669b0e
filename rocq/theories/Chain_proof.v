From Verif Require Import Base Types Signals_model Signals_proof Stream_model Stream_spec Stream_proof Cond_model
  Plugins_model Plugins_spec Plugins_proof Exec_model Exec_spec Step_proof Job_proof Workflow_model Workflow_spec Workflow_proof Workflow_inv
  Runner_model Runner_spec Runner_proof Sched_model Remote_model Remote_spec Local_model Local_spec Local_proof Distant_model Distant_spec Distant_proof System_model System_spec System_proof System_flow System_inst
  Finish_spec Finish_proof Finish_step Worker_model Worker_spec Worker_proof Worker_live Worker_props Chain_model Chain_spec.

(** *** Executions without signals, for any runner's side *)
Section Hush.
Context {T iop iobs : Type}.
Variable R : rside T iop iobs.
Variable cx : ectx.
Hypothesis F : faithful R cx.
Variable stop : shared -> step_phase -> T -> iop -> bool.
Variable timer : iop -> Prop.
Hypothesis Hstop : forall sh p x op, unraised sh -> ~ timer op -> stop sh p x op = false.
Hypothesis Hdone : forall sh r x op, stop sh (SpDone r) x op = false.
Definition quieted : rside T iop iobs := RSide (rs_init R) (fun me sh p x op => if stop sh p x op then None else rs_step R me sh p x op) (rs_ev R).
Lemma quieted_faithful : faithful quieted cx.
Proof. intros me sh p x op sh' p' x' o E. cbn [rs_step quieted] in E. destruct (stop _ _ _ _); [discriminate|]. exact (F _ _ _ _ _ _ _ _ _ E). Qed.
Variable glob : glob_oracle.
Variable wf : workflow.
Lemma quiet_run sh0 ops s tr : sysrun R glob cx wf sh0 ops s tr -> unraised sh0 -> (forall e, In (YFlow (WEnv e)) ops -> ~ raises e) -> (forall i o, timer o -> ~ In (YStep i o) ops) ->
  sysrun quieted glob cx wf sh0 ops s tr /\ unraised (ws_sh (sy_w s)).
Proof.
  intros Hr U0. induction Hr as [|ops s tr op s' o Hr IH E]; intros He Ht; [split; [constructor|exact U0]|].
  destruct IH as [H U]; [intros e Hin; apply He, in_or_app; left; exact Hin|intros i o' Ho Hin; apply (Ht i o' Ho), in_or_app; left; exact Hin|].
  assert (Last : In op (ops ++ [op])) by (apply in_or_app; right; left; reflexivity).
  assert (I := sys_inv R glob cx wf F _ _ _ _ Hr).
  assert (K : sysstep quieted glob cx wf s op = Some (s', o)).
  { destruct op as [wo|i io|k io]; cbn [sysstep] in E |- *; [exact E| |].
    - destruct (nth_error (ws_tasks (sy_w s)) i) as [t|]; [|discriminate]. destruct (nth_error (sy_cur s) i) as [x|]; [|discriminate].
      destruct (tk_phase t) as [| | | | | | | | | |t0 js rs sp rest| | | |]; try discriminate E. cbn [rs_step quieted].
      rewrite Hstop; [exact E|exact U|]. intros Hti. exact (Ht i _ Hti Last).
    - destruct (nth_error (sy_past s) k) as [[i [[sh p] x]]|] eqn:Ek; [|discriminate]. cbn [rs_step quieted].
      destruct (si_past R cx _ _ _ I _ (nth_error_In _ _ Ek)) as (st & r & iops & os & Hp & _). cbn [fst snd] in Hp. subst p. rewrite Hdone. exact E. }
  split; [eapply sysrun_step; eassumption|]. clear K.
  destruct op as [wo|i io|k io]; cbn [sysstep] in E.
  - destruct (is_step_op wo) eqn:Hs; [discriminate|]. destruct (wstep glob cx wf (sy_w s) wo) as [[w' wtr]|] eqn:Ew; [|discriminate].
    assert (Hw : sy_w s' = w') by (destruct (step_over (sy_w s) wo) as [[i p]|]; injection E as <- <-; reflexivity). rewrite Hw.
    destruct wo as [|gh|i jo|i|e]; cbn [wstep] in Ew.
    + rewrite (main_sh _ _ _ _ _ _ Ew). exact U.
    + destruct (ws_main (sy_w s)); try discriminate Ew. destruct (is_match_second _ _ _ _) as [cache' b]. injection Ew as <- <-. exact U.
    + destruct (nth_error (ws_tasks (sy_w s)) i) as [t|]; [|discriminate Ew].
      destruct (job_step glob cx (S i) (tk_job t) (ws_sh (sy_w s)) (tk_phase t) jo) as [[[sh' p'] out]|] eqn:Ej; [|discriminate Ew]. injection Ew as <- <-. cbn [ws_sh].
      destruct (job_quiet_env _ _ _ _ _ _ _ _ _ _ Ej) as (es & -> & Hes). apply unraised_envs; assumption.
    + destruct (nth_error (ws_tasks (sy_w s)) i) as [[key j p sent]|] eqn:Ei; [|discriminate]. destruct p as [| | | | | | | | | | | | | |r]; try discriminate.
      destruct sent; [discriminate|]. destruct (ws_main (sy_w s)); try (destruct (Nat.ltb _ _); [|discriminate Ew]); injection Ew as <- <-; exact U.
    + injection Ew as <- <-. cbn [ws_sh]. apply unraised_env; [apply He, Last|exact U].
  - destruct (nth_error (ws_tasks (sy_w s)) i) as [t|]; [|discriminate]. destruct (nth_error (sy_cur s) i) as [x|]; [|discriminate].
    destruct (tk_phase t) as [| | | | | | | | | |t0 js rs sp rest| | | |]; try discriminate E.
    destruct (rs_step R (S i) (ws_sh (sy_w s)) sp x io) as [[[[sh' sp'] x'] out]|] eqn:Es; [|discriminate E]. injection E as <- <-. cbn [sy_w ws_sh].
    destruct (inner_env R cx F _ _ _ _ _ _ _ _ _ Es) as (es & -> & Hes). apply unraised_envs; assumption.
  - destruct (nth_error (sy_past s) k) as [[i [[sh p] x]]|]; [|discriminate]. destruct (rs_step R (S i) sh p x io) as [[[[sh' p'] x'] out]|]; [|discriminate E]. injection E as <- <-. exact U.
Qed.
End Hush.

Section C.
Variables (cx : ectx) (cl sv : task -> task) (rhooks : runner_meta -> run_context -> run_context) (conf : runner_meta -> run_context -> xconf).
Notation C := (chained cx cl sv rhooks conf).
Notation ks me := (kstep cx me (cl me) (sv me) rhooks conf).
Lemma chained_events tr : step_events C tr = k_events tr.
Proof. reflexivity. Qed.
Lemma kwhole_part s : kwhole (ds_sh (k_d s)) (ds_step (k_d s)) (kpart s) = s.
Proof. destruct s as [[sh p t] cxt w lost]. reflexivity. Qed.
Lemma chained_step me sh p x op sh' p' x' o : rs_step C me sh p x op = Some (sh', p', x', o) ->
  ks me (kwhole sh p x) op = Some (kwhole sh' p' x', o) /\ forall e, op <> KFlow (DWorld e).
Proof.
  cbn [rs_step chained]. intros E.
  assert (K : match ks me (kwhole sh p x) op with Some (s', o0) => Some (ds_sh (k_d s'), ds_step (k_d s'), kpart s', o0) | None => None end = Some (sh', p', x', o) /\ forall e, op <> KFlow (DWorld e)).
  { destruct op as [[]| | | | | |]; try discriminate E; (split; [exact E|discriminate]). }
  destruct K as [K N]. split; [|exact N]. destruct (ks me (kwhole sh p x) op) as [[s' o']|]; [|discriminate K]. injection K as <- <- <- <-. rewrite kwhole_part. reflexivity.
Qed.
Lemma outward_world me sh p x op s' o : ks me (kwhole sh p x) op = Some (s', o) -> (forall e, op <> KFlow (DWorld e)) -> forall d, outward (kwhole sh p x) op = [d] -> forall e, d <> DWorld e.
Proof.
  intros _ N d E e ->. destruct op; cbn [outward] in E; try discriminate E; [injection E as ->; exact (N e eq_refl)|].
  destruct (k_w _) as [w|]; [|discriminate E]. destruct (posting _); try discriminate E. destruct (wk_fwd w); discriminate E.
Qed.
Lemma chained_faithful : faithful C cx.
Proof.
  intros me sh p x op sh' p' x' o E. destruct (chained_step _ _ _ _ _ _ _ _ _ E) as [E1 N]. rewrite chained_events.
  destruct (kstep_dstep _ _ _ _ _ _ _ _ _ _ E1) as [(_ & H1 & H2)|(d & H1 & H2)].
  - left. cbn in H1. injection H1 as <- <- _. auto.
  - destruct (dstep_faithful cx cl me sh p (kd_task x) d _ _ (outward_world _ _ _ _ _ _ _ E1 N _ H1) H2) as [(K1 & K2 & K3)|(sop & K)]; [left; cbn in K1, K2; auto|right; exists sop; exact K].
Qed.
Lemma chained_tracks : tracks C cx tame_worker.
Proof.
  intros me sh p x op sh' p' x' o E. destruct (chained_step _ _ _ _ _ _ _ _ _ E) as [E1 N]. rewrite chained_events.
  destruct (kstep_dstep _ _ _ _ _ _ _ _ _ _ E1) as [(_ & H1 & H2)|(d & H1 & H2)].
  - left. cbn in H1. injection H1 as <- <- _. auto.
  - assert (Nd := outward_world _ _ _ _ _ _ _ E1 N _ H1).
    assert (E2 : rs_step (distant cx cl) me sh p (kd_task x) d = Some (sh', p', kd_task x', k_events o)).
    { cbn [rs_step distant]. cbn [kwhole k_d] in H2. rewrite H2. destruct d; try reflexivity. destruct (Nd e eq_refl). }
    destruct (distant_tracks cx cl me sh p _ _ _ _ _ _ E2) as [K|(sop & K1 & K2)]; [left; rewrite distant_events in K; exact K|right].
    exists sop. split; [rewrite distant_events in K1; exact K1|]. intros Ht. apply K2. destruct op; cbn [outward] in H1; try discriminate H1; [injection H1 as <-; exact Ht|].
    destruct (k_w _) as [w|]; [|discriminate H1]. destruct (posting _); try discriminate H1. destruct (wk_fwd w); try discriminate H1; injection H1 as <-; exact Logic.I.
Qed.
Definition kback (l : kop + env_op) : kop := match l with inl op => op | inr e => KFlow (DWorld e) end.
Lemma chained_hist me st ops sh p x tr : irun C me st ops sh p x tr -> exists dops gs ins, khist cx me (cl me) (sv me) rhooks conf st (map kback ops) (kwhole sh p x) tr dops gs ins.
Proof.
  induction 1 as [sh|ops sh p x tr op sh' p' x' o Hr (dops & gs & ins & IH) E|ops sh p x tr e Hr (dops & gs & ins & IH)]; [exists [], [], []; apply khist_init| |].
  - rewrite map_app. apply chained_step in E as [E _]. do 3 eexists. eapply khist_step; [exact IH|exact E].
  - rewrite map_app. rewrite <- (app_nil_r tr). do 3 eexists. eapply khist_step; [exact IH|reflexivity].
Qed.
Lemma ran_is_chained all i st evs r : ran C all i st evs r -> ran_chained cx cl sv rhooks conf all i st evs r.
Proof.
  intros (ops & sh & x & tr & H1 & H2 & H3). rewrite chained_events in H2. apply chained_hist in H1 as (dops & gs & ins & H).
  exists (map kback ops), (kwhole sh (SpDone r) x), tr, dops, gs, ins. split; [exact H|]. split; [reflexivity|]. split; [exact H2|].
  intros op Hop. apply in_map_iff in Hop as (l & <- & Hl). specialize (H3 l Hl). destruct l as [op|e]; cbn in *; [left; exact H3|right; eauto].
Qed.

Section E.
Variable c : exec_context unit.
Variables (clients : map_ string runner_meta) (pick : option runner_meta) (code : option Z).
Notation P := (plain_worker c clients pick code).
Lemma chained_iexec me more : forall sh p x s' o, Forall P more -> kexec cx me (cl me) (sv me) rhooks conf (kwhole sh p x) more = Some (s', o) ->
  iexec C me sh p x more = Some (ds_sh (k_d s'), ds_step (k_d s'), kpart s', o).
Proof.
  induction more as [|op more IH]; intros sh p x s' o Hp E; cbn [kexec] in E; [injection E as <- <-; destruct x; reflexivity|]. inv Hp.
  destruct (ks me (kwhole sh p x) op) as [[s1 o1]|] eqn:E1; [|discriminate]. destruct (kexec cx me (cl me) (sv me) rhooks conf s1 more) as [[s2 o2]|] eqn:E2; [|discriminate]. injection E as <- <-.
  rewrite <- (kwhole_part s1) in E2. cbn [iexec].
  replace (rs_step C me sh p x op) with (Some (ds_sh (k_d s1), ds_step (k_d s1), kpart s1, o1)); [rewrite (IH _ _ _ _ _ H2 E2); reflexivity|].
  symmetry. cbn [rs_step chained]. destruct op as [[]| | | | | |]; try (rewrite E1; reflexivity). destruct H1.
Qed.
Lemma chained_ends : client_start clients pick <> None -> ends_steps C P.
Proof.
  intros Hp me st ops sh p x tr H. apply chained_hist in H as (dops & gs & ins & Hh).
  destruct (worker_ends_from cx me (cl me) (sv me) rhooks conf st c clients pick code Hp _ _ _ _ _ _ _ Hh (Nat.le_refl _)) as (more & s' & o & Hm & X & Dn).
  exists more, (ds_sh (k_d s')), (ds_step (k_d s')), (kpart s'), o. split; [exact Hm|]. split; [apply chained_iexec; assumption|exact Dn].
Qed.
Lemma plain_tame_worker : keeps_steps c -> forall op, P op -> tame_worker op.
Proof. intros K op. destruct op as [[[]| | | |]| | | | | |]; cbn; auto. intros ->. exact K. Qed.
End E.

(** *** Executions in which no signal is handed to a step *)
Definition hands (sh : shared) (p : step_phase) (x : kside) (op : kop) : bool :=
  match flat_map (hands_on (k_d (kwhole sh p x))) (outward (kwhole sh p x) op) with [] => false | _ => true end.
Lemma hands_unraised sh p x op : unraised sh -> op <> KFlow (DEngine OpTimer) -> hands sh p x op = false.
Proof.
  intros U N. unfold hands. assert (K : flat_map (hands_on (k_d (kwhole sh p x))) (outward (kwhole sh p x) op) = []); [|rewrite K; reflexivity].
  cbn [kwhole k_d]. destruct op as [d| | | | | |]; cbn [outward]; try reflexivity.
  - cbn [flat_map]. rewrite app_nil_r. unfold hands_on. cbn [ds_step ds_sh]. destruct p; try reflexivity. destruct d as [[]| | | |]; try reflexivity; [congruence|].
    destruct (nth_error _ a) as [q|] eqn:En; [|reflexivity]. rewrite (U _ _ En). destruct (sg_notified q); reflexivity.
  - destruct (k_w _) as [w|]; [|reflexivity]. destruct (posting _); try reflexivity. destruct (wk_fwd w); try reflexivity; cbn [flat_map]; unfold hands_on; cbn [ds_step]; destruct p; reflexivity.
Qed.
Lemma hands_done sh r x op : hands sh (SpDone r) x op = false.
Proof. unfold hands. assert (K : flat_map (hands_on (k_d (kwhole sh (SpDone r) x))) (outward (kwhole sh (SpDone r) x) op) = []); [|rewrite K; reflexivity]. induction (outward _ op) as [|d l IH]; [reflexivity|]. cbn [flat_map]. rewrite IH. reflexivity. Qed.
Definition hushed_chain := quieted C hands.
Lemma hushed_chain_hist me st ops sh p x tr : irun hushed_chain me st ops sh p x tr -> exists dops ins, khist cx me (cl me) (sv me) rhooks conf st (map kback ops) (kwhole sh p x) tr dops [] ins.
Proof.
  induction 1 as [sh|ops sh p x tr op sh' p' x' o Hr (dops & ins & IH) E|ops sh p x tr e Hr (dops & ins & IH)]; [exists [], []; apply khist_init| |].
  - rewrite map_app. cbn [rs_step hushed_chain quieted] in E. destruct (hands sh p x op) eqn:Hh; [discriminate|]. apply chained_step in E as [E _].
    assert (G : flat_map (hands_on (k_d (kwhole sh p x))) (outward (kwhole sh p x) op) = []) by (unfold hands in Hh; destruct (flat_map _ _); [reflexivity|discriminate]).
    do 2 eexists. assert (K := khist_step _ _ _ _ _ _ _ _ _ _ _ _ _ _ _ _ IH E). rewrite G in K. exact K.
  - rewrite map_app. rewrite <- (app_nil_r tr). do 2 eexists.
    assert (E : ks me (kwhole sh p x) (KFlow (DWorld e)) = Some (kwhole (env_step sh e) p x, [])) by reflexivity.
    assert (K := khist_step _ _ _ _ _ _ _ _ _ _ _ _ _ _ _ _ IH E).
    replace ([] ++ flat_map (hands_on (k_d (kwhole sh p x))) (outward (kwhole sh p x) (KFlow (DWorld e)))) with (@nil signal) in K; [exact K|].
    cbn. unfold hands_on. cbn. destruct p; reflexivity.
Qed.
(** What the layers saw is among the operations of the whole. *)
Lemma khist_members me st ops s tr dops gs ins : khist cx me (cl me) (sv me) rhooks conf st ops s tr dops gs ins ->
  (forall d, In d dops -> In (KFlow d) ops \/ (exists l, d = DRemote (RiLog l)) \/ exists r, d = DRemote (RiResult r)) /\
  (forall i, In i ins -> In (KExec i) ops \/ exists g, i = XISignal g).
Proof.
  induction 1 as [sh|ops s tr dops gs ins op s' o R [IH1 IH2] E]; [split; intros ? []|]. split.
  - intros d Hd. apply in_app_iff in Hd as [Hd|Hd]; [destruct (IH1 d Hd) as [G|G]; [left; apply in_or_app; left; exact G|right; exact G]|].
    destruct op as [d0| | | | | |]; cbn [outward] in Hd; try (exfalso; exact Hd); [destruct Hd as [<-|[]]; left; apply in_or_app; right; left; reflexivity|].
    destruct (k_w s) as [w|]; [|destruct Hd]. destruct (posting s); try (exfalso; exact Hd). destruct (wk_fwd w); try (exfalso; exact Hd); destruct Hd as [<-|[]]; eauto.
  - intros i Hi. apply in_app_iff in Hi as [Hi|Hi]; [destruct (IH2 i Hi) as [G|G]; [left; apply in_or_app; left; exact G|right; exact G]|].
    assert (Hr : forall g, In i (match k_w s with Some w => if wk_listed w then [XISignal g] else [] | None => [] end) -> exists g, i = XISignal g).
    { intros g Hg. destruct (k_w s) as [w|]; [|destruct Hg]. destruct (wk_listed w); [|destruct Hg]. destruct Hg as [<-|[]]. eauto. }
    destruct op as [d0| |i0| | | |]; cbn [inward] in Hi; try (exfalso; exact Hi).
    + destruct d0 as [| |i0| |]; try (exfalso; exact Hi). destruct i0 as [| | | | | | |g [e|]]; try (exfalso; exact Hi). right. eapply Hr; exact Hi.
    + destruct Hi as [<-|[]]. left. apply in_or_app. right. left. reflexivity.
    + destruct (k_lost s) as [|g rest]; [destruct Hi|]. right. eapply Hr; exact Hi.
Qed.
Lemma picked me st ops s tr dops gs ins : khist cx me (cl me) (sv me) rhooks conf st ops s tr dops gs ins -> (forall clients, ~ In (KFlow (DPick clients None)) ops) ->
  forall t, ds_task (k_d s) = Some t -> dt_remote t <> None.
Proof.
  intros H N. assert (Hm := khist_members _ _ _ _ _ _ _ _ H). destruct Hm as [Hm _].
  assert (Nd : forall clients, ~ In (DPick clients None) dops) by (intros cs Hc; destruct (Hm _ Hc) as [G|[[l G]|[l G]]]; [exact (N cs G)|discriminate|discriminate]).
  apply C112_layers in H as [H _]. clear Hm N. revert H Nd. generalize (k_d s) as d, (k_events tr) as evs. induction 1 as [sh|dops d evs gs op d' o R IH E]; [discriminate|].
  intros Nd t T. assert (Nd' : forall clients, ~ In (DPick clients None) dops) by (intros cs Hc; apply (Nd cs), in_or_app; left; exact Hc).
  assert (Last : In op (dops ++ [op])) by (apply in_or_app; right; left; reflexivity). specialize (IH Nd').
  assert (Sh : forall p u, option_map (share p) (ds_task d) = Some u -> dt_remote u <> None).
  { intros p u Hu. destruct (ds_task d) as [t0|] eqn:T0; [|discriminate]. injection Hu as <-. unfold share. destruct (phase_signal p); cbn; apply IH; reflexivity. }
  destruct op as [eo|cs pk|i| |e]; cbn [dstep] in E.
  - assert (D : dengine cx me d eo = Some (d', o)).
    { destruct eo as [|c0|[]| | | |ro]; try discriminate E; try exact E. destruct (ds_task d) as [[[rm|] sg [|? ?]]|]; try discriminate E; exact E. }
    unfold dengine in D. destruct (step_step _ _ _ _ _) as [[[sh' p'] o']|]; [|discriminate]. injection D as <- <-. eapply Sh. exact T.
  - destruct (ds_step d); try discriminate E. destruct (ds_task d); [discriminate E|]. destruct pk as [pk|]; [|destruct (Nd cs Last)].
    cbn [client_start] in E. destruct (lookup _ _); [|discriminate E]. injection E as <- <-. injection T as <-. discriminate.
  - destruct (ds_task d) as [[[rm|] sg pd]|]; try discriminate E. destruct (_ && _); [discriminate E|]. destruct (remote_step rm i) as [r'|]; [|discriminate E].
    destruct i; try (injection E as <- <-; injection T as <-; discriminate). destruct (sig_poll _ _) as [sg' [g'|]]; [|discriminate E]. destruct (eqb _ _); [|discriminate E]. injection E as <- <-. injection T as <-. discriminate.
  - destruct (ds_task d) as [[rm sg [|ro rest]]|] eqn:T0; try discriminate E. injection E as <- <-. injection T as <-. cbn. apply (IH _ eq_refl).
  - injection E as <- <-. apply IH. exact T.
Qed.
Lemma smooth_result me st ops s tr dops ins r : khist cx me (cl me) (sv me) rhooks conf st ops s tr dops [] ins -> ds_step (k_d s) = SpDone r ->
  (forall clients, ~ In (KFlow (DPick clients None)) ops) -> (forall f, is_fault f = true -> ~ In (KFlow (DRemote f)) ops) ->
  ~ In (KExec (XIFs false)) ops -> ~ In (KExec (XICmd (CISpawn false))) ops -> ~ In (KExec (XICmd CIWaitErr)) ops ->
  exists code, In (KExec (XICmd (CIExit code))) ops /\ mirrors (exit_result code) r.
Proof.
  intros H D Hp Hf H1 H2 H3. destruct (khist_members _ _ _ _ _ _ _ _ H) as [M1 M2].
  assert (Cl : clean (remote_events dops)).
  { intros i Hi. unfold remote_events in Hi. apply in_flat_map in Hi as (d & Hd & Hi). destruct d as [|?|i0| |]; try (exfalso; exact Hi). destruct Hi as [->|[]].
    destruct (is_fault i) eqn:Fi; [exfalso|reflexivity]. destruct (M1 _ Hd) as [G|[[l G]|[l G]]]; [exact (Hf _ Fi G)|injection G as ->; discriminate|injection G as ->; discriminate]. }
  assert (Rs : raised ins = []) by (destruct (heard_once _ _ _ _ _ _ _ _ _ _ _ _ _ H) as [G|(g & rest & G & _)]; [exact G|discriminate]).
  destruct (worker_result _ _ _ _ _ _ _ _ _ _ _ _ _ _ H D) as [(G & _)|[(w & st' & srv & rr & _ & _ & _ & _ & _ & _ & V & M & _)|(G & _)]]; [| |destruct (G Cl)].
  - exfalso. destruct (C112_layers _ _ _ _ _ _ _ _ _ _ _ _ _ H) as [Hd _]. destruct (distant_result _ _ _ _ _ _ _ _ _ Hd D) as (t & _ & T & _).
    apply (picked _ _ _ _ _ _ _ _ H Hp t T). unfold the_remote in G. rewrite T in G. exact G.
  - destruct (verdict_none_raised _ _ _ V Rs) as (code & K1 & ->).
    + intros G. destruct (M2 _ G) as [G'|[g G']]; [exact (H1 G')|discriminate].
    + intros [G|G]; (destruct (M2 _ G) as [G'|[g G']]; [auto|discriminate]).
    + exists code. destruct (M2 _ K1) as [G'|[g G']]; [auto|discriminate].
Qed.
End C.
