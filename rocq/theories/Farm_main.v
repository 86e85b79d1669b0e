From Verif Require Import Base Types Signals_model Signals_proof Stream_model Stream_spec Stream_proof Cond_model Plugins_model Plugins_spec Plugins_proof Exec_model Exec_spec Step_proof Job_proof
  Workflow_model Workflow_spec Workflow_proof Workflow_inv Runner_model Runner_spec Runner_proof Sched_model Sched_spec Sched_proof Remote_model Remote_spec Local_model Local_spec Local_proof
  Distant_model Distant_spec Distant_proof System_model System_spec System_proof System_flow System_inst System_props Fleet_model Fleet_spec Fleet_proof
  Dispatch_model Dispatch_spec Dispatch_proof Dispatch_main Worker_model Worker_spec Worker_proof Worker_live Worker_props Chain_model Chain_spec Chain_proof Farm_model Farm_spec Farm_place Farm_proof.

#[global] Instance EqDec_container : EqDec container_options.
Proof. unfold EqDec. decide equality; apply eq_dec. Defined.
#[global] Instance EqDec_duration : EqDec duration.
Proof. unfold EqDec. decide equality; apply eq_dec. Defined.
#[global] Instance EqDec_env_value : EqDec env_value.
Proof. unfold EqDec. decide equality; try apply eq_dec. decide equality; first [apply eq_dec|decide equality|idtac]. all: first [apply eq_dec|decide equality]. Defined.
#[global] Instance EqDec_environments : EqDec environments.
Proof. unfold environments. unfold map_. apply EqDec_list. Defined.
#[global] Instance EqDec_command : EqDec command.
Proof. unfold EqDec. decide equality; apply eq_dec. Defined.

(** *** The answers of the scheduler at the moment they are used *)
Definition calling (p : step_phase) : option step := match p with SpCalling st _ _ _ _ => Some st | _ => None end.
Definition at_pick (asked : list asking) (tr : list pobs) (k : nat) (s : @system kside) (op : sysop (iop := kop)) : Prop :=
  forall i clients r t t0 js rs p rest st, op = YStep i (KFlow (DPick clients r)) -> nth_error (ws_tasks (sy_w s)) i = Some t -> tk_phase t = JpStepRun t0 js rs p rest -> calling p = Some st ->
    (exists rc, rx_command rc = command_of_step st /\ placed asked tr k i rc r) /\ forall m, r = Some m -> lookup (rm_id m) clients = Some m.

Section M.
Variables (cl sv : task -> task) (rhooks : runner_meta -> run_context -> run_context) (conf : runner_meta -> run_context -> xconf) (glob : glob_oracle) (now : time).
Notation C cx := (chained cx cl sv rhooks conf).
Notation run := (farm_run cl sv rhooks conf glob now).
Notation watched Q := (fleet_watched (fun cx => C cx) glob Q now).

Lemma watched_mono (Q Q' : nat -> ectx -> @system kside -> sysop (iop := kop) -> Prop) ops f tr : (forall k cx s op, Q k cx s op -> Q' k cx s op) -> watched Q ops f tr -> watched Q' ops f tr.
Proof. intros H. induction 1 as [|ops f tr op f' o W IH E HQ]; econstructor; eauto. Qed.
Lemma at_pick_more asked tr k s op extra o : at_pick asked tr k s op -> at_pick (asked ++ extra) (tr ++ o) k s op.
Proof. intros H i cs r t t0 js rs p rest st H1 H2 H3 H4. destruct (H i cs r t t0 js rs p rest st H1 H2 H3 H4) as ((rc & G1 & G2) & G3). split; [exists rc; split; [exact G1|apply placed_more, G2]|exact G3]. Qed.
Lemma seen_app a b : farm_seen (a ++ b) = farm_seen a ++ farm_seen b.
Proof. apply flat_map_app. Qed.
Lemma seen_sched o : farm_seen (map QSched o) = [].
Proof. induction o as [|e o IH]; [reflexivity|exact IH]. Qed.
Lemma seen_obs x : farm_seen (map (fun y : nat * sysobs (iobs := kobs) => QSeen (fst y) (snd y)) x) = x.
Proof. induction x as [|[k y] x IH]; [reflexivity|]. cbn. f_equal. exact IH. Qed.
Lemma farm_wants f k i st : farm_wanting f k i = Some st -> exists r t t0 js rs p rest, nth_error (fl_runs f) k = Some r /\ nth_error (ws_tasks (sy_w (fr_sys r))) i = Some t /\ tk_phase t = JpStepRun t0 js rs p rest /\ calling p = Some st.
Proof.
  unfold farm_wanting. destruct (nth_error (fl_runs f) k) as [r|]; [|discriminate]. destruct (nth_error (ws_tasks _) i) as [t|] eqn:Et; [|discriminate].
  destruct (nth_error (sy_cur _) i) as [x|]; [|discriminate]. destruct (kd_task x); [discriminate|]. destruct (tk_phase t) as [| | | | | | | | | |t0 js rs p rest| | | |] eqn:Ep; try discriminate.
  destruct p; try discriminate. intros [= <-]. exists r, t, t0, js, rs. eexists. exists rest. repeat split; eauto.
Qed.

Lemma farm_watched ops q tr : run ops q tr -> exists fops, watched (fun k _ s op => at_pick (fm_asked q) (client_view tr) k s op) fops (fm_fleet q) (farm_seen tr) /\
  filter (fun op => negb (picks_server op)) fops = farm_ops ops.
Proof.
  induction 1 as [|ops q tr op q' o R (fops & W & Ef) E]; [exists []; split; [constructor|reflexivity]|].
  destruct (outer_farm _ _ _ _ _ _ _ _ _ R) as (pops & d & Hd & S & _). assert (S' := S). destruct S' as [SF SC SS SA].
  assert (Fo : farm_ops (ops ++ [op]) = farm_ops ops ++ farm_ops [op]) by apply flat_map_app. rewrite Fo, seen_app, cview_app. clear Fo.
  assert (Go : forall asked a m o1 st, then_send cl sv rhooks conf glob q asked a m o1 = Some (q', o) -> farm_ops [op] = [] -> (exists extra, asked = fm_asked q ++ extra) ->
    farm_wanting (fm_fleet q) (as_run a) (as_job a) = Some st ->
    (forall r, answered o1 = Some r -> (exists rc, rx_command rc = command_of_step st /\ placed asked (client_view tr ++ map PSched o1) (as_run a) (as_job a) rc r) /\ forall m, r = Some m -> lookup (rm_id m) (as_clients a) = Some m) ->
    exists fops0, watched (fun k _ s op => at_pick (fm_asked q') (client_view tr ++ client_view o) k s op) fops0 (fm_fleet q') (farm_seen tr ++ farm_seen o) /\
      filter (fun op => negb (picks_server op)) fops0 = farm_ops ops ++ farm_ops [op]).
  { intros asked a m o1 st Et Eo [extra Ea] Hw Hp. rewrite Eo, app_nil_r. unfold then_send in Et. destruct (answered o1) as [r|] eqn:Ho.
    - destruct (farm_fleet_step _ _ _ _ _ (fm_fleet q) _) as [[f x]|] eqn:Es; [|discriminate]. injection Et as <- <-. cbn [fm_fleet fm_asked]. rewrite seen_app, seen_sched, seen_obs. cbn [app].
      exists (fops ++ [FRunOp (as_run a) (YStep (as_job a) (KFlow (DPick (as_clients a) r)))]). split; [|rewrite filter_app; cbn [filter picks_server negb]; rewrite app_nil_r; exact Ef].
      eapply fwatched_step; [eapply watched_mono; [|exact W]; intros; rewrite Ea; apply at_pick_more; assumption|exact Es|].
      intros k so r0 cx ca [= <- <-] Hk _ i cs r1 t t0 js rs p rest st' [= <- <- <-] Ht Hph Hc.
      destruct (farm_wants _ _ _ _ Hw) as (r' & t' & t0' & js' & rs' & p' & rest' & K1 & K2 & K3 & K4). rewrite Hk in K1. injection K1 as <-. cbn [settle sy_w ws_tasks] in Ht. rewrite Ht in K2. injection K2 as <-.
      rewrite Hph in K3. injection K3 as <- <- <- <- <-. rewrite Hc in K4. injection K4 as <-. destruct (Hp r eq_refl) as ((rc & G1 & G2) & G3). split; [|exact G3].
      exists rc. split; [exact G1|]. rewrite cview_app, cview_sched, app_assoc. rewrite <- (app_nil_r asked). apply placed_more, G2.
    - injection Et as <- <-. cbn [fm_fleet fm_asked]. rewrite seen_sched, app_nil_r. exists fops. split; [|exact Ef]. eapply watched_mono; [|exact W]. intros; rewrite Ea; apply at_pick_more; assumption. }
  destruct op as [a|fo|k i l|c]; cbn [qstep] in E.
  - injection E as <- <-. cbn [fm_fleet fm_asked client_view farm_seen flat_map farm_ops]. rewrite !app_nil_r. eauto.
  - destruct (picks_server fo) eqn:Ep; [discriminate|]. destruct (farm_fleet_step _ _ _ _ _ (fm_fleet q) fo) as [[f x]|] eqn:Es; [|discriminate]. injection E as <- <-. cbn [fm_fleet fm_asked]. rewrite seen_obs.
    exists (fops ++ [fo]). split; [|rewrite filter_app, Ef; cbn [filter farm_ops flat_map app]; rewrite Ep; reflexivity]. eapply fwatched_step; [eapply watched_mono; [|exact W]; intros; rewrite <- (app_nil_r (fm_asked q)); apply at_pick_more; assumption|exact Es|].
    intros k so r0 cx ca -> _ _ i cs r1 t t0 js rs p rest st' ->. discriminate Ep.
  - destruct (farm_wanting (fm_fleet q) k i) as [st|] eqn:Hw; [|discriminate]. destruct (farm_asked_for q k i) eqn:Eaf; [discriminate|]. cbn [orb] in E. destruct (negb _); [discriminate|].
    destruct (smach_step _ _) as [[m o1]|] eqn:Es; [|discriminate]. eapply (Go _ _ _ _ st E); [reflexivity|eauto|exact Hw|]. intros r Ho. cbn [as_run as_job as_clients].
    rewrite <- SA, <- SC. destruct (ask_placed cl glob now pops d _ k i st l m o1 r Hd) as (rc & G1 & G2 & ->); [rewrite (wanting_outer _ _ _ _ S); exact Hw|rewrite (asked_for_outer _ _ _ _ S); exact Eaf|rewrite SS, SA; exact Es|exact Ho|].
    split; [eauto|discriminate].
  - destruct (nth_error (fm_asked q) c) as [a|] eqn:Ea; [|discriminate]. destruct (smach_step _ _) as [[m o1]|] eqn:Es; [|discriminate].
    destruct (answered o1) as [r|] eqn:Ho.
    + destruct (lock_placed cl glob now pops d _ c a m o1 r Hd) as (st & rc & G0 & G1 & G2 & G3); [rewrite SA; exact Ea|rewrite SS; exact Es|exact Ho|]. rewrite SA in G2.
      eapply (Go _ _ _ _ st E); [reflexivity|exists []; symmetry; apply app_nil_r|rewrite <- (wanting_outer _ _ _ _ S); exact G0|]. intros r' Hr'. rewrite Ho in Hr'. injection Hr' as <-. eauto.
    + unfold then_send in E. rewrite Ho in E. injection E as <- <-. cbn [fm_fleet fm_asked farm_ops flat_map]. rewrite seen_sched, !app_nil_r. exists fops. split; [|exact Ef]. eapply watched_mono; [|exact W].
      intros; rewrite <- (app_nil_r (fm_asked q)); apply at_pick_more; assumption.
Qed.
End M.

(** *** One run, its steps going only where the scheduler's answers send them *)
Section L.
Variables (cl sv : task -> task) (rhooks : runner_meta -> run_context -> run_context) (conf : runner_meta -> run_context -> xconf) (cx : ectx).
Notation C := (chained cx cl sv rhooks conf).
Definition stays (L : list (task * command * option runner_meta)) (me : task) (p : step_phase) (op : kop) : bool :=
  match op with
  | KFlow (DPick clients r) =>
      match calling p with
      | Some st => memb (me, command_of_step st, r) L && match r with Some m => eqb (lookup (rm_id m) clients) (Some m) | None => true end
      | None => true
      end
  | _ => true
  end.
Definition placing L : rside kside kop kobs := RSide (rs_init C) (fun me sh p x op => if stays L me p op then rs_step C me sh p x op else None) (rs_ev C).
Lemma placing_faithful L : faithful (placing L) cx.
Proof. intros me sh p x op sh' p' x' o E. cbn [rs_step placing] in E. destruct (stays _ _ _ _); [|discriminate]. exact (chained_faithful _ _ _ _ _ _ _ _ _ _ _ _ _ _ E). Qed.
Lemma stays_more L L' me p op : incl L L' -> stays L me p op = true -> stays L' me p op = true.
Proof.
  intros H. destruct op as [[|cs r| | |]| | | | | |]; try reflexivity. cbn [stays]. destruct (calling p) as [st|]; [|reflexivity]. intros E. apply andb_prop in E as [E1 ->]. rewrite andb_true_r.
  apply memb_true, H, memb_true, E1.
Qed.
Lemma placing_more L L' me sh p x op y : incl L L' -> rs_step (placing L) me sh p x op = Some y -> rs_step (placing L') me sh p x op = Some y.
Proof. intros H. cbn [rs_step placing]. destruct (stays L me p op) eqn:E; [|discriminate]. rewrite (stays_more _ _ _ _ _ H E). auto. Qed.

Variable glob : glob_oracle.
Variable wf : workflow.
Lemma placing_step_more L L' s op y : incl L L' -> sysstep (placing L) glob cx wf s op = Some y -> sysstep (placing L') glob cx wf s op = Some y.
Proof.
  intros H. destruct op as [wo|i io|k io]; cbn [sysstep]; [exact (fun E => E)| |].
  - destruct (nth_error (ws_tasks (sy_w s)) i) as [t|]; [|discriminate]. destruct (nth_error (sy_cur s) i) as [x|]; [|discriminate].
    destruct (tk_phase t) as [| | | | | | | | | |t0 js rs sp rest| | | |]; try discriminate. destruct (rs_step (placing L) _ _ _ _ _) as [z|] eqn:E; [|discriminate]. rewrite (placing_more _ _ _ _ _ _ _ _ H E). auto.
  - destruct (nth_error (sy_past s) k) as [[i [[sh p] x]]|]; [|discriminate]. destruct (rs_step (placing L) _ _ _ _ _) as [z|] eqn:E; [|discriminate]. rewrite (placing_more _ _ _ _ _ _ _ _ H E). auto.
Qed.
Lemma placing_run_more L L' sh0 ops s tr : incl L L' -> sysrun (placing L) glob cx wf sh0 ops s tr -> sysrun (placing L') glob cx wf sh0 ops s tr.
Proof. intros H. induction 1 as [|ops s tr op s' o R IH E]; [constructor|]. eapply sysrun_step; [exact IH|]. eapply placing_step_more; eassumption. Qed.

Lemma placing_run asked tr0 k sh0 ops s tr : sys_watched (fun cx => chained cx cl sv rhooks conf) glob (fun s op => at_pick asked tr0 k s op) cx wf sh0 ops s tr ->
  exists L, sysrun (placing L) glob cx wf sh0 ops s tr /\ forall me c r, In (me, c, r) L -> exists i rc, me = S i /\ rx_command rc = c /\ placed asked tr0 k i rc r.
Proof.
  induction 1 as [|ops s tr op s' o W (L & R & HL) E HQ]; [exists []; split; [constructor|intros me c r []]|].
  assert (I := sys_inv C glob cx wf (chained_faithful cx cl sv rhooks conf) _ _ _ _ (swatched_run _ _ _ _ _ _ _ _ _ W)).
  assert (Simple : (forall i cs r, op <> YStep i (KFlow (DPick cs r))) -> sysstep (placing L) glob cx wf s op = Some (s', o)).
  { intros N. destruct op as [wo|i io|j io]; cbn [sysstep] in *; [exact E| |].
    - destruct (nth_error (ws_tasks (sy_w s)) i) as [t|]; [|discriminate]. destruct (nth_error (sy_cur s) i) as [x|]; [|discriminate].
      destruct (tk_phase t) as [| | | | | | | | | |t0 js rs sp rest| | | |]; try discriminate. cbn [rs_step placing].
      replace (stays L (S i) sp io) with true; [exact E|]. destruct io as [[|cs r| | |]| | | | | |]; try reflexivity. destruct (N i cs r eq_refl).
    - destruct (nth_error (sy_past s) j) as [[i [[sh p] x]]|] eqn:Ek; [|discriminate]. cbn [rs_step placing].
      destruct (si_past C cx _ _ _ I _ (nth_error_In _ _ Ek)) as (st & r & iops & os & Hp & _). cbn [fst snd] in Hp. subst p.
      replace (stays L (S i) (SpDone r) io) with true; [exact E|]. destruct io as [[]| | | | | |]; reflexivity. }
  destruct op as [wo|i io|j io]; try (exists L; split; [eapply sysrun_step; [exact R|apply Simple; discriminate]|exact HL]).
  destruct io as [[|cs r| | |]| | | | | |]; try (exists L; split; [eapply sysrun_step; [exact R|apply Simple; discriminate]|exact HL]).
  clear Simple. specialize (HQ eq_refl i cs r). cbn [sysstep] in E.
  destruct (nth_error (ws_tasks (sy_w s)) i) as [t|] eqn:Et; [|discriminate]. destruct (nth_error (sy_cur s) i) as [x|] eqn:Ex; [|discriminate].
  destruct (tk_phase t) as [| | | | | | | | | |t0 js rs sp rest| | | |] eqn:Ep; try discriminate E.
  assert (K : exists L', incl L L' /\ stays L' (S i) sp (KFlow (DPick cs r)) = true /\ forall me c r, In (me, c, r) L' -> exists i rc, me = S i /\ rx_command rc = c /\ placed asked tr0 k i rc r).
  { destruct (calling sp) as [st|] eqn:Hc; [|exists L; split; [apply incl_refl|split; [cbn [stays]; rewrite Hc; reflexivity|exact HL]]].
    destruct (HQ t t0 js rs sp rest st eq_refl eq_refl Ep Hc) as ((rc & G1 & G2) & G3). exists ((S i, command_of_step st, r) :: L). split; [apply incl_tl, incl_refl|]. split.
    - cbn [stays]. rewrite Hc. apply andb_true_intro. split; [apply memb_true; left; reflexivity|]. destruct r as [m|]; [|reflexivity]. apply eqb_true, G3. reflexivity.
    - intros me c r' [[= <- <- <-]|Hin]; [exists i, rc; auto|eapply HL; exact Hin]. }
  destruct K as (L' & HLL & Hs & HL'). exists L'. split; [|exact HL']. eapply sysrun_step; [eapply placing_run_more; eassumption|]. cbn [sysstep]. rewrite Et, Ex, Ep. cbn [rs_step placing]. rewrite Hs. exact E.
Qed.
Lemma placing_irun L me st ops sh p x tr : irun (placing L) me st ops sh p x tr -> irun C me st ops sh p x tr.
Proof.
  induction 1 as [sh|ops sh p x tr op sh' p' x' o R IH E|ops sh p x tr e R IH]; [exact (irun_init C me st sh)|eapply irun_op; [exact IH|]|apply irun_env, IH].
  cbn [rs_step placing] in E. destruct (stays _ _ _ _); [exact E|discriminate].
Qed.

(** What the answer was, for a step that has got past the scheduler. *)
Definition sent_as (L : list (task * command * option runner_meta)) (me : task) (st0 : step) (s : kstate) : Prop :=
  forall t, ds_task (k_d s) = Some t -> exists st r, hooked st0 st /\ In (me, command_of_step st, r) L /\
    match r with None => dt_remote t = None | Some m => dt_remote t <> None /\ k_ctx s = Some (Local_spec.given cx st, m) end.
Lemma task_keeps me d op d' o : dstep cx me (cl me) d op = Some (d', o) -> (forall cs r, op <> DPick cs r) ->
  forall t', ds_task d' = Some t' -> exists t, ds_task d = Some t /\ (dt_remote t = None <-> dt_remote t' = None).
Proof.
  intros E N t' T. assert (Sh : forall p u, option_map (share p) (ds_task d) = Some u -> exists t, ds_task d = Some t /\ (dt_remote t = None <-> dt_remote u = None)).
  { intros p u Hu. destruct (ds_task d) as [t0|] eqn:T0; [|discriminate]. injection Hu as <-. exists t0. split; [reflexivity|]. unfold share. destruct (phase_signal p); cbn; reflexivity. }
  destruct op as [eo|cs pk|i| |e]; cbn [dstep] in E.
  - assert (D : dengine cx me d eo = Some (d', o)).
    { destruct eo as [|c0|[]| | | |ro]; try discriminate E; try exact E. destruct (ds_task d) as [[[rm|] sg [|? ?]]|]; try discriminate E; exact E. }
    unfold dengine in D. destruct (step_step _ _ _ _ _) as [[[sh' p'] o']|]; [|discriminate]. injection D as <- <-. eapply Sh. exact T.
  - destruct (N cs pk eq_refl).
  - destruct (ds_task d) as [[[rm|] sg pd]|]; try discriminate E. destruct (_ && _); [discriminate E|]. destruct (remote_step rm i) as [r'|]; [|discriminate E].
    eexists. split; [reflexivity|]. destruct i; try (injection E as <- <-; injection T as <-; cbn; split; discriminate). destruct (sig_poll _ _) as [sg' [g'|]]; [|discriminate E]. destruct (eqb _ _); [|discriminate E]. injection E as <- <-. injection T as <-. cbn. split; discriminate.
  - destruct (ds_task d) as [[rm sg [|ro rest]]|] eqn:T0; try discriminate E. injection E as <- <-. injection T as <-. eexists. split; [reflexivity|]. cbn. reflexivity.
  - injection E as <- <-. cbn in T. eexists. split; [exact T|reflexivity].
Qed.
Lemma ctx_keeps me s op s' o : kstep cx me (cl me) (sv me) rhooks conf s op = Some (s', o) -> (forall cs r, op <> KFlow (DPick cs r)) -> k_ctx s' = k_ctx s.
Proof. intros E N. apply kstep_trans in E. inv E; try reflexivity. all: try (edestruct N; reflexivity). Qed.
Lemma calling_hooked me st0 ops sh p x tr st : irun C me st0 ops sh p x tr -> calling p = Some st -> hooked st0 st.
Proof.
  intros R Hc. apply chained_hist in R as (dops & gs & ins & H). apply khist_inv in H as [Hd _ _ _ _ _]. destruct (dhist_inv _ _ _ _ _ _ _ _ Hd) as [(ls & more & R' & _) _ _ _ _].
  cbn [kwhole k_d ds_step] in R'. destruct p; try discriminate Hc. injection Hc as <-. apply srun_inv in R'. cbn [Step_proof.sinv] in R'. apply R'.
Qed.
Lemma placing_sent L me st0 ops sh p x tr : irun (placing L) me st0 ops sh p x tr -> sent_as L me st0 (kwhole sh p x).
Proof.
  induction 1 as [sh|ops sh p x tr op sh' p' x' o R IH E|ops sh p x tr e R IH]; [intros t C'; discriminate C'| |exact IH].
  cbn [rs_step placing] in E. destruct (stays L me p op) eqn:Hs; [|discriminate]. destruct (chained_step _ _ _ _ _ _ _ _ _ _ _ _ _ _ E) as [E1 _].
  assert (Pk : (exists cs r, op = KFlow (DPick cs r)) \/ forall cs r, op <> KFlow (DPick cs r)) by (destruct op as [[| | | |]| | | | | |]; try (right; discriminate); eauto).
  destruct Pk as [(cs & r & ->)|N].
  - intros t T. apply kstep_trans in E1. apply placing_irun in R. inversion E1 as [? ? ? Hcm| ? ? ? ? st t0 a sg str Ed Hph| | | | | | | | | | | |]; subst; [discriminate Hcm|]. cbn [kwhole k_d ds_step] in Hph. subst p.
    assert (Hk := calling_hooked _ _ _ _ _ _ _ st R eq_refl). cbn [stays calling] in Hs. apply andb_prop in Hs as [Hm Hl]. apply memb_true in Hm. exists st, r. split; [exact Hk|]. split; [exact Hm|].
    cbn [kwhole k_d k_ctx ds_task] in T |- *. cbn [dstep kwhole k_d ds_step ds_task] in Ed. destruct (kd_task x); [discriminate|]. destruct r as [m|]; cbn [client_start] in *.
    + apply (proj1 (eqb_true _ _)) in Hl. rewrite Hl in *. injection Ed as _ _ Hx _. rewrite <- Hx in T. injection T as <-. split; [discriminate|congruence].
    + injection Ed as _ _ Hx _. rewrite <- Hx in T. injection T as <-. reflexivity.
  - intros t' T. assert (Ec := ctx_keeps _ _ _ _ _ E1 N). destruct (kstep_dstep _ _ _ _ _ _ _ _ _ _ E1) as [(_ & Hd & _)|(d & Ho & Hd)].
    + rewrite Hd in T. destruct (IH t' T) as (st & r & G1 & G2 & G3). exists st, r. split; [exact G1|]. split; [exact G2|]. destruct r; [rewrite Ec|]; exact G3.
    + assert (Nd : forall cs r, d <> DPick cs r) by (intros cs r ->; apply outward_pick in Ho; exact (N cs r Ho)).
      destruct (task_keeps _ _ _ _ _ Hd Nd t' T) as (t & T0 & Iff). destruct (IH t T0) as (st & r & G1 & G2 & G3). exists st, r. split; [exact G1|]. split; [exact G2|].
      destruct r; [rewrite Ec; destruct G3 as [G3 G4]; split; [intros K; apply G3, Iff, K|exact G4]|apply Iff, G3].
Qed.
End L.

(** *** What a runner is given *)
Lemma step_gives cx me sh p op sh' p' o rc : step_step cx me sh p op = Some (sh', p', o) -> In (ORun rc) o -> exists st, rc = Local_spec.given cx st.
Proof.
  intros E Hin. unfold step_step in E. repeat (match type of E with context [match ?x with _ => _ end] => destruct x end; try discriminate E); injection E as <- <- <-; cbn in Hin;
  repeat match goal with H : _ \/ _ |- _ => destruct H as [H|H] | H : False |- _ => destruct H end; try discriminate.
  injection Hin as <-. eexists. reflexivity.
Qed.
Lemma job_gives glob cx me j sh p op sh' p' o rc : job_step glob cx me j sh p op = Some (sh', p', o) -> In (ORun rc) o -> exists st, rc = Local_spec.given cx st.
Proof.
  intros E Hin. destruct p as [| | | | | | | | | |t0 js rs sp rest| | | |]; [..|destruct op; discriminate E].
  all: try (unfold job_step in E; repeat (match type of E with context [match ?x with _ => _ end] => destruct x end; try discriminate E); injection E as <- <- <-; cbn in Hin;
  repeat match goal with H : _ \/ _ |- _ => destruct H as [H|H] | H : False |- _ => destruct H end; discriminate).
  destruct op as [|gh|so]; [destruct sp; try discriminate E; injection E as <- <- <-; destruct Hin|destruct sp; discriminate E|].
  assert (K : exists sp', step_step cx me sh sp so = Some (sh', sp', o)).
  { unfold job_step in E. destruct (step_step cx me sh sp so) as [[[sh1 sp1] o1]|] eqn:Es; [|destruct sp; discriminate E]. exists sp1. destruct sp; try (injection E as <- _ <-; reflexivity). }
  destruct K as (sp' & K). eapply step_gives; eassumption.
Qed.
Lemma flow_gives glob cx wf ops s tr : wrun glob cx wf ops s tr -> forall i rc, In (Some i, ORun rc) tr -> exists st, rc = Local_spec.given cx st.
Proof.
  induction 1 as [sh|ops s tr op s' o R IH E]; [intros i rc []|]. intros i rc Hin. apply in_app_iff in Hin as [Hin|Hin]; [eapply IH; exact Hin|].
  destruct op as [|gh|i0 jo|i0|e]; cbn [wstep] in E.
  - apply (main_who _ _ _ _ _ _ E) in Hin. discriminate Hin.
  - destruct (ws_main s); try discriminate E. destruct (is_match_second _ _ _ _). injection E as <- <-. destruct Hin as [C|[]]. discriminate C.
  - destruct (nth_error (ws_tasks s) i0) as [t|]; [|discriminate]. destruct (job_step _ _ _ _ _ _ _) as [[[sh' p'] o']|] eqn:Ej; [|discriminate]. injection E as <- <-.
    apply in_map_iff in Hin as (y & Hy & Hin). injection Hy as _ ->. eapply job_gives; eassumption.
  - destruct (nth_error (ws_tasks s) i0) as [[key j p sent]|]; [|discriminate]. destruct p; try discriminate E. destruct sent; [discriminate|]. destruct (ws_main s); try (destruct (Nat.ltb _ _); [|discriminate E]); injection E as <- <-; destruct Hin.
  - injection E as <- <-. destruct Hin.
Qed.
Lemma given_same cx st st' : command_of_step st = command_of_step st' -> Local_spec.given cx st = Local_spec.given cx st'.
Proof. intros H. unfold Local_spec.given. rewrite H. f_equal. exact (f_equal cmd_id H). Qed.
Lemma view_gives tr k i rc : In (gives k i rc) (client_view tr) -> In (k, (Some i, inr (KObs (ORun rc)))) (farm_seen tr).
Proof.
  unfold gives. intros H. apply in_flat_map in H as (e & H1 & H2). apply in_flat_map. exists e. split; [exact H1|].
  destruct e as [k' [w [x|[x|x]]]|x]; cbn in H2; try (exfalso; exact H2); destruct H2 as [H2|[]]; try discriminate H2. injection H2 as -> -> ->. left. reflexivity.
Qed.
Lemma seen_event k (x : sysobs (iobs := kobs)) tr : In (k, x) tr -> In x (run_events k tr).
Proof. intros H. unfold run_events. apply in_map_iff. exists (k, x). split; [reflexivity|]. apply filter_In. split; [exact H|apply Nat.eqb_refl]. Qed.
Lemma placed_gives asked tr k i rc r : placed asked tr k i rc r -> In (gives k i rc) tr.
Proof. intros (c & l & a & pre & mid & mid' & post & -> & _). apply in_or_app. right. left. reflexivity. Qed.

(** *** One run of a farm *)
Section Q.
Variables (cl sv : task -> task) (rhooks : runner_meta -> run_context -> run_context) (conf : runner_meta -> run_context -> xconf) (glob : glob_oracle) (now : time).
Notation run := (farm_run cl sv rhooks conf glob now).
Lemma in_run_ops k fops op : In op (run_ops (iop := kop) k fops) -> In (FRunOp k op) fops.
Proof.
  unfold run_ops. intros H. apply in_flat_map in H as (o & H1 & H2). destruct o; try (exfalso; exact H2). destruct (Nat.eqb k0 k) eqn:E; [|destruct H2]. apply Nat.eqb_eq in E. subst. destruct H2 as [->|[]]. exact H1.
Qed.
Lemma in_farm_ops ops o : In o (farm_ops ops) -> In (QFleet o) ops.
Proof. intros H. apply in_flat_map in H as (x & H1 & H2). destruct x; try (exfalso; exact H2). destruct H2 as [->|[]]. exact H1. Qed.
Lemma farm_projection ops q tr k cx wf s : run ops q tr -> named (fm_fleet q) -> run_at (fm_fleet q) k cx wf s ->
  exists sh0 sops L, sysrun (placing cl sv rhooks conf cx L) glob cx wf sh0 sops s (run_events k (farm_seen tr)) /\
    (forall i c r, In (S i, c, r) L -> forall st, command_of_step st = c -> placed (fm_asked q) (client_view tr) k i (Local_spec.given cx st) r) /\
    (forall op, In op sops -> is_env op = false -> inner_picks op = false -> In (QFleet (FRunOp k op)) ops).
Proof.
  intros R Hn Ha. destruct (farm_watched _ _ _ _ _ _ _ _ _ R) as (fops & W & Ef).
  destruct (projection_watched (fun cx => chained cx cl sv rhooks conf) glob (fun cx => chained_faithful cx cl sv rhooks conf) _ _ _ _ _ W Hn _ _ _ _ Ha) as (sh0 & sops & S0 & Eo & _).
  destruct (placing_run _ _ _ _ _ _ _ _ _ _ _ _ _ _ S0) as (L & RL & HL). exists sh0, sops, L. split; [exact RL|]. split.
  - intros i c r Hin st Hc. destruct (HL _ _ _ Hin) as (i' & rc & Ei & Hrc & P). injection Ei as <-.
    assert (G := seen_event _ _ _ (view_gives _ _ _ _ (placed_gives _ _ _ _ _ _ P))).
    destruct (flow_run _ glob cx wf (chained_faithful cx cl sv rhooks conf) _ _ _ _ (swatched_run _ _ _ _ _ _ _ _ _ S0)) as (wls & Wr & _).
    destruct (flow_gives _ _ _ _ _ _ Wr i rc) as (st' & ->).
    + unfold flow_of. apply in_flat_map. eexists. split; [exact G|]. cbn. left. reflexivity.
    + cbn [Local_spec.given rx_command] in Hrc. rewrite (given_same cx st st') by congruence. exact P.
  - intros op Hop Hv Hp. apply in_farm_ops. rewrite <- Ef. apply filter_In. split; [|destruct op as [|? [[]| | | | | |]|? [[]| | | | | |]]; try discriminate Hp; reflexivity].
    apply in_run_ops. rewrite <- Eo. apply filter_In. rewrite Hv. auto.
Qed.
End Q.
