From Verif Require Import Base Types Signals_model Signals_proof Stream_model Cond_model Plugins_model Exec_model Exec_spec Step_proof Job_proof Reg_proof Exact_crash Workflow_model Workflow_spec Workflow_proof Workflow_inv Workflow_term
  Runner_model Remote_model Local_model Local_spec Distant_model Worker_model System_model System_spec System_proof System_flow System_inst Finish_spec Finish_proof Chain_model Pace_spec Pace_proof Fleet_model Fleet_spec Fleet_proof Fleet_iso Fleet_main Live_spec.

Lemma run_at_unique {T} (f : @fleet T) k cx wf s s' : run_at f k cx wf s -> run_at f k cx wf s' -> s = s'.
Proof. intros (r & ca & H1 & H2 & _ & H3) (r' & ca' & H1' & H2' & _ & H3'). rewrite H1 in H1'. injection H1' as <-. rewrite H2 in H2'. injection H2' as <-. congruence. Qed.

Section V.
Context {T iop iobs : Type}.
Variable R : ectx -> rside T iop iobs.
Variable glob : glob_oracle.
Variable tame : iop -> Prop.
Hypothesis F : forall cx, faithful (R cx) cx.
Notation fstep := (fstep R glob).
Notation fleet_run := (fleet_run R glob).

(** What one action of the whole program is for one of the runs: its own action, or something done by the rest of the program. *)
Lemma step_proj now fops f ftr op f' o k cx wf s sh0 ops tr : fleet_run now fops f ftr -> named f -> fstep f op = Some (f', o) -> run_at f k cx wf s ->
  sysrun (R cx) glob cx wf sh0 ops s tr ->
  exists more s' tr', run_at f' k cx wf s' /\ sysrun (R cx) glob cx wf sh0 (ops ++ more) s' tr' /\
    ((exists x, op = FRunOp k x /\ more = [x] /\ exists o', sysstep (R cx) glob cx wf s x = Some (s', o')) \/
     ((forall x, op <> FRunOp k x) /\ exists es, more = env_ops es /\ forall e, In e es -> from_others (fops ++ [op]) f' k e)).
Proof.
  intros Hr Hn E Hat Hs. assert (St := starts_run R glob _ _ _ _ Hr). destruct (placed_run R glob F _ _ _ _ Hr) as [Pl _].
  destruct Hat as (r & ca & Hk & Hc & Hw & Hst). assert (Lk : k < starts fops) by (rewrite St; apply nth_error_Some; congruence).
  (* an action that changes the shared state by [e] and nothing else *)
  assert (Plain : forall e, fl_runs f' = fl_runs f -> fl_ctx f' = fl_ctx f -> (forall ca, env_step (Shared (fl_now f) (fl_sm f) ca) e = Shared (fl_now f') (fl_sm f') ca) ->
    from_others (fops ++ [op]) f' k e -> (forall x, op <> FRunOp k x) ->
    exists more s' tr', run_at f' k cx wf s' /\ sysrun (R cx) glob cx wf sh0 (ops ++ more) s' tr' /\
    ((exists x, op = FRunOp k x /\ more = [x] /\ exists o', sysstep (R cx) glob cx wf s x = Some (s', o')) \/
     ((forall x, op <> FRunOp k x) /\ exists es, more = env_ops es /\ forall e, In e es -> from_others (fops ++ [op]) f' k e))).
  { intros e Er Ec Ee Fo Ne. assert (X := sysrun_envs R glob F cx wf [e] _ _ _ _ Hs). rewrite Hst in X. cbn [settle sy_w ws_sh ws_main ws_tasks ws_chan sy_cur sy_past env_steps fold_left] in X. rewrite (Ee ca) in X.
    exists (env_ops [e]), (settle (fl_now f') (fl_sm f') ca (fr_sys r)), tr. split; [exists r, ca; rewrite Er, Ec; auto|]. split; [exact X|]. right. split; [exact Ne|]. exists [e]. split; [reflexivity|]. intros e' [<-|[]]. exact Fo. }
  destruct op as [cx0|c wf0|k0 op0|d|c j|c]; cbn [Fleet_model.fstep] in E.
  - injection E as <- <-. exists [], s, tr. split; [exists r, ca; cbn [fl_runs fl_ctx fl_now fl_sm]; rewrite nth_error_app1 by (apply (Pl k r Hk)); auto|]. rewrite app_nil_r. split; [exact Hs|]. right. split; [discriminate|]. exists []. split; [reflexivity|intros e []].
  - destruct (nth_error (fl_ctx f) c) as [[cx0 ca0]|]; [|discriminate]. injection E as <- <-. exists [], s, tr. split; [exists r, ca; cbn [fl_runs fl_ctx fl_now fl_sm]; rewrite nth_error_app1 by (apply nth_error_Some; congruence); auto|]. rewrite app_nil_r. split; [exact Hs|]. right. split; [discriminate|]. exists []. split; [reflexivity|intros e []].
  - destruct (nth_error (fl_runs f) k0) as [r0|] eqn:Ek0; [|discriminate]. destruct (nth_error (fl_ctx f) (fr_ctx r0)) as [[cx0 ca0]|] eqn:Ec0; [|discriminate].
    destruct (is_env op0) eqn:Henv; [discriminate|]. destruct (sysstep _ _ _ _ _ _) as [[s' o']|] eqn:Es; [|discriminate]. injection E as <- <-.
    destruct (Nat.eq_dec k k0) as [->|Hne].
    + rewrite Ek0 in Hk. injection Hk as <-. rewrite Ec0 in Hc. injection Hc as -> ->. subst wf s.
      exists [op0], s', (tr ++ o'). split; [|split; [eapply sysrun_step; eassumption|left; exists op0; eauto]].
      exists (FRun (fr_ctx r0) (fr_wf r0) s'), (sh_cache (ws_sh (sy_w s'))). cbn [fl_runs fl_ctx fl_now fl_sm fr_ctx fr_wf fr_sys]. split; [apply (list_set_eq _ _ _ _ Ek0)|]. split; [apply (list_set_eq _ _ _ _ Ec0)|]. split; [reflexivity|]. symmetry. apply settle_same.
    + destruct (projection R glob F _ _ _ _ Hr Hn k0 cx0 (fr_wf r0) (settle (fl_now f) (fl_sm f) ca0 (fr_sys r0))) as (sh1 & ops1 & G1 & _); [exists r0, ca0; auto|].
      destruct (sys_effect (R cx0) glob cx0 (fr_wf r0) (F cx0) (Hn _ _ Ek0) _ _ _ _ _ _ _ G1 Es Henv) as (es & Ee & He & _). cbn [settle sy_w ws_sh] in Ee.
      assert (Fo : forall e, In e es -> from_others (fops ++ [FRunOp k0 op0]) (Fleet (sh_now (ws_sh (sy_w s'))) (sh_sm (ws_sh (sy_w s'))) (list_set (fr_ctx r0) (cx0, sh_cache (ws_sh (sy_w s'))) (fl_ctx f)) (list_set k0 (FRun (fr_ctx r0) (fr_wf r0) s') (fl_runs f))) k e).
      { intros e Hin. rewrite Forall_forall in He. destruct (mild_quiet _ _ (He e Hin)) as (N1 & N3 & N2). unfold from_others. rewrite since_started by exact Lk. right; right; right. split; [exact N1|]. split; [exact N3|]. exists k0, (FRun (fr_ctx r0) (fr_wf r0) s'), op0. split; [auto|]. split; [apply (list_set_eq _ _ _ _ Ek0)|].
        split; [|exact N2]. rewrite run_ops_app. apply in_or_app. right. cbn. rewrite Nat.eqb_refl. left; reflexivity. }
      assert (Ne : forall x, FRunOp k0 op0 <> FRunOp k x) by congruence.
      destruct (Nat.eq_dec (fr_ctx r) (fr_ctx r0)) as [Eq|Nq].
      * rewrite Eq, Ec0 in Hc. injection Hc as -> ->. exists (env_ops es), (settle (sh_now (ws_sh (sy_w s'))) (sh_sm (ws_sh (sy_w s'))) (sh_cache (ws_sh (sy_w s'))) (fr_sys r)), tr. split; [|split].
        -- exists r, (sh_cache (ws_sh (sy_w s'))). cbn [fl_runs fl_ctx fl_now fl_sm]. rewrite list_set_ne by exact Hne. rewrite Eq, (list_set_eq _ _ _ _ Ec0). auto.
        -- assert (X := sysrun_envs R glob F cx wf es _ _ _ _ Hs). rewrite Hst in X. cbn [settle sy_w ws_sh ws_main ws_tasks ws_chan sy_cur sy_past] in X. rewrite <- Ee in X. unfold settle. destruct (ws_sh (sy_w s')); exact X.
        -- right. split; [exact Ne|]. exists es. auto.
      * exists (env_ops (filter not_cache es)), (settle (sh_now (ws_sh (sy_w s'))) (sh_sm (ws_sh (sy_w s'))) ca (fr_sys r)), tr. split; [|split].
        -- exists r, ca. cbn [fl_runs fl_ctx fl_now fl_sm]. rewrite !list_set_ne by auto. auto.
        -- assert (X := sysrun_envs R glob F cx wf (filter not_cache es) _ _ _ _ Hs). rewrite Hst in X. cbn [settle sy_w ws_sh ws_main ws_tasks ws_chan sy_cur sy_past] in X.
           destruct (envs_parts es (Shared (fl_now f) (fl_sm f) ca0) ca) as (Q1 & Q2 & Q3). change (set_cache ca (Shared (fl_now f) (fl_sm f) ca0)) with (Shared (fl_now f) (fl_sm f) ca) in *.
           rewrite <- Ee in Q1, Q2. unfold settle. destruct (env_steps (Shared (fl_now f) (fl_sm f) ca) (filter not_cache es)) as [a b c]. cbn in Q1, Q2, Q3. subst a b c. exact X.
        -- right. split; [exact Ne|]. exists (filter not_cache es). split; [reflexivity|]. intros e Hin. apply filter_In in Hin. apply Fo, Hin.
  - injection E as <- <-. apply (Plain (ETick d)); try reflexivity; [|discriminate]. unfold from_others. rewrite since_started by exact Lk. left. exists d. split; [reflexivity|]. apply in_or_app; right; left; reflexivity.
  - injection E as <- <-. apply (Plain (ESig (MCancelGet c j))); try reflexivity; [|discriminate]. unfold from_others. rewrite since_started by exact Lk. right; left. exists c, j. split; [reflexivity|]. apply in_or_app; right; left; reflexivity.
  - injection E as <- <-. apply (Plain (ESig (MCancelFire c))); try reflexivity; [|discriminate]. unfold from_others. rewrite since_started by exact Lk. right; right; left. exists c. split; [reflexivity|]. apply in_or_app; right; left; reflexivity.
Qed.

Variable ikind : T -> iop -> step_phase -> T -> kind.
Lemma kinds_env cx wf es : forall s d, In d (kinds (R cx) glob cx wf ikind s (env_ops es)) -> d = Idle.
Proof. induction es as [|e es IH]; intros s d; [intros []|]. cbn [env_ops map kinds]. destruct (sysstep _ _ _ _ _ _) as [[s' o']|]; [|intros []]. intros [<-|H]; [reflexivity|eapply IH, H]. Qed.
Lemma filter_none {A} (p : A -> bool) l : (forall x, In x l -> p x = false) -> filter p l = [].
Proof. induction l as [|x l IH]; intros H; [reflexivity|]. cbn [filter]. rewrite (H x) by (left; reflexivity). apply IH. intros y Hy. apply H. right; exact Hy. Qed.
Lemma moves_env cx wf sh0 ops s tr es : sysrun (R cx) glob cx wf sh0 ops s tr ->
  moves (R cx) glob cx wf ikind (start sh0) (ops ++ env_ops es) = moves (R cx) glob cx wf ikind (start sh0) ops /\ lines (R cx) glob cx wf ikind (start sh0) (ops ++ env_ops es) = lines (R cx) glob cx wf ikind (start sh0) ops.
Proof.
  intros Hr. unfold moves, lines. rewrite (kinds_app (R cx) glob cx wf ikind _ _ _ _ _ (run_exec (R cx) glob cx wf _ _ _ _ Hr)). rewrite !filter_app.
  rewrite (filter_none is_move (kinds _ _ _ _ _ s _)), (filter_none is_printed (kinds _ _ _ _ _ s _)), !app_nil_r; [auto| |]; intros d H; apply kinds_env in H as ->; reflexivity.
Qed.
Lemma moves_one cx wf sh0 ops s tr x s' o : sysrun (R cx) glob cx wf sh0 ops s tr -> sysstep (R cx) glob cx wf s x = Some (s', o) ->
  moves (R cx) glob cx wf ikind (start sh0) (ops ++ [x]) = moves (R cx) glob cx wf ikind (start sh0) ops + (if is_move (kind_of ikind s x s') then 1 else 0) /\
  lines (R cx) glob cx wf ikind (start sh0) (ops ++ [x]) = lines (R cx) glob cx wf ikind (start sh0) ops + (if is_printed (kind_of ikind s x s') then 1 else 0).
Proof.
  intros Hr E. unfold moves, lines. rewrite (kinds_app (R cx) glob cx wf ikind _ _ _ _ _ (run_exec (R cx) glob cx wf _ _ _ _ Hr)). rewrite !filter_app, !app_length. cbn [kinds]. rewrite E. cbn [filter].
  destruct (kind_of ikind s x s'); auto.
Qed.

Lemma run_not_env f k x f' o : fstep f (FRunOp k x) = Some (f', o) -> is_env x = false.
Proof. cbn [Fleet_model.fstep]. destruct (nth_error (fl_runs f) k) as [r|]; [|discriminate]. destruct (nth_error (fl_ctx f) (fr_ctx r)) as [[cx ca]|]; [|discriminate]. destruct (is_env x); [discriminate|reflexivity]. Qed.

Variable now : time.
Variable stf : nat -> @fleet T.
Variable act : nat -> option (fop (iop := iop)).
Hypothesis Ex : fleet_execution R glob stf act now.
Hypothesis Nam : forall n, named (stf n).
Lemma history_run n : exists tr, fleet_run now (history act n) (stf n) tr.
Proof.
  destruct Ex as [E0 En]. induction n as [|n [tr IH]]; [exists []; rewrite E0; constructor|]. specialize (En n). cbn [history]. destruct (act n) as [op|].
  - destruct En as [o E]. exists (tr ++ o). eapply fleet_step; eassumption.
  - exists tr. rewrite En, app_nil_r. exact IH.
Qed.
Lemma history_in n k op : In op (run_ops k (history act n)) -> exists m, m < n /\ act m = Some (FRunOp k op).
Proof.
  induction n as [|n IH]; cbn [history]; [intros []|]. rewrite run_ops_app, in_app_iff. intros [H|H]; [destruct (IH H) as (m & ? & ?); exists m; auto|].
  destruct (act n) as [o|] eqn:E; [|destruct H]. destruct o as [| |k' o'| | |]; cbn in H; try (destruct H; fail). destruct (Nat.eqb k' k) eqn:Ek; [|destruct H]. apply Nat.eqb_eq in Ek as ->. destruct H as [->|[]]. exists n. auto.
Qed.

(** A run stays where it was started, with its workflow. *)
Lemma stays n m k cx wf s : n <= m -> run_at (stf n) k cx wf s -> exists s', run_at (stf m) k cx wf s'.
Proof.
  induction 1 as [|m Hm IH]; intros Hat; [eauto|]. destruct (IH Hat) as [s1 H1]. destruct Ex as [_ En]. specialize (En m). destruct (act m) as [op|]; [|rewrite En; eauto]. destruct En as [o E].
  destruct (history_run m) as [tr Hr]. destruct (projection R glob F _ _ _ _ Hr (Nam m) k cx wf s1 H1) as (sh0 & ops & G & _).
  destruct (step_proj _ _ _ _ _ _ _ _ _ _ _ _ _ _ Hr (Nam m) E H1 G) as (more & s' & tr' & H2 & _). eauto.
Qed.
Lemma same_run n m k cx wf s cx' wf' s' : run_at (stf n) k cx wf s -> run_at (stf m) k cx' wf' s' -> cx' = cx /\ wf' = wf.
Proof.
  intros H H'. destruct (stays n (Nat.max n m) _ _ _ _ (Nat.le_max_l _ _) H) as (s1 & r & ca & A1 & A2 & A3 & _). destruct (stays m (Nat.max n m) _ _ _ _ (Nat.le_max_r _ _) H') as (s2 & r' & ca' & B1 & B2 & B3 & _).
  rewrite A1 in B1. injection B1 as <-. rewrite A2 in B2. injection B2 as <- <-. split; congruence.
Qed.

Variables (k n0 : nat) (cx : ectx) (wf : workflow) (s0 : @system T).
Hypothesis At0 : run_at (stf n0) k cx wf s0.
Hypothesis Al : forall n, alone (history act n) (stf n) k.
Hypothesis Ok : forall n op, act n = Some (FRunOp k op) -> orderly wf tame op.
Variable fair : sysop (iop := iop) -> Prop.
Variables bnd lc : nat.
Hypothesis Bound : forall sh0 ops s tr, sysrun (R cx) glob cx wf sh0 ops s tr -> moves (R cx) glob cx wf ikind (start sh0) ops <= bnd + lc * lines (R cx) glob cx wf ikind (start sh0) ops.
Hypothesis Stuck : forall sh0 ops s tr, sysrun (R cx) glob cx wf sh0 ops s tr -> (forall op, In op ops -> orderly wf tame op) -> (exists r, ws_main (sy_w s) = WpDone r) \/ can_move (R cx) glob cx wf ikind fair s.
Hypothesis Fair : kept_going R glob ikind stf act fair k cx wf.
Hypothesis Silent : falls_silent ikind stf act k cx wf.

(** Where the run is at time [n], how it got there, how much it has done and printed. *)
Definition seen (n : nat) (s : @system T) (sh0 : shared) (mv ln : nat) : Prop :=
  exists ops tr, run_at (stf n) k cx wf s /\ sysrun (R cx) glob cx wf sh0 ops s tr /\ (forall op, In op ops -> orderly wf tame op) /\
    moves (R cx) glob cx wf ikind (start sh0) ops = mv /\ lines (R cx) glob cx wf ikind (start sh0) ops = ln /\
    filter (fun op => negb (is_env op)) ops = run_ops k (history act n).
Lemma seen_first : exists sh0 mv ln, seen n0 s0 sh0 mv ln.
Proof.
  destruct (history_run n0) as [tr Hr]. destruct (run_orderly R glob tame F _ _ _ _ _ _ _ _ Hr (Nam n0) (Al n0) At0) as (sh0 & ops & H1 & H2 & _ & _ & H5).
  { intros op Hop. apply history_in in Hop as (m & _ & Hm). eapply Ok, Hm. }
  exists sh0. do 2 eexists. exists ops, (run_events k tr). split; [exact At0|]. split; [exact H1|]. split; [exact H5|]. split; [reflexivity|]. split; [reflexivity|exact H2].
Qed.
Lemma seen_step n s sh0 mv ln : seen n s sh0 mv ln -> exists s' mv' ln', seen (S n) s' sh0 mv' ln' /\ mv <= mv' /\ ln <= ln' /\
  (ln < ln' -> exists op, acts ikind stf act k cx wf n op Printed) /\ (forall op, acts ikind stf act k cx wf n op Move -> mv < mv') /\
  (forall r, ws_main (sy_w s) = WpDone r -> ws_main (sy_w s') = WpDone r).
Proof using F Ex Nam Al Ok.
  clear fair bnd lc Fair Silent Stuck Bound n0 s0 At0.
  intros (ops & tr & Hat & Hs & Ho & Hm & Hl & Hf). destruct Ex as [_ En]. specialize (En n). destruct (act n) as [op|] eqn:Ea.
  - destruct En as [o E]. destruct (history_run n) as [htr Hh].
    destruct (step_proj _ _ _ _ _ _ _ _ _ _ _ _ _ _ Hh (Nam n) E Hat Hs) as (more & s' & tr' & Hat' & Hs' & [(x & -> & -> & o' & Ex')|(Ne & es & -> & Fo)]).
    + destruct (moves_one _ _ _ _ _ _ _ _ _ Hs Ex') as [M1 M2]. exists s'. do 2 eexists. split; [exists (ops ++ [x]), tr'; split; [exact Hat'|]; split; [exact Hs'|]; split; [|split; [reflexivity|split; [reflexivity|]]]|].
      { intros y Hy. apply in_app_iff in Hy as [Hy|[<-|[]]]; [exact (Ho y Hy)|eapply Ok, Ea]. }
      { cbn [history]. rewrite Ea, filter_app, run_ops_app, Hf. f_equal. cbn [run_ops flat_map filter]. rewrite Nat.eqb_refl, (run_not_env _ _ _ _ _ E). reflexivity. }
      rewrite M1, M2. split; [lia|]. split; [lia|]. split; [|split].
      * intros Hlt. exists x. exists s, s'. split; [exact Ea|]. split; [exact Hat|]. split; [exact Hat'|]. destruct (kind_of ikind s x s'); cbn [is_printed] in Hlt; [lia|lia|reflexivity].
      * intros y (a & b & Ey & Ha & Hb & Hk). rewrite Ea in Ey. injection Ey as <-. rewrite (run_at_unique _ _ _ _ _ _ Ha Hat), (run_at_unique _ _ _ _ _ _ Hb Hat') in Hk. rewrite Hk. cbn [is_move]. lia.
      * intros r Hd. eapply done_stays; eassumption.
    + destruct (moves_env _ _ _ _ _ _ es Hs) as [M1 M2]. exists s'. do 2 eexists. split; [exists (ops ++ env_ops es), tr'; split; [exact Hat'|]; split; [exact Hs'|]; split; [|split; [reflexivity|split; [reflexivity|]]]|].
      { intros y Hy. apply in_app_iff in Hy as [Hy|Hy]; [exact (Ho y Hy)|]. unfold env_ops in Hy. apply in_map_iff in Hy as (e & <- & He). cbn [orderly].
        assert (Hat2 := Hat'). destruct Hat2 as (r & ca & Hk & _ & <- & _). eapply others_orderly; [exact Hk|exact (Al (S n))|]. cbn [history]. rewrite Ea. apply Fo, He. }
      { cbn [history]. rewrite Ea, filter_app, run_ops_app, Hf. f_equal. rewrite filter_none by (intros y Hy; unfold env_ops in Hy; apply in_map_iff in Hy as (e & <- & _); reflexivity).
        cbn [run_ops flat_map]. destruct op as [| |k' x| | |]; try reflexivity. destruct (Nat.eqb k' k) eqn:Ek; [|reflexivity]. apply Nat.eqb_eq in Ek as ->. destruct (Ne x eq_refl). }
      rewrite M1, M2. split; [lia|]. split; [lia|]. split; [lia|]. split.
      * intros y (a & b & Ey & _). rewrite Ea in Ey. injection Ey as ->. destruct (Ne y eq_refl).
      * intros r Hd. destruct Hat as (r1 & ca1 & A1 & A2 & A3 & A4). destruct Hat' as (r2 & ca2 & B1 & B2 & B3 & B4). rewrite B4. rewrite A4 in Hd. cbn [settle sy_w ws_main] in *.
        assert (fr_sys r2 = fr_sys r1); [|congruence]. destruct op as [cx0|c wf0|k0 op0|d|c j|c]; cbn [Fleet_model.fstep] in E; try (injection E as E _; rewrite <- E in B1; cbn [fl_runs] in B1; congruence).
        -- destruct (nth_error (fl_ctx (stf n)) c) as [[cx0 ca0]|]; [|discriminate]. injection E as E _; rewrite <- E in B1; cbn [fl_runs] in B1. rewrite nth_error_app1 in B1 by (apply nth_error_Some; congruence). congruence.
        -- destruct (nth_error (fl_runs (stf n)) k0) as [r0|] eqn:Ek0; [|discriminate]. destruct (nth_error (fl_ctx (stf n)) (fr_ctx r0)) as [[cx0 ca0]|] eqn:Ec0; [|discriminate].
           destruct (is_env op0) eqn:Henv; [discriminate|]. destruct (sysstep _ _ _ _ _ _) as [[s1 o']|] eqn:Es; [|discriminate]. injection E as E _; rewrite <- E in B1; cbn [fl_runs] in B1. rewrite list_set_ne in B1; [congruence|]. intros ->. exact (Ne op0 eq_refl).
  - exists s, mv, ln. split; [exists ops, tr; rewrite En; cbn [history]; rewrite Ea, app_nil_r; auto 10|]. split; [lia|]. split; [lia|]. split; [lia|]. split; [|auto]. intros op (a & b & C & _). congruence.
Qed.
Lemma seen_later n m : n <= m -> forall s sh0 mv ln, seen n s sh0 mv ln -> exists s' mv' ln', seen m s' sh0 mv' ln' /\ mv <= mv' /\ ln <= ln' /\
  (ln < ln' -> exists p op, n <= p /\ acts ikind stf act k cx wf p op Printed) /\ (forall r, ws_main (sy_w s) = WpDone r -> ws_main (sy_w s') = WpDone r).
Proof using F Ex Nam Al Ok.
  clear fair bnd lc Fair Silent Stuck Bound n0 s0 At0.
  induction 1 as [|m Hm IH]; intros s sh0 mv ln H.
  - exists s, mv, ln. split; [exact H|]. split; [lia|]. split; [lia|]. split; [lia|auto].
  - destruct (IH _ _ _ _ H) as (s1 & mv1 & ln1 & H1 & L1 & L2 & L3 & L4). destruct (seen_step _ _ _ _ _ H1) as (s2 & mv2 & ln2 & H2 & L5 & L6 & L7 & _ & L8).
    exists s2, mv2, ln2. split; [exact H2|]. split; [lia|]. split; [lia|]. split; [|auto]. intros Hlt. destruct (Nat.lt_ge_cases ln ln1) as [Q|Q]; [exact (L3 Q)|]. destruct L7 as [op Hop]; [lia|]. exists m, op. auto.
Qed.
Lemma live : exists r, comes_to stf k cx wf r.
Proof.
  destruct Silent as [N HN]. destruct seen_first as (sh0 & mv0 & ln0 & S0).
  destruct (seen_later n0 (Nat.max n0 N) ltac:(lia) _ _ _ _ S0) as (s1 & mv1 & ln1 & S1 & _).
  assert (Go : forall j n s mv, N <= n -> seen n s sh0 mv ln1 -> bnd + lc * ln1 - mv <= j -> exists n s mv r, seen n s sh0 mv ln1 /\ N <= n /\ ws_main (sy_w s) = WpDone r).
  { induction j as [j IH] using (well_founded_induction Wf_nat.lt_wf). intros n s mv Hn Hse Hle.
    assert (Hse' := Hse). destruct Hse' as (ops & tr & Hat & Hs & Ho & Hm & Hl & _). destruct (Stuck _ _ _ _ Hs Ho) as [[r Hd]|Hc]; [exists n, s, mv, r; auto|].
    destruct (Fair n s Hat Hc) as (m & op & Hnm & Ha). destruct (seen_later n m Hnm _ _ _ _ Hse) as (s2 & mv2 & ln2 & S2 & L1 & L2 & L3 & _).
    assert (ln2 = ln1) as -> by (destruct (Nat.lt_ge_cases ln1 ln2) as [Q|Q]; [destruct (L3 Q) as (p & op' & Hp & Hpr); destruct (HN p op' ltac:(lia) Hpr)|lia]).
    destruct (seen_step _ _ _ _ _ S2) as (s3 & mv3 & ln3 & S3 & L4 & L5 & L6 & L7 & _). specialize (L7 op Ha).
    assert (ln3 = ln1) as -> by (destruct (Nat.lt_ge_cases ln1 ln3) as [Q|Q]; [destruct (L6 Q) as (op' & Hpr); destruct (HN m op' ltac:(lia) Hpr)|lia]).
    assert (S3' := S3). destruct S3' as (ops3 & tr3 & _ & Hs3 & _ & Hm3 & Hl3 & _). assert (B := Bound _ _ _ _ Hs3). rewrite Hm3, Hl3 in B.
    eapply (IH (bnd + lc * ln1 - mv3)) with (n := S m); [lia|lia|exact S3|lia]. }
  destruct (Go (bnd + lc * ln1 - mv1) (Nat.max n0 N) s1 mv1 (Nat.le_max_r _ _) S1 (Nat.le_refl _)) as (n & s & mv & r & Hse & _ & Hd). exists r, n. intros m Hm.
  destruct (seen_later n m Hm _ _ _ _ Hse) as (s2 & mv2 & ln2 & (ops & tr & Hat & _) & _ & _ & _ & L). exists s2. auto.
Qed.
End V.
