From Verif Require Import Base Types Signals_model Signals_proof Stream_model Stream_spec Stream_proof Cond_model Plugins_model Plugins_spec Plugins_proof Exec_model Exec_spec Step_proof Job_proof
  Workflow_model Workflow_spec Workflow_proof Workflow_inv Runner_model Runner_spec Runner_proof Sched_model Sched_spec Sched_proof Remote_model Remote_spec Local_model Local_spec Local_proof
  Distant_model Distant_spec Distant_proof System_model System_spec System_proof System_flow System_inst System_props Fleet_model Fleet_spec Fleet_proof
  Dispatch_model Dispatch_spec Dispatch_proof Dispatch_main Worker_model Worker_spec Worker_proof Worker_live Worker_props Chain_model Chain_spec Chain_proof Farm_model Farm_spec Farm_place Farm_proof Farm_main.

(** *** The steps of a system and what one action does to them *)
Section Sides.
Context {T iop iobs : Type}.
Variable R : rside T iop iobs.
Variable glob : glob_oracle.
Definition sys_side (s : @system T) (i : nat) (x : T) : Prop := nth_error (sy_cur s) i = Some x \/ exists y, In (i, (y, x)) (sy_past s).
Lemma nth_list_set {A} i (x : A) l j y : nth_error (list_set i x l) j = Some y -> nth_error l j = Some y \/ (j = i /\ y = x).
Proof.
  revert l j. induction i as [|i IH]; intros [|a l] j H; cbn [list_set] in H; auto; destruct j as [|j]; cbn in H |- *; auto; [right; split; congruence|].
  destruct (IH _ _ H) as [K|[-> ->]]; auto.
Qed.
Lemma list_set_there {A} i (x : A) l y : nth_error l i = Some y -> nth_error (list_set i x l) i = Some x.
Proof. revert l. induction i as [|i IH]; intros [|a l] H; try discriminate H; cbn in *; [reflexivity|apply IH, H]. Qed.
Lemma pad_side n (l : list T) j y : nth_error (pad R n l) j = Some y -> nth_error l j = Some y \/ y = rs_init R.
Proof.
  unfold pad. intros H. destruct (Nat.lt_ge_cases j (length l)) as [K|K]; [rewrite nth_error_app1 in H by exact K; auto|right]. rewrite nth_error_app2 in H by exact K. apply nth_error_In in H. eapply repeat_spec; exact H.
Qed.
Lemma sys_sides cx wf s op s' o : sysstep R glob cx wf s op = Some (s', o) ->
  ((forall i x, sys_side s' i x -> sys_side s i x \/ x = rs_init R) /\ forall w e, ~ In (w, inr e) o) \/
  (exists i io sh p x sh' p' x' out, sys_side s i x /\ rs_step R (S i) sh p x io = Some (sh', p', x', out) /\ o = map (fun e => (Some i, inr e)) out /\ sys_side s' i x' /\
     (forall j y, sys_side s' j y -> sys_side s j y \/ (j = i /\ y = x')) /\
     ((exists t t0 js rs rest, op = YStep i io /\ nth_error (ws_tasks (sy_w s)) i = Some t /\ tk_phase t = JpStepRun t0 js rs p rest) \/ exists k, op = YPast k io)).
Proof.
  intros E. destruct op as [wo|i io|k io]; cbn [sysstep] in E.
  - left. destruct (is_step_op wo); [discriminate|]. destruct (wstep glob cx wf (sy_w s) wo) as [[w' wtr]|]; [|discriminate]. destruct (step_over (sy_w s) wo) as [[i0 p0]|]; injection E as <- <-.
    + split; [|intros w e H; apply in_map_iff in H as (z & C & _); discriminate C]. intros i x [H|[y H]]; cbn [sy_cur sy_past] in H.
      * apply pad_side in H as [H|H]; [|auto]. apply nth_list_set in H as [H|[_ ->]]; [left; left; exact H|auto].
      * apply in_app_iff in H as [H|H]; [left; right; eauto|]. destruct (nth_error (sy_cur s) i0) as [t|] eqn:Et; [|destruct H]. destruct H as [[= <- <- <-]|[]]. left. left. exact Et.
    + split; [|intros w e H; apply in_map_iff in H as (z & C & _); discriminate C]. intros i x [H|[y H]]; cbn [sy_cur sy_past] in H.
      * apply pad_side in H as [H|H]; [left; left; exact H|auto].
      * rewrite app_nil_r in H. left. right. eauto.
  - right. destruct (nth_error (ws_tasks (sy_w s)) i) as [t|] eqn:Et; [|discriminate]. destruct (nth_error (sy_cur s) i) as [x|] eqn:Ex; [|discriminate].
    destruct (tk_phase t) as [| | | | | | | | | |t0 js rs sp rest| | | |] eqn:Ep; try discriminate E.
    destruct (rs_step R (S i) (ws_sh (sy_w s)) sp x io) as [[[[sh' sp'] x'] out]|] eqn:Es; [|discriminate E]. injection E as <- <-.
    exists i, io, (ws_sh (sy_w s)), sp, x, sh', sp', x', out. split; [left; exact Ex|]. split; [exact Es|]. split; [reflexivity|]. split; [left; cbn [sy_cur]; eapply list_set_there, Ex|]. split; [|left; exists t, t0, js, rs, rest; auto].
    intros j y [H|H]; cbn [sy_cur sy_past] in H; [|left; right; exact H]. apply nth_list_set in H as [H|H]; [left; left; exact H|right; exact H].
  - right. destruct (nth_error (sy_past s) k) as [[i [[sh p] x]]|] eqn:Ek; [|discriminate]. destruct (rs_step R (S i) sh p x io) as [[[[sh' p'] x'] out]|] eqn:Es; [|discriminate E]. injection E as <- <-.
    exists i, io, sh, p, x, sh', p', x', out. split; [right; exists (sh, p); eapply nth_error_In, Ek|]. split; [exact Es|]. split; [reflexivity|]. split; [right; exists (sh', p'); cbn [sy_past]; eapply nth_error_In, list_set_there, Ek|]. split; [|right; eauto].
    intros j y [H|[z H]]; cbn [sy_cur sy_past] in H; [left; left; exact H|]. apply In_nth_error in H as (n & H). apply nth_list_set in H as [H|[_ [= -> -> ->]]]; [left; right; exists z; eapply nth_error_In, H|auto].
Qed.
End Sides.

Section FSides.
Context {T iop iobs : Type}.
Variable R : ectx -> rside T iop iobs.
Variable glob : glob_oracle.
Definition fside (f : @fleet T) (k i : nat) (x : T) : Prop := exists r, nth_error (fl_runs f) k = Some r /\ sys_side (fr_sys r) i x.
Definition ctx_of (f : @fleet T) (k : nat) (cx : ectx) : Prop := exists r ca, nth_error (fl_runs f) k = Some r /\ nth_error (fl_ctx f) (fr_ctx r) = Some (cx, ca).
Lemma fleet_sides f op f' o : fstep R glob f op = Some (f', o) ->
  (forall k cx, ctx_of f k cx -> ctx_of f' k cx) /\
  (((forall k i x, fside f' k i x -> fside f k i x \/ exists cx, x = rs_init (R cx)) /\ forall k w e, ~ In (k, (w, inr e)) o) \/
   (exists k cx i io sh p x sh' p' x' out, fside f k i x /\ ctx_of f k cx /\ rs_step (R cx) (S i) sh p x io = Some (sh', p', x', out) /\ o = map (fun e => (k, (Some i, inr e))) out /\ fside f' k i x' /\
      (forall k' j y, fside f' k' j y -> fside f k' j y \/ (k' = k /\ j = i /\ y = x')) /\
      ((exists r t t0 js rs rest, op = FRunOp k (YStep i io) /\ nth_error (fl_runs f) k = Some r /\ nth_error (ws_tasks (sy_w (fr_sys r))) i = Some t /\ tk_phase t = JpStepRun t0 js rs p rest) \/
       exists n, op = FRunOp k (YPast n io)))).
Proof.
  intros E. assert (Same : forall ctx now sm, fl_runs f' = fl_runs f -> f' = Fleet now sm (fl_ctx f ++ ctx) (fl_runs f) -> o = [] ->
    (forall k cx, ctx_of f k cx -> ctx_of f' k cx) /\ ((forall k i x, fside f' k i x -> fside f k i x \/ exists cx, x = rs_init (R cx)) /\ forall k w e, ~ In (k, (w, inr e)) o)).
  { intros ctx now sm _ -> ->. split; [|split; [intros k i x (r & H1 & H2); left; exists r; auto|intros k w e []]]. intros k cx (r & ca & H1 & H2). exists r, ca. split; [exact H1|]. cbn [fl_ctx].
    rewrite nth_error_app1; [exact H2|apply nth_error_Some; congruence]. }
  destruct op as [cx|c wf|k so|d|c j|c]; cbn [fstep] in E.
  - injection E as <- <-. destruct (Same [(cx, None)] (fl_now f) (fl_sm f) eq_refl eq_refl eq_refl) as [H1 H2]. auto.
  - destruct (nth_error (fl_ctx f) c) as [[cx ca]|]; [|discriminate]. injection E as <- <-. split.
    + intros k cx' (r & ca' & H1 & H2). exists r, ca'. split; [cbn [fl_runs]; rewrite nth_error_app1; [exact H1|apply nth_error_Some; congruence]|exact H2].
    + left. split; [|intros k w e []]. intros k i x (r & H1 & H2). cbn [fl_runs] in H1. destruct (Nat.lt_ge_cases k (length (fl_runs f))) as [K|K].
      * rewrite nth_error_app1 in H1 by exact K. left. exists r. auto.
      * rewrite nth_error_app2 in H1 by exact K. destruct (k - length (fl_runs f)) as [|n]; [|destruct n; discriminate H1]. injection H1 as <-. destruct H2 as [H2|[y []]]. destruct i; discriminate H2.
  - destruct (nth_error (fl_runs f) k) as [r|] eqn:Er; [|discriminate]. destruct (nth_error (fl_ctx f) (fr_ctx r)) as [[cx ca]|] eqn:Ec; [|discriminate]. destruct (is_env so); [discriminate|].
    destruct (sysstep _ _ _ _ _ so) as [[s' o']|] eqn:Es; [|discriminate]. injection E as <- <-. split.
    + intros k' cx' (r' & ca' & H1 & H2). unfold ctx_of. cbn [fl_runs fl_ctx].
      assert (Hr : exists r2, nth_error (list_set k (FRun (fr_ctx r) (fr_wf r) s') (fl_runs f)) k' = Some r2 /\ fr_ctx r2 = fr_ctx r').
      { destruct (Nat.eq_dec k' k) as [->|N]; [rewrite Er in H1; injection H1 as <-; rewrite (list_set_there _ _ _ _ Er); eexists; split; reflexivity|]. exists r'. split; [rewrite list_set_ne by exact N; exact H1|reflexivity]. }
      destruct Hr as (r2 & Hr1 & Hr2). destruct (Nat.eq_dec (fr_ctx r') (fr_ctx r)) as [En|En].
      * rewrite En in H2. rewrite Ec in H2. injection H2 as <- <-. exists r2. eexists. split; [exact Hr1|]. rewrite Hr2, En. eapply list_set_there, Ec.
      * exists r2, ca'. split; [exact Hr1|]. rewrite Hr2. rewrite list_set_ne by exact En. exact H2.
    + assert (Old : forall i x, sys_side (settle (fl_now f) (fl_sm f) ca (fr_sys r)) i x -> fside f k i x) by (intros i x H; exists r; split; [exact Er|exact H]).
      destruct (sys_sides _ _ _ _ _ _ _ _ Es) as [[H1 H2]|(i & io & sh & p & x & sh' & p' & x' & out & H1 & H2 & H3 & H4 & H5 & H6)].
      * left. split.
        -- intros k' i x (r' & G1 & G2). cbn [fl_runs] in G1. apply nth_list_set in G1 as [G1|[-> ->]]; [left; exists r'; auto|]. cbn [fr_sys] in G2. destruct (H1 _ _ G2) as [G|G]; [left; auto|right; eauto].
        -- intros k' w e H. apply in_map_iff in H as (y & Hy & H). injection Hy as _ ->. exact (H2 _ _ H).
      * right. exists k, cx, i, io, sh, p, x, sh', p', x', out. split; [auto|]. split; [exists r, ca; auto|]. split; [exact H2|]. split; [rewrite H3, map_map; reflexivity|].
        split; [eexists; split; [cbn [fl_runs]; eapply list_set_there, Er|exact H4]|]. split.
        -- intros k' j y (r' & G1 & G2). cbn [fl_runs] in G1. apply nth_list_set in G1 as [G1|[-> ->]]; [left; exists r'; auto|]. cbn [fr_sys] in G2. destruct (H5 _ _ G2) as [G|[-> ->]]; [left; auto|right; auto].
        -- destruct H6 as [(t & t0 & js & rs & rest & -> & G1 & G2)|[n ->]]; [left; exists r, t, t0, js, rs, rest; auto|right; eauto].
  - injection E as <- <-. destruct (Same [] (fl_now f + d)%N (fl_sm f) eq_refl) as [H1 H2]; [rewrite app_nil_r; reflexivity|reflexivity|auto].
  - injection E as <- <-. destruct (Same [] (fl_now f) (fst (sm_step (fl_sm f) (MCancelGet c j))) eq_refl) as [H1 H2]; [rewrite app_nil_r; reflexivity|reflexivity|auto].
  - injection E as <- <-. destruct (Same [] (fl_now f) (fst (sm_step (fl_sm f) (MCancelFire c))) eq_refl) as [H1 H2]; [rewrite app_nil_r; reflexivity|reflexivity|auto].
Qed.
End FSides.

Section Serve.
Variables (cl sv : task -> task) (rhooks : runner_meta -> run_context -> run_context) (conf : runner_meta -> run_context -> xconf).
Notation C cx := (chained cx cl sv rhooks conf).
Definition parts_ok (P : run_context -> runner_meta -> Prop) (t : option dtask) (c : option (run_context * runner_meta)) (w : option worker) : Prop :=
  (forall rc srv, c = Some (rc, srv) -> P rc srv) /\
  (forall w0, w = Some w0 -> exists rc srv ins effs, c = Some (rc, srv) /\ wk_conf w0 = conf srv (rhooks srv rc) /\ xrun (wk_conf w0) ins (wk_x w0) effs) /\
  (t = None -> w = None).
Definition side_ok P (x : kside) : Prop := parts_ok P (kd_task x) (kd_ctx x) (kd_w x).
Lemma side_mono (P P' : run_context -> runner_meta -> Prop) x : (forall rc srv, P rc srv -> P' rc srv) -> side_ok P x -> side_ok P' x.
Proof. intros H (H1 & H2). split; [intros rc srv K; apply H, H1, K|exact H2]. Qed.
Lemma raised_ok g w : wk_conf (raise_at g w) = wk_conf w /\ ((exists ins effs, xrun (wk_conf w) ins (wk_x w) effs) -> exists ins effs, xrun (wk_conf w) ins (wk_x (raise_at g w)) effs).
Proof.
  unfold raise_at. destruct w as [c x pd str f []]; cbn [wk_listed wk_conf wk_x] in *; [|auto]. split; [reflexivity|]. intros (ins & effs & H). eexists _, _. eapply raise_run; exact H.
Qed.
Lemma dtask_stays cx me c s op s' o : dstep cx me c s op = Some (s', o) -> ds_task s' = None -> ds_task s = None.
Proof.
  assert (Eng : forall op', dengine cx me s op' = Some (s', o) -> ds_task s' = None -> ds_task s = None).
  { intros op' H. unfold dengine in H. destruct (step_step _ _ _ _ _) as [[[sh' p'] o']|]; [|discriminate]. injection H as <- <-. cbn [ds_task]. destruct (ds_task s); [discriminate|auto]. }
  intros E Hn. destruct op as [op|cs pick|i| |e]; cbn [dstep] in E.
  - destruct op as [|h|[]| | | |ro]; try discriminate E; try (eapply Eng; [exact E|exact Hn]).
    destruct (ds_task s) as [[[r|] sg [|? ?]]|]; try discriminate E; first [reflexivity|exfalso; discriminate (Eng _ E Hn)].
  - destruct (ds_step s), (ds_task s); try discriminate E; reflexivity.
  - exfalso. destruct (ds_task s) as [[[r|] sg pd]|]; try discriminate E.
    repeat (match type of E with context [match ?x with _ => _ end] => destruct x end; try discriminate E); injection E as <- <-; discriminate Hn.
  - exfalso. destruct (ds_task s) as [[r sg [|? ?]]|]; try discriminate E. injection E as <- <-. discriminate Hn.
  - injection E as <- <-. exact Hn.
Qed.
Definition effects_ok (P : run_context -> runner_meta -> Prop) (out : list kobs) : Prop :=
  forall e, In (KEff e) out -> exists rc srv ins xs effs, P rc srv /\ xrun (conf srv (rhooks srv rc)) ins xs effs /\ In e effs.
Lemma trans_ok cx me c v s op s' out P : ktrans cx me c v rhooks conf s op s' out -> parts_ok P (ds_task (k_d s)) (k_ctx s) (k_w s) ->
  (forall cs m st t0 a sg str srv, op = KFlow (DPick cs (Some m)) -> ds_step (k_d s) = SpCalling st t0 a sg str -> lookup (rm_id m) cs = Some srv -> P (Local_spec.given cx st) srv) ->
  parts_ok P (ds_task (k_d s')) (k_ctx s') (k_w s') /\ effects_ok P out.
Proof.
  intros Tr (H1 & H2 & H3) HP.
  assert (Nob : forall ob, effects_ok P (map KObs ob)) by (intros ob e He; apply in_map_iff in He as (y & K & _); discriminate K).
  assert (Nil : effects_ok P []) by (intros e []).
  assert (Hw : forall w w' t', k_w s = Some w -> (t' = None -> ds_task (k_d s) = None) -> wk_conf w' = wk_conf w -> ((exists ins effs, xrun (wk_conf w) ins (wk_x w) effs) -> exists ins effs, xrun (wk_conf w) ins (wk_x w') effs) ->
    parts_ok P t' (k_ctx s) (Some w')).
  { intros w w' t' K1 K2 K3 K4. split; [exact H1|]. split.
    - intros w0 [= <-]. destruct (H2 w K1) as (rc & srv & ins & effs & L1 & L2 & L3). destruct K4 as (ins' & effs' & K4); [eauto|]. exists rc, srv, ins', effs'. rewrite K3. auto.
    - intros Ht. rewrite (H3 (K2 Ht)) in K1. discriminate K1. }
  destruct Tr as [op d' ob Hcm Hd Hf|cs pick d' ob st t0 a sg str Hd Hph|g d' ob Hd|g e d' ob Hd|r sg pd rc srv Ht Hc Hk|i cc y str f b y' o Hi Hk Hx
    |cc y o rest str f b Hk|cc y pd str b str' l wk Hk Hp|cc y pd str b str' wk Hk Hp|cc y pd str b str' wk r Hk Hp Hr
    |cc y pd str f b i f' d' ob Hk Hp Hf Hd|cc y pd str f b f' Hk Hp Hf|g rest w Hl Hk|cc y pd str f b Hk]; cbn [k_d k_ctx k_w].
  all: try (split; [|first [exact (Nob _)|exact Nil]]).
  all: try (eapply Hw; [exact Hk|first [exact (fun z => z)|eapply dtask_stays; exact Hd]|reflexivity|exact (fun z => z)]).
  all: try (split; [exact H1|split; [exact H2|intros Ht; apply H3; eapply dtask_stays; [exact Hd|exact Ht]]]).
  - pose proof (dtask_stays _ _ _ _ _ _ _ Hd) as St. cbn [dstep] in Hd. rewrite Hph in Hd. destruct (ds_task (k_d s)) eqn:Et; [discriminate Hd|]. specialize (H3 eq_refl). rewrite H3.
    split; [|split; [discriminate|auto]]. intros rc srv K. destruct pick as [m|]; cbn [client_start] in K, Hd; [|exact (H1 _ _ K)].
    destruct (lookup (rm_id m) cs) as [srv'|] eqn:El; [|discriminate Hd]. injection K as <- <-. eapply HP; [reflexivity|exact Hph|exact El].
  - destruct (k_w s) as [w|] eqn:Ew; cbn [option_map].
    + destruct (raised_ok g w) as [R1 R2]. eapply Hw; [reflexivity|eapply dtask_stays; exact Hd|exact R1|exact R2].
    + split; [exact H1|]. split; [discriminate|reflexivity].
  - split; [exact H1|]. split; [|rewrite Ht; discriminate]. intros w0 [= <-]. exists rc, srv, [], []. split; [exact Hc|]. split; [reflexivity|constructor].
  - destruct (H2 _ Hk) as (rc & srv & ins & effs & L1 & L2 & L3). cbn [wk_conf wk_x] in L2, L3. pose proof (xrun_step _ _ _ _ _ _ _ L3 Hx) as X. split.
    + eapply Hw; [exact Hk|exact (fun z => z)|reflexivity|]. intros _. eauto.
    + intros e He. apply in_map_iff in He as (e' & [= ->] & He). exists rc, srv, (ins ++ [i]), y', (effs ++ o). rewrite <- L2. split; [apply H1, L1|]. split; [exact X|apply in_app_iff; auto].
  - destruct (raised_ok g w) as [R1 R2]. eapply Hw; [exact Hk|exact (fun z => z)|exact R1|exact R2].
Qed.
Lemma side_next cx me sh p x io sh' p' x' out P : rs_step (C cx) me sh p x io = Some (sh', p', x', out) -> side_ok P x ->
  (forall cs m st srv, io = KFlow (DPick cs (Some m)) -> calling p = Some st -> lookup (rm_id m) cs = Some srv -> P (Local_spec.given cx st) srv) ->
  side_ok P x' /\ effects_ok P out.
Proof.
  intros E H HP. destruct (chained_step _ _ _ _ _ _ _ _ _ _ _ _ _ _ E) as [E1 _]. apply kstep_trans in E1. eapply (trans_ok _ _ _ _ _ _ _ _ P E1 H).
  intros cs m st t0 a sg str srv K1 K2 K3. cbn [kwhole k_d ds_step] in K2. eapply HP; [exact K1|rewrite K2; reflexivity|exact K3].
Qed.
End Serve.

(** *** The servers of a farm *)
Section Served.
Variables (cl sv : task -> task) (rhooks : runner_meta -> run_context -> run_context) (conf : runner_meta -> run_context -> xconf) (glob : glob_oracle) (now : time).
Notation run := (farm_run cl sv rhooks conf glob now).
Notation fs := (farm_fleet_step cl sv rhooks conf glob).
Definition gave (f : @fleet kside) (tr : list (nat * sysobs (iobs := kobs))) : Prop :=
  forall k i rc, In (k, (Some i, inr (KObs (ORun rc)))) tr -> exists cx st, ctx_of f k cx /\ rc = Local_spec.given cx st.
Lemma ctx_of_fun f k cx cx' : ctx_of (T := kside) f k cx -> ctx_of f k cx' -> cx = cx'.
Proof. intros (r & ca & H1 & H2) (r' & ca' & H3 & H4). rewrite H1 in H3. injection H3 as <-. rewrite H2 in H4. injection H4 as <- _. reflexivity. Qed.
Lemma gave_step f op f' o tr : fs f op = Some (f', o) -> gave f tr -> gave f' (tr ++ o).
Proof.
  intros E G k i rc Hin. destruct (fleet_sides _ _ _ _ _ _ E) as [Hc Hs]. apply in_app_iff in Hin as [Hin|Hin].
  - destruct (G _ _ _ Hin) as (cx & st & H1 & H2). exists cx, st. auto.
  - destruct Hs as [[_ H]|(k' & cx & i' & io & sh & p & x & sh' & p' & x' & out & _ & H2 & H3 & H4 & _)]; [destruct (H _ _ _ Hin)|].
    rewrite H4 in Hin. apply in_map_iff in Hin as (e & He & Hin). injection He as -> -> ->. exists cx.
    destruct (chained_faithful cx cl sv rhooks conf _ _ _ _ _ _ _ _ _ H3) as [(_ & _ & K)|(sop & K)]; rewrite chained_events in K.
    + exfalso. assert (In (ORun rc) (k_events out)) as Q; [|rewrite K in Q; exact Q]. unfold k_events. apply in_flat_map. eexists. split; [exact Hin|]. left. reflexivity.
    + destruct (step_gives _ _ _ _ _ _ _ _ rc K) as (st & ->); [unfold k_events; apply in_flat_map; eexists; split; [exact Hin|left; reflexivity]|]. exists st. auto.
Qed.
Lemma farm_gave ops q tr : run ops q tr -> gave (fm_fleet q) (farm_seen tr).
Proof.
  induction 1 as [|ops q tr op q' o R IH E]; [intros k i rc []|]. rewrite seen_app.
  assert (Go : forall asked a m o1, then_send cl sv rhooks conf glob q asked a m o1 = Some (q', o) -> gave (fm_fleet q') (farm_seen tr ++ farm_seen o)).
  { intros asked a m o1 Et. unfold then_send in Et. destruct (answered o1) as [r|].
    - destruct (farm_fleet_step _ _ _ _ _ (fm_fleet q) _) as [[f x]|] eqn:Es; [|discriminate]. injection Et as <- <-. cbn [fm_fleet]. rewrite seen_app, seen_sched, seen_obs. cbn [app]. eapply gave_step; [exact Es|exact IH].
    - injection Et as <- <-. cbn [fm_fleet]. rewrite seen_sched, app_nil_r. exact IH. }
  destruct op as [a|fo|k i l|c]; cbn [qstep] in E.
  - injection E as <- <-. cbn [fm_fleet farm_seen flat_map]. rewrite app_nil_r. exact IH.
  - destruct (picks_server fo); [discriminate|]. destruct (farm_fleet_step _ _ _ _ _ (fm_fleet q) fo) as [[f x]|] eqn:Es; [|discriminate]. injection E as <- <-. cbn [fm_fleet]. rewrite seen_obs. eapply gave_step; [exact Es|exact IH].
  - destruct (farm_wanting _ _ _) as [st|]; [|discriminate]. destruct (_ || _); [discriminate|]. destruct (smach_step _ _) as [[m o1]|]; [|discriminate]. eapply Go, E.
  - destruct (nth_error (fm_asked q) c) as [a|]; [|discriminate]. destruct (smach_step _ _) as [[m o1]|]; [|discriminate]. eapply Go, E.
Qed.
Definition sent_to (asked : list asking) (tr : list pobs) (k i : nat) (rc : run_context) (srv : runner_meta) : Prop := placed asked tr k i rc (Some srv).
Definition served (f : @fleet kside) (asked : list asking) (tr : list pobs) : Prop := forall k i x, fside f k i x -> side_ok rhooks conf (sent_to asked tr k i) x.
Lemma sent_more asked extra tr o k i rc srv : sent_to asked tr k i rc srv -> sent_to (asked ++ extra) (tr ++ o) k i rc srv.
Proof. apply placed_more. Qed.
Lemma served_more f asked extra tr o : served f asked tr -> served f (asked ++ extra) (tr ++ o).
Proof. intros H k i x Hx. eapply side_mono; [|apply H, Hx]. intros rc srv. apply sent_more. Qed.
(** One action of the runs and servers; [asked], [tr]: with what the scheduler has just answered. *)
Lemma served_step f op f' o asked tr : fs f op = Some (f', o) -> served f asked tr ->
  (forall k i cs m r t t0 js rs p rest st srv cx, op = FRunOp k (YStep i (KFlow (DPick cs (Some m)))) -> nth_error (fl_runs f) k = Some r -> nth_error (ws_tasks (sy_w (fr_sys r))) i = Some t -> tk_phase t = JpStepRun t0 js rs p rest ->
     calling p = Some st -> ctx_of f k cx -> lookup (rm_id m) cs = Some srv -> sent_to asked tr k i (Local_spec.given cx st) srv) ->
  (forall k n cs m, op <> FRunOp k (YPast n (KFlow (DPick cs (Some m))))) ->
  served f' asked tr /\ forall k w e, In (k, (w, inr (KEff e))) o -> exists i rc srv ins xs effs, w = Some i /\ sent_to asked tr k i rc srv /\ xrun (conf srv (rhooks srv rc)) ins xs effs /\ In e effs.
Proof.
  intros E H Hp Hn. destruct (fleet_sides _ _ _ _ _ _ E) as [_ Hs]. destruct Hs as [[H1 H2]|(k & cx & i & io & sh & p & x & sh' & p' & x' & out & H1 & H2 & H3 & H4 & H5 & H6 & H7)].
  - split; [|intros k w e Hin; destruct (H2 _ _ _ Hin)]. intros k i x Hx. destruct (H1 _ _ _ Hx) as [K|[cx ->]]; [apply H, K|]. split; [discriminate|]. split; [discriminate|reflexivity].
  - destruct (side_next cl sv rhooks conf _ _ _ _ _ _ _ _ _ _ (sent_to asked tr k i) H3 (H _ _ _ H1)) as [N1 N2].
    + intros cs m st srv -> Hc Hl. destruct H7 as [(r & t & t0 & js & rs & rest & G1 & G2 & G3 & G4)|[n G]]; [eapply Hp; eassumption|destruct (Hn _ _ _ _ G)].
    + split; [intros k' j y Hy; destruct (H6 _ _ _ Hy) as [K|(-> & -> & ->)]; [apply H, K|exact N1]|].
      intros k' w e Hin. rewrite H4 in Hin. apply in_map_iff in Hin as (e' & He & Hin). injection He as <- <- ->. destruct (N2 _ Hin) as (rc & srv & ins & xs & effs & G1 & G2 & G3). exists i, rc, srv, ins, xs, effs. auto.
Qed.
Lemma in_effect k w e o : In (QSeen k (w, inr (KEff e))) (map (fun y => QSeen (fst y) (snd y)) o) -> In (k, (w, inr (KEff e))) o.
Proof. intros H. apply in_map_iff in H as ((k' & y) & H1 & H2). cbn in H1. injection H1 as -> ->. exact H2. Qed.
Lemma split_mid {A} (l l' pre post : list A) e : l ++ l' = pre ++ e :: post -> (exists post', l = pre ++ e :: post') \/ exists l1, pre = l ++ l1 /\ l' = l1 ++ e :: post.
Proof.
  revert pre. induction l as [|a l IH]; intros pre H; cbn in H; [right; exists pre; auto|]. destruct pre as [|b pre]; cbn in H; injection H as -> H; [left; exists l; reflexivity|].
  destruct (IH _ H) as [[post' ->]|(l1 & -> & ->)]; [left; exists post'; reflexivity|right; exists l1; auto].
Qed.
Lemma farm_served ops q tr : run ops q tr -> served (fm_fleet q) (fm_asked q) (client_view tr) /\
  forall k w e pre post, tr = pre ++ QSeen k (w, inr (KEff e)) :: post -> exists i rc srv ins xs effs, w = Some i /\ sent_to (fm_asked q) (client_view pre) k i rc srv /\ xrun (conf srv (rhooks srv rc)) ins xs effs /\ In e effs.
Proof.
  induction 1 as [|ops q tr op q' o R [IH IHe] E]; [split; [intros k i x (r & H1 & _); destruct k; discriminate H1|intros k w e [|? ?] post C; discriminate C]|].
  destruct (outer_farm _ _ _ _ _ _ _ _ _ R) as (pops & d & Hd & S & _). assert (S' := S). destruct S' as [SF SC SS SA].
  rewrite cview_app.
  assert (Older : forall extra, fm_asked q' = fm_asked q ++ extra -> (forall k w e pre post, o = pre ++ QSeen k (w, inr (KEff e)) :: post ->
      exists i rc srv ins xs effs, w = Some i /\ sent_to (fm_asked q') (client_view (tr ++ pre)) k i rc srv /\ xrun (conf srv (rhooks srv rc)) ins xs effs /\ In e effs) ->
    forall k w e pre post, tr ++ o = pre ++ QSeen k (w, inr (KEff e)) :: post ->
      exists i rc srv ins xs effs, w = Some i /\ sent_to (fm_asked q') (client_view pre) k i rc srv /\ xrun (conf srv (rhooks srv rc)) ins xs effs /\ In e effs).
  { intros extra Ea Hnew k w e pre post Hs. destruct (split_mid _ _ _ _ _ Hs) as [[post' Et]|(o1 & -> & Eo)]; [|eapply Hnew; exact Eo].
    destruct (IHe _ _ _ _ _ Et) as (i & rc & srv & ins & xs & effs & G1 & G2 & G3). exists i, rc, srv, ins, xs, effs. split; [exact G1|]. split; [|exact G3]. rewrite Ea, <- (app_nil_r (client_view pre)). apply sent_more, G2. }
  assert (Nosched : forall l k w e pre post, map QSched l = pre ++ QSeen k (w, inr (KEff e)) :: post -> False).
  { intros l k w e pre post H. assert (K : In (QSeen k (w, inr (KEff e))) (map QSched l)) by (rewrite H; apply in_elt). apply in_map_iff in K as (z & C & _). discriminate C. }
  assert (Go : forall asked a m o1 st, then_send cl sv rhooks conf glob q asked a m o1 = Some (q', o) -> (exists extra, asked = fm_asked q ++ extra) ->
    farm_wanting (fm_fleet q) (as_run a) (as_job a) = Some st ->
    (forall r, answered o1 = Some r -> (exists rc, rx_command rc = command_of_step st /\ placed asked (client_view tr ++ map PSched o1) (as_run a) (as_job a) rc r) /\ forall m, r = Some m -> lookup (rm_id m) (as_clients a) = Some m) ->
    served (fm_fleet q') (fm_asked q') (client_view tr ++ client_view o) /\
    forall k w e pre post, tr ++ o = pre ++ QSeen k (w, inr (KEff e)) :: post ->
      exists i rc srv ins xs effs, w = Some i /\ sent_to (fm_asked q') (client_view pre) k i rc srv /\ xrun (conf srv (rhooks srv rc)) ins xs effs /\ In e effs).
  { intros asked a m o1 st Et [extra Ea] Hw Hp. unfold then_send in Et. destruct (answered o1) as [r|] eqn:Ho.
    - destruct (farm_fleet_step _ _ _ _ _ (fm_fleet q) _) as [[f x]|] eqn:Es; [|discriminate]. injection Et as <- <-. cbn [fm_fleet fm_asked] in *.
      destruct (served_step _ _ _ _ asked (client_view tr ++ map PSched o1) Es) as [N1 N2]; [rewrite Ea; apply served_more, IH| |discriminate|].
      + intros k i cs m0 r0 t t0 js rs p rest st' srv cx [= <- <- <- ->] Hk Ht Hph Hc Hcx Hl.
        destruct (farm_wants _ _ _ _ Hw) as (r' & t' & t0' & js' & rs' & p' & rest' & K1 & K2 & K3 & K4). rewrite Hk in K1. injection K1 as <-. rewrite Ht in K2. injection K2 as <-.
        rewrite Hph in K3. injection K3 as <- <- <- <- <-. rewrite Hc in K4. injection K4 as <-. destruct (Hp _ eq_refl) as ((rc & G1 & G2) & G3). rewrite (G3 _ eq_refl) in Hl. injection Hl as <-.
        assert (Gi := placed_gives _ _ _ _ _ _ G2). apply in_app_iff in Gi as [Gi|Gi]; [|apply in_map_iff in Gi as (z & C & _); discriminate C].
        destruct (farm_gave _ _ _ R _ _ _ (view_gives _ _ _ _ Gi)) as (cx' & st2 & L1 & ->). rewrite (ctx_of_fun _ _ _ _ Hcx L1). cbn [Local_spec.given rx_command] in G1.
        unfold sent_to. rewrite (given_same cx' st' st2) by congruence. exact G2.
      + split.
        * rewrite cview_app, cview_sched, app_assoc. rewrite <- (app_nil_r asked). apply served_more, N1.
        * apply (Older extra Ea). intros k w e pre post Hs. destruct (split_mid _ _ _ _ _ Hs) as [[post' K]|(x1 & -> & K)]; [destruct (Nosched _ _ _ _ _ _ K)|].
          assert (Hin : In (QSeen k (w, inr (KEff e))) (map (fun y => QSeen (fst y) (snd y)) x)) by (rewrite K; apply in_elt). apply in_effect in Hin.
          destruct (N2 _ _ _ Hin) as (i & rc & srv & ins & xs & effs & G1 & G2 & G3). exists i, rc, srv, ins, xs, effs. split; [exact G1|]. split; [|exact G3].
          rewrite !cview_app, cview_sched, app_assoc, <- (app_nil_r asked). apply sent_more, G2.
    - injection Et as <- <-. cbn [fm_fleet fm_asked] in *. split; [rewrite Ea; apply served_more, IH|]. apply (Older extra Ea). intros k w e pre post Hs. destruct (Nosched _ _ _ _ _ _ Hs). }
  destruct op as [a|fo|k i l|c]; cbn [qstep] in E.
  - injection E as <- <-. cbn [fm_fleet fm_asked client_view flat_map] in *. rewrite app_nil_r. split; [exact IH|]. apply (Older []); [rewrite app_nil_r; reflexivity|]. intros k w e [|? ?] post C; discriminate C.
  - destruct (picks_server fo) eqn:Ep; [discriminate|]. destruct (farm_fleet_step _ _ _ _ _ (fm_fleet q) fo) as [[f x]|] eqn:Es; [|discriminate]. injection E as <- <-. cbn [fm_fleet fm_asked] in *.
    destruct (served_step _ _ _ _ _ _ Es IH) as [N1 N2]; [intros k i cs m r t t0 js rs p rest st srv cx ->; discriminate Ep|intros k n cs m ->; discriminate Ep|].
    split; [rewrite <- (app_nil_r (fm_asked q)); apply served_more, N1|]. apply (Older []); [rewrite app_nil_r; reflexivity|]. intros k w e pre post Hs.
    assert (Hin : In (QSeen k (w, inr (KEff e))) (map (fun y => QSeen (fst y) (snd y)) x)) by (rewrite Hs; apply in_elt). apply in_effect in Hin.
    destruct (N2 _ _ _ Hin) as (i & rc & srv & ins & xs & effs & G1 & G2 & G3). exists i, rc, srv, ins, xs, effs. split; [exact G1|]. split; [|exact G3].
    rewrite cview_app, <- (app_nil_r (fm_asked q)). apply sent_more, G2.
  - destruct (farm_wanting (fm_fleet q) k i) as [st|] eqn:Hw; [|discriminate]. destruct (farm_asked_for q k i) eqn:Eaf; [discriminate|]. cbn [orb] in E. destruct (negb _); [discriminate|].
    destruct (smach_step _ _) as [[m o1]|] eqn:Es; [|discriminate]. eapply (Go _ _ _ _ st E); [eauto|exact Hw|]. intros r Ho. cbn [as_run as_job as_clients].
    rewrite <- SA, <- SC. destruct (ask_placed cl glob now pops d _ k i st l m o1 r Hd) as (rc & G1 & G2 & ->); [rewrite (wanting_outer _ _ _ _ S); exact Hw|rewrite (asked_for_outer _ _ _ _ S); exact Eaf|rewrite SS, SA; exact Es|exact Ho|].
    split; [eauto|discriminate].
  - destruct (nth_error (fm_asked q) c) as [a|] eqn:Ea; [|discriminate]. destruct (smach_step _ _) as [[m o1]|] eqn:Es; [|discriminate].
    destruct (answered o1) as [r|] eqn:Ho.
    + destruct (lock_placed cl glob now pops d _ c a m o1 r Hd) as (st & rc & G0 & G1 & G2 & G3); [rewrite SA; exact Ea|rewrite SS; exact Es|exact Ho|]. rewrite SA in G2.
      eapply (Go _ _ _ _ st E); [exists []; symmetry; apply app_nil_r|rewrite <- (wanting_outer _ _ _ _ S); exact G0|]. intros r' Hr'. rewrite Ho in Hr'. injection Hr' as <-. eauto.
    + unfold then_send in E. rewrite Ho in E. injection E as <- <-. cbn [fm_fleet fm_asked] in *. split; [rewrite <- (app_nil_r (fm_asked q)); apply served_more, IH|].
      apply (Older []); [rewrite app_nil_r; reflexivity|]. intros k w e pre post Hs. destruct (Nosched _ _ _ _ _ _ Hs).
Qed.
End Served.
