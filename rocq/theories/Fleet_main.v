From Verif Require Import Base Types Signals_model Signals_proof Stream_model Cond_model Plugins_model Exec_model Exec_spec Step_proof Job_proof Reg_proof Exact_crash Workflow_model Workflow_spec Workflow_proof Workflow_inv Workflow_term
  Runner_model Remote_model Local_model Local_spec Distant_model Worker_model System_model System_spec System_proof System_flow System_inst Finish_spec Finish_proof Chain_model Fleet_model Fleet_spec Fleet_proof Fleet_iso.

Section M.
Context {T iop iobs : Type}.
Variable R : ectx -> rside T iop iobs.
Variable glob : glob_oracle.
Variable tame : iop -> Prop.
Hypothesis F : forall cx, faithful (R cx) cx.
Hypothesis Tr : forall cx, tracks (R cx) cx tame.
Hypothesis Ob : forall cx, oblivious (R cx).
Notation fstep := (fstep R glob).
Notation fexec := (fexec R glob).
Notation fleet_run := (fleet_run R glob).

(** Addresses are those of signals made before. *)
Definition bounded (sm : sigman) : Prop := (forall j a, lookup j (sm_reg sm) = Some a -> a < length (sm_heap sm)) /\ forall c a, lookup c (sm_pending sm) = Some a -> a < length (sm_heap sm).
Lemma bounded_env sh e : bounded (sh_sm sh) -> bounded (sh_sm (env_step sh e)).
Proof.
  intros [B1 B2]. destruct e as [d|[id|id|c id|c|a o]|c]; cbn [env_step set_sm set_cache sh_sm]; try (split; assumption).
  - cbn [sm_step fst]. split; cbn [sm_heap sm_reg sm_pending]; rewrite app_length; cbn [length]; intros j a; [rewrite lookup_insert; destruct (eq_dec _ _)|]; intros H; [injection H as <-; lia| |]; [apply B1 in H|apply B2 in H]; lia.
  - cbn [sm_step fst]. split; cbn [sm_heap sm_reg sm_pending]; [|exact B2]. intros j a. rewrite lookup_remove. destruct (eq_dec _ _); [discriminate|apply B1].
  - cbn [sm_step]. destruct (lookup id (sm_reg (sh_sm sh))) as [a|] eqn:E; cbn [fst]; [|split; assumption]. split; cbn [sm_heap sm_reg sm_pending]; [exact B1|].
    intros c' a'. rewrite lookup_insert. destruct (eq_dec _ _); intros H; [injection H as <-; exact (B1 _ _ E)|exact (B2 _ _ H)].
  - cbn [sm_step]. destruct (lookup c (sm_pending (sh_sm sh))) as [a|]; [|split; assumption]. destruct (nth_error (sm_heap (sh_sm sh)) a) as [st|]; [|split; assumption].
    destruct (sig_cancel st) as [[st' r] w]. split; cbn [fst sm_heap sm_reg sm_pending]; rewrite list_set_length; [exact B1|]. intros c' a'. rewrite lookup_remove. destruct (eq_dec _ _); [discriminate|apply B2].
  - cbn [sm_step]. destruct (nth_error (sm_heap (sh_sm sh)) a) as [st|]; [|split; assumption]. destruct (sig_step st o) as [st' r]. split; cbn [fst sm_heap sm_reg sm_pending]; rewrite list_set_length; assumption.
Qed.
Lemma bounded_envs es : forall sh, bounded (sh_sm sh) -> bounded (sh_sm (env_steps sh es)).
Proof. induction es as [|e es IH]; intros sh B; [exact B|]. apply IH, bounded_env, B. Qed.
Lemma named_back f op f' o : fstep f op = Some (f', o) -> named f' -> named f.
Proof. intros E H k r Hk. destruct (grows R glob _ _ _ _ E _ _ Hk) as (r' & H1 & H2). rewrite <- H2. exact (H k r' H1). Qed.
Lemma fleet_bounded now ops f tr : fleet_run now ops f tr -> named f -> bounded (fl_sm f).
Proof.
  induction 1 as [|ops f tr op f' o Hr IH E]; intros Hn.
  - split; cbn; intros; discriminate.
  - assert (Hn0 := named_back _ _ _ _ E Hn). specialize (IH Hn0).
    destruct op as [cx0|c wf0|k0 op0|d|c j|c]; cbn [Fleet_model.fstep] in E.
    + injection E as <- <-. exact IH.
    + destruct (nth_error (fl_ctx f) c) as [[cx0 ca0]|]; [|discriminate]. injection E as <- <-. exact IH.
    + destruct (nth_error (fl_runs f) k0) as [r0|] eqn:Ek0; [|discriminate]. destruct (nth_error (fl_ctx f) (fr_ctx r0)) as [[cx0 ca0]|] eqn:Ec0; [|discriminate].
      destruct (is_env op0) eqn:Henv; [discriminate|]. destruct (sysstep _ _ _ _ _ _) as [[s' o']|] eqn:Es; [|discriminate]. injection E as <- <-. cbn [fl_sm].
      destruct (projection R glob F _ _ _ _ Hr Hn0 k0 cx0 (fr_wf r0) (settle (fl_now f) (fl_sm f) ca0 (fr_sys r0))) as (sh1 & ops1 & G1 & _); [exists r0, ca0; auto|].
      destruct (sys_effect (R cx0) glob cx0 (fr_wf r0) (F cx0) (Hn0 _ _ Ek0) _ _ _ _ _ _ _ G1 Es Henv) as (es & Ee & _). cbn [settle sy_w ws_sh] in Ee. rewrite Ee. apply bounded_envs. exact IH.
    + injection E as <- <-. exact IH.
    + injection E as <- <-. exact (bounded_env (Shared (fl_now f) (fl_sm f) None) (ESig (MCancelGet c j)) IH).
    + injection E as <- <-. exact (bounded_env (Shared (fl_now f) (fl_sm f) None) (ESig (MCancelFire c)) IH).
Qed.

(** The other runs do not touch this one's jobs. *)
Lemma apart_alone ops (f : @fleet T) k : apart f -> alone (iop := iop) ops f k.
Proof. intros Ha k' r r' id op Hne Hk Hk' J J'. destruct (Ha k k' r r' id (fun C => Hne (eq_sym C)) Hk Hk' J J'). Qed.
Lemma others_orderly ops (f : @fleet T) k r e : nth_error (fl_runs f) k = Some r -> alone ops f k -> from_others (iop := iop) ops f k e -> well_behaved (fr_wf r) (WEnv e).
Proof.
  intros Hk Ha H. assert (Q : forall id, enters id e -> ~ job_of (fr_wf r) id).
  { destruct H as [(d & -> & _)|[(c & j & -> & _)|[(c & -> & _)|(_ & _ & k' & r' & op & Hne & Hk' & Ho & He)]]]; try (intros id [C|C]; discriminate C).
    intros id Hi Hj. destruct (He id Hi) as [H1 H2]. rewrite (Ha k' r r' id op Hne Hk Hk' Hj H1 Ho) in H2. discriminate H2. }
  destruct e as [d|[id|id|c id|c|a o]|c]; cbn; try exact Logic.I; intros key j Hin ->; apply (Q (jb_id j)); try (left; reflexivity); try (right; reflexivity); exists key, j; auto.
Qed.
Lemma run_orderly now ops f tr k cx wf s : fleet_run now ops f tr -> named f -> alone ops f k -> run_at f k cx wf s -> (forall op, In op (run_ops k ops) -> orderly wf tame op) ->
  exists sh0 ops', sysrun (R cx) glob cx wf sh0 ops' s (run_events k tr) /\ filter (fun op => negb (is_env op)) ops' = run_ops k ops /\
    (forall e, In (YFlow (WEnv e)) ops' -> from_others ops f k e) /\ began R glob now ops f k sh0 /\ (forall op, In op ops' -> orderly wf tame op).
Proof.
  intros Hr Hn Ha Hat Ho. assert (Hat' := Hat). destruct Hat' as (r & ca & Hk & Hc & Hw & Hs).
  destruct (projection R glob F _ _ _ _ Hr Hn k cx wf s Hat) as (sh0 & ops' & H1 & H2 & H3 & H4). exists sh0, ops'. split; [exact H1|]. split; [exact H2|]. split; [exact H3|]. split; [exact H4|].
  intros op Hop. destruct (is_env op) eqn:He.
  - destruct op as [[| | | |e]| |]; try discriminate He. cbn [orderly]. rewrite <- Hw. apply (others_orderly ops f k r e Hk Ha). apply H3, Hop.
  - apply Ho. rewrite <- H2. apply filter_In. rewrite He. auto.
Qed.

(** Cancelling other jobs changes nothing. *)
Lemma unbothered now ops f tr k cx wf s : fleet_run now ops f tr -> named f -> alone ops f k -> run_at f k cx wf s -> (forall key j, In (key, j) (wf_jobs wf) -> owns_steps j) ->
  (forall op, In op (run_ops k ops) -> orderly wf tame op) -> (forall c j, In (FLook c j) (since k ops) -> ~ job_of wf j) ->
  exists sh2 ops2 s2, sysrun (R cx) glob cx wf sh2 ops2 s2 (run_events k tr) /\ unraised sh2 /\ (forall e, In (YFlow (WEnv e)) ops2 -> ~ raises e) /\
    filter (fun op => negb (is_env op)) ops2 = run_ops k ops /\ ws_main (sy_w s2) = ws_main (sy_w s) /\ ws_tasks (sy_w s2) = ws_tasks (sy_w s).
Proof.
  intros Hr Hn Ha Hat Hown Ho Hl. assert (Hat' := Hat). destruct Hat' as (r & ca & Hk & Hc & Hw & Hs).
  assert (Hnd : NoDup (keys (wf_jobs wf))) by (rewrite <- Hw; exact (Hn k r Hk)).
  destruct (run_orderly _ _ _ _ _ _ _ _ Hr Hn Ha Hat Ho) as (sh0 & ops' & H1 & H2 & H3 & (ops0 & c0 & wf0 & f0 & tr0 & ca0 & B1 & B2 & B3 & B4 & B5) & H5).
  assert (Hn0 : named f0). { intros k' r' H'. destruct (B5 k' r' H') as (r2 & G1 & G2). rewrite <- G2. exact (Hn k' r2 G1). }
  destruct (fleet_bounded _ _ _ _ B1 Hn0) as [Bd1 Bd2].
  destruct (isolated (R cx) glob cx wf tame (F cx) (Tr cx) (Ob cx) Hnd Hown sh0 ops' s _ H1 H5) as (own & s2 & Q1 & Q2 & [Q3 Q4 Q5 Q6] & Q7).
  - intros c j Hin. destruct (H3 _ Hin) as [(d & C & _)|[(c' & j' & E & Hin')|[(c' & C & _)|(_ & C & _)]]]; try discriminate; [|destruct (C c j eq_refl)].
    injection E as <- <-. exact (Hl c j Hin').
  - rewrite B3. exact Bd1.
  - rewrite B3. exact Bd2.
  - exists (blank sh0), (map erase ops'), s2. split; [exact Q1|]. split; [apply blank_unraised|]. split; [|split; [rewrite erase_filter; exact H2|split; rewrite Q4; reflexivity]].
    apply erase_quiet. intros e He Hra. destruct (H3 e He) as [(d & -> & _)|[(c & j & -> & _)|[(c & -> & _)|(C & _)]]]; try destruct Hra; [eauto|contradiction].
Qed.

(** A run that is over when this one is started does not disturb it. *)
Lemma over_step cx wf s op s' o : sysstep (R cx) glob cx wf s op = Some (s', o) -> is_env op = false ->
  ((exists x, ws_main (sy_w s) = WpDone x) /\ forall t, In t (ws_tasks (sy_w s)) -> exists x, tk_phase t = JpReturned x) ->
  ((exists x, ws_main (sy_w s') = WpDone x) /\ forall t, In t (ws_tasks (sy_w s')) -> exists x, tk_phase t = JpReturned x) /\ job_action op = false.
Proof using.
  clear F Tr Ob tame.
  intros E He [[x Hm] Ht]. destruct op as [wo|i io|k io]; cbn [sysstep] in E.
  - destruct (is_step_op wo) eqn:Hs; [discriminate|]. destruct (wstep glob cx wf (sy_w s) wo) as [[w' wtr]|] eqn:Ew; [|discriminate].
    assert (K : sy_w s' = w') by (destruct (step_over (sy_w s) wo) as [[i p]|]; injection E as <- _; reflexivity). rewrite K. clear E K.
    destruct wo as [|gh|i jo|i|e]; [| | | |discriminate He]; cbn [wstep] in Ew.
    + unfold main_step in Ew. rewrite Hm in Ew. discriminate.
    + rewrite Hm in Ew. discriminate.
    + destruct (nth_error (ws_tasks (sy_w s)) i) as [t|] eqn:Et; [|discriminate]. destruct (Ht t (nth_error_In _ _ Et)) as [y Hy]. rewrite Hy in Ew. destruct jo; discriminate Ew.
    + destruct (nth_error (ws_tasks (sy_w s)) i) as [[key j p b]|] eqn:Et; [|discriminate]. destruct p; try discriminate Ew. destruct b; [discriminate|]. rewrite Hm in Ew. injection Ew as <- _.
      split; [|reflexivity]. split; [exists x; exact Hm|]. cbn [ws_tasks set_task]. intros t Hin. apply In_nth_error in Hin as [n Hn].
      destruct (Nat.eq_dec n i) as [->|Hne]; [rewrite (list_set_eq _ _ _ _ Et) in Hn; injection Hn as <-; eexists; reflexivity|]. rewrite list_set_ne in Hn by exact Hne. apply Ht, (nth_error_In _ _ Hn).
  - destruct (nth_error (ws_tasks (sy_w s)) i) as [t|] eqn:Et; [|discriminate]. destruct (Ht t (nth_error_In _ _ Et)) as [y Hy]. rewrite Hy in E. destruct (nth_error (sy_cur s) i); discriminate.
  - destruct (nth_error (sy_past s) k) as [[i [[sh p] y]]|]; [|discriminate]. destruct (rs_step (R cx) (S i) sh p y io) as [[[[sh' p'] x'] out]|]; [|discriminate]. injection E as <- <-. cbn [sy_w]. split; [|reflexivity]. split; [exists x; exact Hm|exact Ht].
Qed.
Lemma over_fstep f op f' o k r : fstep f op = Some (f', o) -> nth_error (fl_runs f) k = Some r -> over r ->
  (forall o', In o' (run_ops k [op]) -> job_action o' = false) /\ exists r', nth_error (fl_runs f') k = Some r' /\ over r'.
Proof using.
  clear F Tr Ob tame.
  intros E Hk Ho. destruct op as [cx0|c wf0|k0 op0|d|c j|c]; cbn [Fleet_model.fstep] in E; try (injection E as <- <-; split; [intros o' []|exists r; auto]).
  - destruct (nth_error (fl_ctx f) c) as [[cx0 ca0]|]; [|discriminate]. injection E as <- <-. split; [intros o' []|]. exists r. cbn [fl_runs]. rewrite nth_error_app1; [auto|apply nth_error_Some; congruence].
  - destruct (nth_error (fl_runs f) k0) as [r0|] eqn:Ek0; [|discriminate]. destruct (nth_error (fl_ctx f) (fr_ctx r0)) as [[cx0 ca0]|]; [|discriminate].
    destruct (is_env op0) eqn:He; [discriminate|]. destruct (sysstep _ _ _ _ _ _) as [[s' o']|] eqn:Es; [|discriminate]. injection E as <- <-. cbn [fl_runs].
    destruct (Nat.eq_dec k k0) as [->|Hne].
    + rewrite Ek0 in Hk. injection Hk as <-. destruct (over_step _ _ _ _ _ _ Es He Ho) as [H1 H2]. split.
      * cbn [run_ops flat_map]. rewrite Nat.eqb_refl. intros o1 [<-|[]]. exact H2.
      * eexists. split; [apply (list_set_eq _ _ _ _ Ek0)|exact H1].
    + split; [|exists r; rewrite list_set_ne by exact Hne; auto]. cbn [run_ops flat_map]. rewrite (proj2 (Nat.eqb_neq k0 k)) by auto. intros o1 [].
Qed.
Lemma over_exec more : forall f f' o k r, fexec f more = Some (f', o) -> nth_error (fl_runs f) k = Some r -> over r -> forall o', In o' (run_ops k more) -> job_action o' = false.
Proof using.
  clear F Tr Ob tame.
  induction more as [|op more IH]; intros f f' o k r E Hk Ho o' Hin; [destruct Hin|]. cbn [Fleet_model.fexec] in E.
  destruct (fstep f op) as [[f1 o1]|] eqn:E1; [|discriminate]. destruct (fexec f1 more) as [[f2 o2]|] eqn:E2; [|discriminate].
  destruct (over_fstep _ _ _ _ _ _ E1 Hk Ho) as [H1 (r1 & H2 & H3)]. change (op :: more) with ([op] ++ more) in Hin. rewrite run_ops_app in Hin. apply in_app_iff in Hin as [Hin|Hin]; [exact (H1 _ Hin)|exact (IH _ _ _ _ _ E2 H2 H3 _ Hin)].
Qed.

Lemma since_here a : forall k c wf0 b, starts (iop := iop) a = k -> since k (a ++ FStart c wf0 :: b) = b.
Proof. induction a as [|op a IH]; intros k c wf0 b <-; [reflexivity|]. destruct op; cbn [app since starts]; apply IH; reflexivity. Qed.
Lemma runs_from more : forall f f' o k r, fexec f more = Some (f', o) -> nth_error (fl_runs f') k = Some r ->
  (exists r0, nth_error (fl_runs f) k = Some r0 /\ fr_wf r0 = fr_wf r) \/ (length (fl_runs f) <= k /\ exists c, In (FStart c (fr_wf r)) more).
Proof using.
  clear F Tr Ob tame.
  induction more as [|op more IH]; intros f f' o k r E Hk; cbn [Fleet_model.fexec] in E; [injection E as <- <-; left; eauto|].
  destruct (fstep f op) as [[f1 o1]|] eqn:E1; [|discriminate]. destruct (fexec f1 more) as [[f2 o2]|] eqn:E2; [|discriminate]. injection E as <- <-.
  assert (L : length (fl_runs f) <= length (fl_runs f1)).
  { destruct op as [cx0|c wf0|k0 op0|d|c j|c]; cbn [Fleet_model.fstep] in E1; try (injection E1 as <- <-; apply le_n).
    - destruct (nth_error (fl_ctx f) c) as [[cx0 ca0]|]; [|discriminate]. injection E1 as <- <-. cbn [fl_runs]. rewrite app_length. lia.
    - destruct (nth_error (fl_runs f) k0) as [r0|] eqn:Ek0; [|discriminate]. destruct (nth_error (fl_ctx f) (fr_ctx r0)) as [[cx0 ca0]|]; [|discriminate].
      destruct (is_env op0); [discriminate|]. destruct (sysstep _ _ _ _ _ _) as [[s' o']|]; [|discriminate]. injection E1 as <- <-. cbn [fl_runs]. rewrite list_set_length. apply le_n. }
  destruct (IH _ _ _ _ _ E2 Hk) as [(r1 & H1 & H2)|(H1 & c & H2)]; [|right; split; [lia|exists c; right; exact H2]].
  destruct (nth_error (fl_runs f) k) as [r0|] eqn:E0.
  - left. exists r0. split; [reflexivity|]. destruct (grows R glob _ _ _ _ E1 _ _ E0) as (r2 & H3 & H4). congruence.
  - right. split; [apply nth_error_None, E0|]. destruct op as [cx0|c wf0|k0 op0|d|c j|c]; cbn [Fleet_model.fstep] in E1; try (injection E1 as <- <-; cbn [fl_runs] in H1; congruence).
    + destruct (nth_error (fl_ctx f) c) as [[cx0 ca0]|]; [|discriminate]. injection E1 as <- <-. cbn [fl_runs] in H1. rewrite nth_error_app2 in H1 by (apply nth_error_None, E0). apply nth_error_In in H1 as [<-|[]].
      cbn [fr_wf] in H2. rewrite <- H2. exists c. left; reflexivity.
    + destruct (nth_error (fl_runs f) k0) as [r0|] eqn:Ek0; [|discriminate]. destruct (nth_error (fl_ctx f) (fr_ctx r0)) as [[cx0 ca0]|]; [|discriminate].
      destruct (is_env op0); [discriminate|]. destruct (sysstep _ _ _ _ _ _) as [[s' o']|]; [|discriminate]. injection E1 as <- <-. cbn [fl_runs] in H1.
      apply nth_error_None in E0. assert (k < length (fl_runs f)) by (rewrite <- (list_set_length k0 (FRun (fr_ctx r0) (fr_wf r0) s')); apply nth_error_Some; congruence). lia.
Qed.
Lemma alone_after now ops0 f0 tr0 c wf later f o : fleet_run now ops0 f0 tr0 -> fexec f0 (FStart c wf :: later) = Some (f, o) ->
  (forall k' r' id, nth_error (fl_runs f0) k' = Some r' -> job_of (fr_wf r') id -> job_of wf id -> over r') ->
  (forall c' wf' id, In (FStart c' wf') later -> job_of wf' id -> ~ job_of wf id) ->
  alone (ops0 ++ FStart c wf :: later) f (length (fl_runs f0)).
Proof using.
  clear F Tr Ob tame.
  intros Hr E Ho Hl k' r r' id op Hne Hk Hk' J J' Hin. assert (St := starts_run R glob _ _ _ _ Hr). rewrite since_here in Hin by exact St.
  assert (Er : fr_wf r = wf).
  { cbn [Fleet_model.fexec] in E. destruct (fstep f0 (FStart c wf)) as [[f1 o1]|] eqn:E1; [|discriminate]. destruct (fexec f1 later) as [[f2 o2]|] eqn:E2; [|discriminate]. injection E as <- <-.
    cbn [Fleet_model.fstep] in E1. destruct (nth_error (fl_ctx f0) c) as [[cx0 ca0]|]; [|discriminate]. injection E1 as <- <-. destruct (runs_from _ _ _ _ _ _ E2 Hk) as [(r1 & H1 & H2)|(H1 & _)]; cbn [fl_runs] in H1.
    - rewrite nth_error_app2, Nat.sub_diag in H1 by apply le_n. injection H1 as <-. symmetry. exact H2.
    - rewrite app_length in H1. cbn in H1. lia. }
  rewrite Er in J. destruct (runs_from _ _ _ _ _ _ E Hk') as [(r0 & H1 & H2)|(H1 & c' & [H2|H2])].
  - rewrite <- H2 in J'. apply (over_exec _ _ _ _ _ _ E H1 (Ho _ _ _ H1 J' J)). exact Hin.
  - (* started now: the run itself *) exfalso. cbn [Fleet_model.fexec] in E. destruct (fstep f0 (FStart c wf)) as [[f1 o1]|] eqn:E1; [|discriminate]. destruct (fexec f1 later) as [[f2 o2]|] eqn:E2; [|discriminate]. injection E as <- <-.
    cbn [Fleet_model.fstep] in E1. destruct (nth_error (fl_ctx f0) c) as [[cx0 ca0]|]; [|discriminate]. injection E1 as <- <-. destruct (runs_from _ _ _ _ _ _ E2 Hk') as [(r1 & H3 & H4)|(H3 & c1 & H4)]; cbn [fl_runs] in H3.
    + rewrite nth_error_app2 in H3 by exact H1. destruct (k' - length (fl_runs f0)) as [|n] eqn:En; [lia|]. destruct n; discriminate H3.
    + exact (Hl _ _ _ H4 J' J).
  - exfalso. exact (Hl _ _ _ H2 J' J).
Qed.

(** A run going on by itself. *)
Lemma lift_exec more : forall f k cx wf s s' o, run_at f k cx wf s -> sysexec (R cx) glob cx wf s more = Some (s', o) -> Forall (fun op => is_env op = false) more ->
  exists f', fexec f (map (FRunOp k) more) = Some (f', map (fun x => (k, x)) o) /\ run_at f' k cx wf s'.
Proof.
  induction more as [|op more IH]; intros f k cx wf s s' o Hat E He; cbn [sysexec] in E; cbn [map Fleet_model.fexec].
  - injection E as <- <-. exists f. auto.
  - destruct (sysstep (R cx) glob cx wf s op) as [[s1 o1]|] eqn:E1; [|discriminate]. destruct (sysexec (R cx) glob cx wf s1 more) as [[s2 o2]|] eqn:E2; [|discriminate]. injection E as <- <-.
    inversion_clear He as [|? ? He1 He2]. destruct Hat as (r & ca & Hk & Hc & Hw & Hs). subst wf s. cbn [Fleet_model.fstep]. rewrite Hk, Hc, He1, E1.
    destruct (IH (Fleet (sh_now (ws_sh (sy_w s1))) (sh_sm (ws_sh (sy_w s1))) (list_set (fr_ctx r) (cx, sh_cache (ws_sh (sy_w s1))) (fl_ctx f)) (list_set k (FRun (fr_ctx r) (fr_wf r) s1) (fl_runs f))) k cx (fr_wf r) s1 s2 o2) as (f' & H1 & H2); [|exact E2|exact He2|].
    + exists (FRun (fr_ctx r) (fr_wf r) s1), (sh_cache (ws_sh (sy_w s1))). cbn [fl_runs fl_ctx fl_now fl_sm fr_ctx fr_wf fr_sys]. split; [apply (list_set_eq _ _ _ _ Hk)|]. split; [apply (list_set_eq _ _ _ _ Hc)|]. split; [reflexivity|]. symmetry. apply settle_same.
    + rewrite H1. exists f'. rewrite map_app. auto.
Qed.
Lemma fexec_run more : forall now ops f tr f' o, fleet_run now ops f tr -> fexec f more = Some (f', o) -> fleet_run now (ops ++ more) f' (tr ++ o).
Proof.
  induction more as [|op more IH]; intros now ops f tr f' o H E; cbn [Fleet_model.fexec] in E; [injection E as <- <-; rewrite !app_nil_r; exact H|].
  destruct (fstep f op) as [[f1 o1]|] eqn:E1; [|discriminate]. destruct (fexec f1 more) as [[f2 o2]|] eqn:E2; [|discriminate]. injection E as <- <-.
  change (op :: more) with ([op] ++ more). rewrite !app_assoc. eapply IH; [|exact E2]. eapply fleet_step; eassumption.
Qed.
End M.
