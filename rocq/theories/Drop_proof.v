From Verif Require Import Base Types Signals_model Signals_proof Stream_model Cond_model Plugins_model Exec_model Exec_spec Step_proof Job_proof Reg_proof Exact_crash Workflow_model Workflow_spec Workflow_proof Workflow_inv Workflow_term
  Runner_model Remote_model Local_model Local_spec Distant_model Worker_model System_model System_spec System_proof System_flow System_inst Finish_spec Finish_proof Chain_model Pace_spec Pace_proof Fleet_model Fleet_spec Fleet_proof Fleet_iso Fleet_main Live_spec Live_proof
  Each_spec Each_proof Drop_model Drop_spec.

Lemma Forall2_len {A B} (P : A -> B -> Prop) l l2 : Forall2 P l l2 -> length l2 = length l.
Proof. induction 1; cbn; congruence. Qed.
Lemma Forall2_both {A B} (P : A -> B -> Prop) l l2 k : Forall2 P l l2 -> match nth_error l k, nth_error l2 k with Some x, Some y => P x y | None, None => True | _, _ => False end.
Proof. intros H. revert k. induction H; intros [|k]; cbn; auto. apply IHForall2. Qed.
Lemma Forall2_upd {A B} (P : A -> B -> Prop) k x y : forall l l2, Forall2 P l l2 -> P x y -> Forall2 P (list_set k x l) (list_set k y l2).
Proof. revert k. intros k l l2 H. revert k. induction H; intros [|k] Hp; cbn; constructor; auto. Qed.

Section G.
Context {T iop iobs : Type}.
Variable R : rside T iop iobs.
Variable glob : glob_oracle.
Variable cx : ectx.
Variable wf : workflow.
Lemma sys_same s s2 op s' o : same_but_reports s s2 -> job_side op = true -> sysstep R glob cx wf s op = Some (s', o) -> exists s2', sysstep R glob cx wf s2 op = Some (s2', o) /\ same_but_reports s' s2'.
Proof.
  intros (E1 & E2 & E3 & E4 & E5 & Ft) Hj E. assert (Hlen := Forall2_len _ _ _ Ft).
  destruct op as [[|g|i jo|i|e]|i io|k io]; cbn [job_side] in Hj; try discriminate Hj; cbn [sysstep] in *.
  - destruct (is_step_op _); [discriminate|]. cbn [wstep] in *. assert (B := Forall2_both _ _ _ i Ft). unfold step_over in *.
    destruct (nth_error (ws_tasks (sy_w s)) i) as [t|] eqn:Et; [|discriminate]. destruct (nth_error (ws_tasks (sy_w s2)) i) as [t2|] eqn:Et2; [|destruct B]. destruct B as (B1 & B2 & B3).
    rewrite B2, B3, E1. destruct (job_step _ _ _ _ _ _ _) as [[[sh' p'] jt]|]; [|discriminate].
    assert (Sw : same_work (WTask (tk_key t) (tk_job t) p' (tk_sent t)) (WTask (tk_key t2) (tk_job t) p' (tk_sent t2))) by (repeat split; cbn; congruence).
    destruct (match jo with JNext => _ | _ => _ end) as [[i' p]|]; injection E as <- <-; rewrite E4, E5, ?B2, E2, E3; (eexists; split; [reflexivity|]).
    all: repeat split; cbn [sy_w ws_sh ws_main ws_tasks ws_chan sy_cur sy_past]; rewrite ?list_set_length, ?Hlen; try reflexivity; apply Forall2_upd; assumption.
  - assert (B := Forall2_both _ _ _ i Ft). destruct (nth_error (ws_tasks (sy_w s)) i) as [t|] eqn:Et; [|discriminate]. destruct (nth_error (ws_tasks (sy_w s2)) i) as [t2|] eqn:Et2; [|destruct B]. destruct B as (B1 & B2 & B3).
    rewrite E4, B3, E1. destruct (nth_error (sy_cur s) i) as [x|]; [|discriminate]. destruct (tk_phase t) as [| | | | | | | | | |t0 js rs sp rest| | | |] eqn:Ep; try discriminate E.
    destruct (rs_step _ _ _ _ _ _) as [[[[sh' sp'] x'] out]|]; [|discriminate E]. injection E as <- <-. eexists. split; [reflexivity|].
    repeat split; cbn [sy_w ws_sh ws_main ws_tasks ws_chan sy_cur sy_past]; rewrite ?E4, ?E5; try assumption; try reflexivity. apply Forall2_upd; [exact Ft|]. repeat split; cbn; congruence.
  - rewrite E5. destruct (nth_error (sy_past s) k) as [[i [[sh p] x]]|]; [|discriminate]. destruct (rs_step _ _ _ _ _ _) as [[[[sh' sp'] x'] out]|]; [|discriminate E]. injection E as <- <-. eexists. split; [reflexivity|].
    repeat split; cbn [sy_w ws_sh ws_main ws_tasks ws_chan sy_cur sy_past]; try assumption; reflexivity.
Qed.
End G.
Lemma same_refl {T} (s : @system T) : same_but_reports s s.
Proof. repeat split. induction (ws_tasks (sy_w s)); constructor; [repeat split|assumption]. Qed.
Lemma same_sym {T} (s s2 : @system T) : same_but_reports s s2 -> same_but_reports s2 s.
Proof.
  intros (E1 & E2 & E3 & E4 & E5 & Ft). repeat split; try congruence. clear -Ft. induction Ft as [|t t2 l l2 (H1 & H2 & H3) _ IH]; constructor; [repeat split; congruence|exact IH].
Qed.
Lemma same_settle {T} now sm ca (s s2 : @system T) : same_but_reports s s2 -> same_but_reports (settle now sm ca s) (settle now sm ca s2).
Proof. intros (E1 & E2 & E3 & E4 & E5 & Ft). repeat split; cbn; assumption. Qed.
Lemma lose_same {T} i (s s' s2 : @system T) : lose i s = Some s' -> same_but_reports s s2 -> same_but_reports s' s2.
Proof.
  unfold lose. intros E (E1 & E2 & E3 & E4 & E5 & Ft). destruct (nth_error _ i) as [[key j [] []]|] eqn:Et; try discriminate E. injection E as <-. repeat split; cbn; try assumption.
  assert (B := Forall2_both _ _ _ i Ft). rewrite Et in B. destruct (nth_error (ws_tasks (sy_w s2)) i) as [t2|] eqn:Et2; [|destruct B]. destruct B as (B1 & B2 & B3). cbn in *.
  rewrite <- (list_set_same i t2 (ws_tasks (sy_w s2)) Et2). apply Forall2_upd; [exact Ft|]. repeat split; cbn; assumption.
Qed.

Section V.
Context {T iop iobs : Type}.
Variable R : ectx -> rside T iop iobs.
Variable glob : glob_oracle.
Notation fstep := (fstep R glob).
Notation gstep := (gstep R glob).
Definition one_of (gone : list nat) (op : gop (iop := iop)) : list (fop (iop := iop)) :=
  match op with GDo op => match op with FRunOp k (YFlow (WSend _)) => if memb k gone then [] else [op] | _ => [op] end | GGiveUp _ => [] end.
Definition goner (gone : list nat) (op : gop (iop := iop)) : list nat := match op with GGiveUp k => k :: gone | _ => gone end.
Lemma unaware_cons gone op ops : unaware gone (op :: ops) = one_of gone op ++ unaware (goner gone op) ops.
Proof. destruct op; reflexivity. Qed.
Lemma unaware_app a : forall gone b, unaware gone (a ++ b) = unaware gone a ++ unaware (fold_left goner a gone) b.
Proof. induction a as [|op a IH]; intros gone b; [reflexivity|]. rewrite <- app_comm_cons, !unaware_cons, IH, <- app_assoc. reflexivity. Qed.
Lemma goner_in a : forall gone k, In k (fold_left goner a gone) <-> In k gone \/ given_up a k.
Proof.
  unfold given_up. induction a as [|op a IH]; intros gone k; cbn [fold_left]; [cbn; tauto|]. rewrite IH. destruct op as [op|k0]; cbn [goner In].
  - split; [intros [H|H]; auto|intros [H|[H|H]]; auto; discriminate H].
  - split; [intros [[->|H]|H]; auto|intros [H|[H|H]]; auto]. injection H as ->. auto.
Qed.
Lemma gone_step g op g' o : gstep g op = Some (g', o) -> gf_gone g' = goner (gf_gone g) op.
Proof.
  assert (P : forall fo, plainly R glob g fo = Some (g', o) -> gf_gone g' = gf_gone g) by (intros fo P; unfold plainly in P; destruct (fstep _ _) as [[f' o']|]; [|discriminate]; injection P as <- _; reflexivity).
  intros E. destruct op as [op|k]; cbn [Drop_model.gstep] in E.
  - cbn [goner]. destruct op as [cx0|c wf0|k op|d|c j|c]; try (eapply P, E). destruct (memb k (gf_gone g)); [|eapply P, E].
    destruct op as [[|gh|i jo|i|e]|i io|q io]; try discriminate E; try (eapply P, E). destruct (nth_error _ k) as [r|]; [|discriminate]. destruct (lose i (fr_sys r)); [|discriminate]. injection E as <- _. reflexivity.
  - destruct (nth_error _ k) as [r|]; [|discriminate]. destruct (ws_main _); try discriminate E; destruct (memb _ _); try discriminate E; injection E as <- _; reflexivity.
Qed.

Notation alike := (fun r r' : @frun T => fr_ctx r' = fr_ctx r /\ fr_wf r' = fr_wf r /\ same_but_reports (fr_sys r) (fr_sys r')).
(** One action of run [k] in both. *)
Lemma sim_run f g k op g' o : stands_for f g -> (In k (gf_gone g) -> job_side op = true) -> plainly R glob g (FRunOp k op) = Some (g', o) -> exists f', fstep f (FRunOp k op) = Some (f', o) /\ stands_for f' g'.
Proof.
  intros (E1 & E2 & E3 & Fr & Eq) Hj P. unfold plainly in P. cbn [Fleet_model.fstep] in *. assert (B := Forall2_both _ _ _ k Fr). destruct (nth_error (fl_runs (gf_all g)) k) as [r|] eqn:Er; [|discriminate].
  destruct (nth_error (fl_runs f) k) as [r2|] eqn:Er2; [|destruct B]. destruct B as (B1 & B2 & B3). rewrite E1, E2, E3, B1, B2.
  destruct (nth_error (fl_ctx (gf_all g)) (fr_ctx r)) as [[cx ca]|]; [|discriminate]. destruct (is_env op); [discriminate|].
  destruct (sysstep _ _ _ _ (settle _ _ _ (fr_sys r)) op) as [[s' o']|] eqn:Es; [|discriminate]. injection P as <- <-.
  assert (Q : exists s2', sysstep (R cx) glob cx (fr_wf r) (settle (fl_now (gf_all g)) (fl_sm (gf_all g)) ca (fr_sys r2)) op = Some (s2', o') /\ same_but_reports s' s2' /\ (~ In k (gf_gone g) -> s2' = s')).
  { destruct (in_dec Nat.eq_dec k (gf_gone g)) as [Hi|Hi].
    - destruct (sys_same (R cx) glob cx (fr_wf r) _ _ _ _ _ (same_settle (fl_now (gf_all g)) (fl_sm (gf_all g)) ca _ _ B3) (Hj Hi) Es) as (s2' & Es2 & Sm). exists s2'. split; [exact Es2|]. split; [exact Sm|]. intros C; destruct (C Hi).
    - assert (r2 = r) as -> by (specialize (Eq k Hi); congruence). exists s'. split; [exact Es|]. split; [apply same_refl|auto]. }
  destruct Q as (s2' & Es2 & Sm & Se). rewrite Es2. assert (Sh : ws_sh (sy_w s2') = ws_sh (sy_w s')) by apply Sm. rewrite Sh. eexists. split; [reflexivity|].
  split; [reflexivity|]. split; [reflexivity|]. split; [cbn [fl_ctx gf_all]; rewrite ?E3; reflexivity|]. split.
  - cbn [fl_runs gf_all]. apply Forall2_upd; [exact Fr|]. cbn. auto.
  - cbn [fl_runs gf_all gf_gone]. intros q Hq. destruct (Nat.eq_dec q k) as [->|Hne].
    + rewrite (list_set_eq k _ _ _ Er), (list_set_eq k _ _ _ Er2), (Se Hq). reflexivity.
    + rewrite !list_set_ne by auto. apply Eq, Hq.
Qed.
Lemma stands_swap (f : @fleet T) g : stands_for f g -> stands_for (gf_all g) (GFleet f (gf_gone g)).
Proof.
  intros (E1 & E2 & E3 & Fr & Eq). unfold stands_for. cbn [gf_all gf_gone]. do 3 (split; [symmetry; assumption|]). split; [|intros k Hk; symmetry; exact (Eq k Hk)].
  clear -Fr. induction Fr as [|r r' l l' (H1 & H2 & H3) _ IH]; constructor; [|exact IH]. split; [congruence|]. split; [congruence|]. apply same_sym, H3.
Qed.
Lemma sim_other f g fo g' o : stands_for f g -> (forall k op, fo <> FRunOp k op) -> plainly R glob g fo = Some (g', o) -> exists f', fstep f fo = Some (f', o) /\ stands_for f' g'.
Proof.
  intros (E1 & E2 & E3 & Fr & Eq) Ne P. unfold plainly in P. destruct fo as [cx0|c wf0|k op|d|c j|c]; cbn [Fleet_model.fstep] in *; [|destruct (nth_error (fl_ctx (gf_all g)) c) as [[cx0 ca0]|] eqn:Ec; [|discriminate]|destruct (Ne k op eq_refl)| | |].
  all: injection P as <- <-; rewrite ?E1, ?E2, ?E3, ?Ec; eexists; (split; [reflexivity|]); unfold stands_for; cbn [fl_now fl_sm fl_ctx fl_runs gf_all gf_gone]; repeat (split; [reflexivity|]); (split; [try exact Fr|try exact Eq]).
  - apply Forall2_app; [exact Fr|]. constructor; [|constructor]. cbn. split; [reflexivity|]. split; [reflexivity|]. apply same_refl.
  - intros k Hk. assert (L := Forall2_len _ _ _ Fr). destruct (Nat.lt_ge_cases k (length (fl_runs f))) as [Q|Q].
    + rewrite !nth_error_app1 by (rewrite <- ?L; exact Q). apply Eq, Hk.
    + rewrite !nth_error_app2 by (rewrite <- ?L; exact Q). rewrite L. reflexivity.
Qed.
Lemma sim_step f g op g' o : stands_for f g -> gstep g op = Some (g', o) ->
  (one_of (gf_gone g) op = [] /\ o = [] /\ stands_for f g') \/ exists fo f', one_of (gf_gone g) op = [fo] /\ op = GDo fo /\ fstep f fo = Some (f', o) /\ stands_for f' g'.
Proof.
  intros S E. destruct op as [op|k]; cbn [Drop_model.gstep one_of] in *.
  - destruct op as [cx0|c wf0|k op|d|c j|c]; try (right; assert (X := fun Ne => sim_other _ _ _ _ _ S Ne E); destruct X as (f' & Ef & S'); [discriminate|eauto 8]).
    destruct (memb k (gf_gone g)) eqn:Em.
    + destruct op as [[|gh|i jo|i|e]|i io|q io]; try discriminate E.
      * right. assert (X := fun Ne => sim_run _ _ _ _ _ _ S Ne E); destruct X as (f' & Ef & S'); [reflexivity|eauto 8].
      * left. split; [reflexivity|]. destruct (nth_error (fl_runs (gf_all g)) k) as [r|] eqn:Er; [|discriminate]. destruct (lose i (fr_sys r)) as [s'|] eqn:El; [|discriminate]. injection E as <- <-. split; [reflexivity|].
        destruct S as (E1 & E2 & E3 & Fr & Eq). unfold stands_for. cbn [fl_now fl_sm fl_ctx fl_runs gf_all gf_gone]. repeat (split; [assumption|]). split.
        -- assert (B := Forall2_both _ _ _ k Fr). rewrite Er in B. destruct (nth_error (fl_runs f) k) as [r2|] eqn:Er2; [|destruct B]. destruct B as (B1 & B2 & B3).
           rewrite <- (list_set_same k r2 (fl_runs f) Er2). apply Forall2_upd; [exact Fr|]. cbn. split; [exact B1|]. split; [exact B2|]. eapply lose_same; eassumption.
        -- intros q Hq. apply memb_true in Em. rewrite list_set_ne by (intros ->; exact (Hq Em)). apply Eq, Hq.
      * exfalso. unfold plainly in E. cbn [Fleet_model.fstep] in E. destruct (nth_error _ k) as [r|]; [|discriminate]. destruct (nth_error _ (fr_ctx r)) as [[]|]; discriminate.
      * right. assert (X := fun Ne => sim_run _ _ _ _ _ _ S Ne E); destruct X as (f' & Ef & S'); [reflexivity|eauto 8].
      * right. assert (X := fun Ne => sim_run _ _ _ _ _ _ S Ne E); destruct X as (f' & Ef & S'); [reflexivity|eauto 8].
    + apply memb_false in Em. right. assert (X := fun Ne => sim_run _ _ _ _ _ _ S Ne E); destruct X as (f' & Ef & S'); [intros C; destruct (Em C)|]. exists (FRunOp k op), f'. split; [destruct op as [[]| |]; reflexivity|]. auto.
  - left. split; [reflexivity|]. destruct (nth_error _ k) as [r|]; [|discriminate]. destruct S as (E1 & E2 & E3 & Fr & Eq).
    destruct (ws_main _); try discriminate E; destruct (memb _ _); try discriminate E; injection E as <- <-; (split; [reflexivity|]); unfold stands_for; cbn [gf_all gf_gone]; repeat (split; [assumption|]); intros q Hq; apply Eq; intros C; apply Hq; right; exact C.
Qed.
(** Conversely, whatever can be done in [f], except for the runs given up, can be done in [g]. *)
Lemma sim_back f g fo f' o : stands_for f g -> fstep f fo = Some (f', o) -> (forall k op, fo = FRunOp k op -> In k (gf_gone g) -> job_side op = true) -> exists g', gstep g (GDo fo) = Some (g', o) /\ stands_for f' g'.
Proof.
  intros S E Hj. assert (S2 := stands_swap _ _ S). assert (P : plainly R glob (GFleet f (gf_gone g)) fo = Some (GFleet f' (gf_gone g), o)) by (unfold plainly; cbn [gf_all gf_gone]; rewrite E; reflexivity).
  assert (Q : exists g1, fstep (gf_all g) fo = Some (g1, o) /\ stands_for g1 (GFleet f' (gf_gone g))).
  { destruct fo as [cx0|c wf0|k op|d|c j|c]; try (eapply sim_other; [exact S2|discriminate|exact P]). eapply sim_run; [exact S2| |exact P]. cbn [gf_gone]. intros Hk. exact (Hj k op eq_refl Hk). }
  destruct Q as (g1 & Eg & S3). exists (GFleet g1 (gf_gone g)). split; [|exact (stands_swap _ _ S3)].
  assert (Pg : plainly R glob g fo = Some (GFleet g1 (gf_gone g), o)) by (unfold plainly; rewrite Eg; reflexivity).
  cbn [Drop_model.gstep]. destruct fo as [cx0|c wf0|k op|d|c j|c]; try exact Pg. destruct (memb k (gf_gone g)) eqn:Em; [|exact Pg]. apply memb_true in Em. specialize (Hj k op eq_refl Em). destruct op as [[]| |]; try discriminate Hj; exact Pg.
Qed.
Lemma simulated now ops g tr : gfleet_run R glob now ops g tr -> gf_gone g = fold_left goner ops [] /\ exists f, fleet_run R glob now (unaware [] ops) f tr /\ stands_for f g.
Proof.
  induction 1 as [|ops g tr op g' o Hr [Hg (f & Hf & S)] E].
  - split; [reflexivity|]. exists (finit now). split; [constructor|]. repeat split. constructor.
  - split; [rewrite fold_left_app, <- Hg; apply gone_step in E; exact E|]. rewrite unaware_app, <- Hg. destruct (sim_step _ _ _ _ _ S E) as [(E1 & -> & S')|(fo & f' & E1 & _ & Ef & S')].
    + exists f. rewrite unaware_cons, E1. cbn [app unaware]. rewrite !app_nil_r. auto.
    + exists f'. rewrite unaware_cons, E1. cbn [app unaware]. split; [|exact S']. eapply fleet_step; eassumption.
Qed.
End V.

Section W.
Context {T iop iobs : Type}.
Variable R : ectx -> rside T iop iobs.
Variable glob : glob_oracle.
Notation fstep := (fstep R glob).
Notation gstep := (gstep R glob).
Notation gexec := (gexec R glob).
Notation fexec := (fexec R glob).

Lemma stands_run f g k cx wf s : stands_for (T := T) f g -> ~ In k (gf_gone g) -> run_at f k cx wf s <-> run_at (gf_all g) k cx wf s.
Proof. intros (E1 & E2 & E3 & _ & Eq) Hk. unfold run_at. rewrite E1, E2, E3, (Eq k Hk). reflexivity. Qed.
Lemma stands_to f g k cx wf s : stands_for (T := T) f g -> run_at f k cx wf s -> exists s', run_at (gf_all g) k cx wf s' /\ same_but_reports s' s.
Proof.
  intros (E1 & E2 & E3 & Fr & _) (r & ca & Hk & Hc & Hw & ->). assert (B := Forall2_both _ _ _ k Fr). rewrite Hk in B. destruct (nth_error (fl_runs (gf_all g)) k) as [r0|] eqn:E0; [|destruct B]. destruct B as (B1 & B2 & B3).
  rewrite E1, E2. exists (settle (fl_now (gf_all g)) (fl_sm (gf_all g)) ca (fr_sys r0)). split; [|apply same_settle, B3]. exists r0, ca. rewrite E0, <- E3, <- B1, <- B2. auto.
Qed.
Lemma stands_from f g k cx wf s : stands_for (T := T) f g -> run_at (gf_all g) k cx wf s -> exists s', run_at f k cx wf s' /\ same_but_reports s s'.
Proof.
  intros (E1 & E2 & E3 & Fr & _) (r & ca & Hk & Hc & Hw & ->). assert (B := Forall2_both _ _ _ k Fr). rewrite Hk in B. destruct (nth_error (fl_runs f) k) as [r0|] eqn:E0; [|destruct B]. destruct B as (B1 & B2 & B3).
  exists (settle (fl_now (gf_all g)) (fl_sm (gf_all g)) ca (fr_sys r0)). split; [|apply same_settle, B3]. exists r0, ca. rewrite E1, E2, E3, B1, B2. auto.
Qed.
Lemma stands_wf f g k : stands_for (T := T) f g -> option_map (fun r => fr_wf r) (nth_error (fl_runs f) k) = option_map (fun r => fr_wf r) (nth_error (fl_runs (gf_all g)) k).
Proof.
  intros (_ & _ & _ & Fr & _). assert (B := Forall2_both _ _ _ k Fr). destruct (nth_error (fl_runs (gf_all g)) k), (nth_error (fl_runs f) k); try destruct B as (_ & B & _); cbn; congruence || destruct B.
Qed.
Lemma stands_named f g : stands_for (T := T) f g -> named (gf_all g) -> named f.
Proof.
  intros S Hn k r Hk. assert (E := stands_wf f g k S). rewrite Hk in E. cbn in E. destruct (nth_error (fl_runs (gf_all g)) k) as [r0|] eqn:E0; [|discriminate]. cbn in E. injection E as ->. exact (Hn k r0 E0).
Qed.
Lemma stands_alone f g ops k : stands_for (T := T) f g -> alone (iop := iop) ops f k <-> alone ops (gf_all g) k.
Proof.
  intros S. unfold alone. split; intros Ha k' r r' id op Hne Hk Hk' J J' Hin.
  - assert (E := stands_wf f g k S). rewrite Hk in E. assert (E' := stands_wf f g k' S). rewrite Hk' in E'. destruct (nth_error (fl_runs f) k) as [r0|] eqn:E0; [|discriminate]. destruct (nth_error (fl_runs f) k') as [r1|] eqn:E1; [|discriminate].
    cbn in E, E'. injection E as E. injection E' as E'. rewrite <- E in J. rewrite <- E' in J'. eauto.
  - assert (E := stands_wf f g k S). rewrite Hk in E. assert (E' := stands_wf f g k' S). rewrite Hk' in E'. destruct (nth_error (fl_runs (gf_all g)) k) as [r0|] eqn:E0; [|discriminate]. destruct (nth_error (fl_runs (gf_all g)) k') as [r1|] eqn:E1; [|discriminate].
    cbn in E, E'. injection E as E. injection E' as E'. rewrite E in J. rewrite E' in J'. eauto.
Qed.
Lemma sim_exec more : forall f g g' o, stands_for f g -> gexec g more = Some (g', o) -> exists f', fexec f (unaware (gf_gone g) more) = Some (f', o) /\ stands_for f' g'.
Proof.
  induction more as [|op more IH]; intros f g g' o S E; cbn [Drop_model.gexec] in E; [injection E as <- <-; exists f; auto|].
  destruct (gstep g op) as [[g1 o1]|] eqn:E1; [|discriminate]. destruct (gexec g1 more) as [[g2 o2]|] eqn:E2; [|discriminate]. injection E as <- <-.
  rewrite unaware_cons, <- (gone_step R glob _ _ _ _ E1). destruct (sim_step R glob _ _ _ _ _ S E1) as [(Q1 & -> & S')|(fo & f' & Q1 & _ & Ef & S')]; rewrite Q1; destruct (IH _ _ _ _ S' E2) as (f2 & E3 & S2); exists f2; (split; [|exact S2]); cbn [app Fleet_model.fexec].
  - exact E3.
  - rewrite Ef, E3. reflexivity.
Qed.
Lemma gexec_run now ops g tr more g' o : gfleet_run R glob now ops g tr -> gexec g more = Some (g', o) -> gfleet_run R glob now (ops ++ more) g' (tr ++ o).
Proof.
  revert ops g tr o. induction more as [|op more IH]; intros ops g tr o Hr E; cbn [Drop_model.gexec] in E; [injection E as <- <-; rewrite !app_nil_r; exact Hr|].
  destruct (gstep g op) as [[g1 o1]|] eqn:E1; [|discriminate]. destruct (gexec g1 more) as [[g2 o2]|] eqn:E2; [|discriminate]. injection E as <- <-.
  rewrite app_assoc. change (op :: more) with ([op] ++ more). rewrite app_assoc. eapply IH; [|exact E2]. eapply gfleet_step; eassumption.
Qed.
(** Thinning a history. *)
Inductive thin : list (fop (iop := iop)) -> list (fop (iop := iop)) -> Prop :=
| thin_nil : thin [] []
| thin_keep op l l' : thin l l' -> thin (op :: l) (op :: l')
| thin_drop k op l l' : thin l l' -> thin l (FRunOp k op :: l').
Lemma thin_app a a' : thin a a' -> forall b b', thin b b' -> thin (a ++ b) (a' ++ b').
Proof. induction 1; intros b b' Hb; cbn; try constructor; auto. Qed.
Lemma thin_since l l' : thin l l' -> forall k, thin (since k l) (since k l').
Proof. induction 1 as [|op l l' H IH|q op l l' H IH]; intros k; [constructor| |apply IH]. destruct op; cbn [since]; try apply IH. destruct k; [exact H|apply IH]. Qed.
Lemma thin_in l l' : thin l l' -> forall k op, In op (run_ops k l) -> In op (run_ops k l').
Proof.
  induction 1 as [|op l l' H IH|q op l l' H IH]; intros k o Hin; [exact Hin| |].
  - change (op :: l) with ([op] ++ l) in Hin. change (op :: l') with ([op] ++ l'). rewrite run_ops_app in *. apply in_app_iff in Hin. apply in_app_iff. destruct Hin; auto.
  - change (FRunOp q op :: l') with ([FRunOp q op] ++ l'). rewrite run_ops_app. apply in_app_iff. auto.
Qed.
Lemma thin_starts l l' : thin l l' -> starts l = starts l'.
Proof. induction 1 as [|op l l' H IH|q op l l' H IH]; [reflexivity| |exact IH]. destruct op; cbn [starts]; congruence. Qed.
Lemma thin_alone l l' (f : @fleet T) k : thin l l' -> alone l' f k -> alone l f k.
Proof. intros H Ha k' r r' id op Hne Hk Hk' J J' Hin. eapply Ha; try eassumption. eapply thin_in; [|exact Hin]. apply thin_since, H. Qed.

(** The same execution without giving up. *)
Variable now : time.
Variable stg : nat -> @gfleet T.
Variable actg : nat -> option (gop (iop := iop)).
Hypothesis Ex : gfleet_execution R glob stg actg now.
Definition act_ (n : nat) : option (fop (iop := iop)) := match actg n with Some op => match one_of (gf_gone (stg n)) op with [fo] => Some fo | _ => None end | None => None end.
Fixpoint stf_ (n : nat) : @fleet T := match n with 0 => finit now | S m => match act_ m with Some fo => match fstep (stf_ m) fo with Some (f, _) => f | None => stf_ m end | None => stf_ m end end.
Lemma both n : stands_for (stf_ n) (stg n) /\ match act_ n with Some op => exists o, fstep (stf_ n) op = Some (stf_ (S n), o) | None => stf_ (S n) = stf_ n end.
Proof.
  assert (St : forall n, stands_for (stf_ n) (stg n) -> stands_for (stf_ (S n)) (stg (S n)) /\ match act_ n with Some op => exists o, fstep (stf_ n) op = Some (stf_ (S n), o) | None => stf_ (S n) = stf_ n end).
  { clear n. intros n S. cbn [stf_]. unfold act_. assert (E := proj2 Ex n). destruct (actg n) as [op|]; [|rewrite E; auto]. destruct E as [o E]. destruct (sim_step R glob _ _ _ _ _ S E) as [(-> & _ & S')|(fo & f' & -> & _ & Ef & S')]; [auto|]. rewrite Ef. eauto. }
  assert (All : forall n, stands_for (stf_ n) (stg n)). { clear n. induction n as [|n IH]; [|apply St, IH]. rewrite (proj1 Ex). repeat split. constructor. }
  split; [apply All|]. apply St, All.
Qed.
Lemma without : fleet_execution R glob stf_ act_ now.
Proof. split; [reflexivity|]. intros n. apply both. Qed.
Lemma act_done n fo : act_ n = Some fo -> done_by actg n = Some fo.
Proof. unfold act_, done_by. destruct (actg n) as [[op|k]|]; try discriminate. cbn [one_of]. destruct op as [| |k [[]| |]| | |]; try (intros [= <-]; reflexivity). destruct (memb _ _); [discriminate|]. intros [= <-]; reflexivity. Qed.
Lemma done_act n fo : done_by actg n = Some fo -> act_ n = Some fo \/ exists k i, fo = FRunOp k (YFlow (WSend i)) /\ In k (gf_gone (stg n)) /\ act_ n = None.
Proof.
  unfold act_, done_by. destruct (actg n) as [[op|k]|]; try discriminate. intros [= ->]. cbn [one_of]. destruct fo as [| |k [[]| |]| | |]; auto. destruct (memb _ _) eqn:E; [|auto]. right. apply memb_true in E. eauto 6.
Qed.
Lemma thin_history n : thin (history act_ n) (history (done_by actg) n).
Proof.
  induction n as [|n IH]; [constructor|]. cbn [history]. apply thin_app; [exact IH|]. destruct (act_ n) as [fo|] eqn:E; [rewrite (act_done _ _ E); constructor; constructor|].
  destruct (done_by actg n) as [fo|] eqn:E'; [|constructor]. destruct (done_act _ _ E') as [C|(k & i & -> & _)]; [congruence|]. constructor. constructor.
Qed.
Lemma not_gone k n : (forall n, actg n <> Some (GGiveUp k)) -> ~ In k (gf_gone (stg n)).
Proof.
  intros H. induction n as [|n IH]; [rewrite (proj1 Ex); intros []|]. assert (E := proj2 Ex n). specialize (H n). destruct (actg n) as [op|]; [|rewrite E; exact IH]. destruct E as [o E]. rewrite (gone_step R glob _ _ _ _ E).
  destruct op as [op|q]; [exact IH|]. cbn. intros [->|C]; [exact (H eq_refl)|exact (IH C)].
Qed.

(** For a run that is never given up nothing is different. *)
Section One.
Variable ikind : T -> iop -> step_phase -> T -> kind.
Variable k : nat.
Hypothesis Ng : forall n, actg n <> Some (GGiveUp k).
Lemma run_same n cx wf s : run_at (stf_ n) k cx wf s <-> run_at (all_of stg n) k cx wf s.
Proof. apply stands_run; [apply both|apply not_gone, Ng]. Qed.
Lemma acts_same n cx wf op d : acts ikind stf_ act_ k cx wf n op d <-> acts ikind (all_of stg) (done_by actg) k cx wf n op d.
Proof.
  split; intros (s & s' & Ha & H1 & H2 & H3); exists s, s'; rewrite <- ?run_same, ?run_same in *; repeat split; auto.
  - apply act_done, Ha.
  - destruct (done_act _ _ Ha) as [C|(q & i & Eq & Hq & _)]; [exact C|]. injection Eq as <- _. destruct (not_gone _ n Ng Hq).
Qed.
Lemma kept_same allowed cx wf : kept_going R glob ikind (all_of stg) (done_by actg) allowed k cx wf -> kept_going R glob ikind stf_ act_ allowed k cx wf.
Proof. intros H n s Hat Hc. apply run_same in Hat. destruct (H n s Hat Hc) as (m & op & Hm & Ha). exists m, op. split; [exact Hm|]. apply acts_same, Ha. Qed.
Lemma silent_same cx wf : falls_silent ikind (all_of stg) (done_by actg) k cx wf -> falls_silent ikind stf_ act_ k cx wf.
Proof. intros [n H]. exists n. intros m op Hm Ha. apply acts_same in Ha. exact (H m op Hm Ha). Qed.
Lemma comes_same cx wf r : comes_to stf_ k cx wf r -> comes_to (all_of stg) k cx wf r.
Proof. intros [n H]. exists n. intros m Hm. destruct (H m Hm) as (s & Hat & Hd). exists s. split; [apply run_same, Hat|exact Hd]. Qed.
End One.
Lemma history_alone k : (forall n, alone (history (done_by actg) n) (all_of stg n) k) -> forall n, alone (history act_ n) (stf_ n) k.
Proof. intros H n. apply (stands_alone _ (stg n)); [apply both|]. eapply thin_alone; [apply thin_history|apply H]. Qed.
Lemma history_named : (forall n, named (all_of stg n)) -> forall n, named (stf_ n).
Proof. intros H n. eapply stands_named; [apply both|apply H]. Qed.

(** For a job of any run nothing is different until it has to report its result. *)
Section Job.
Variable ikind : T -> iop -> step_phase -> T -> kind.
Variables (k : nat) (cx : ectx) (wf : workflow) (i : nat).
Lemma kind_same (s s2 s' s2' : @system T) op : same_but_reports s s2 -> same_but_reports s' s2' -> by_job i op = true -> kind_of ikind s2 op s2' = kind_of ikind s op s'.
Proof.
  intros (_ & _ & _ & E4 & _) (_ & _ & _ & E4' & _ & Ft) Hb. destruct op as [wo|i0 io|q io]; cbn [by_job] in Hb; [reflexivity| |discriminate]. cbn [kind_of]. rewrite E4, E4'.
  assert (B := Forall2_both _ _ _ i0 Ft). destruct (nth_error (ws_tasks (sy_w s')) i0) as [t|], (nth_error (ws_tasks (sy_w s2')) i0) as [t2|]; [destruct B as (_ & _ & B); rewrite B|destruct B|destruct B|]; reflexivity.
Qed.
Lemma job_job_side op : by_job (iop := iop) i op = true -> job_side op = true.
Proof. destruct op as [[]| |]; cbn; congruence. Qed.
Lemma exec_same look : forall (s s2 : @system T) s' o, same_but_reports s s2 -> Forall (fun op => by_job i op = true) look -> sysexec (R cx) glob cx wf s look = Some (s', o) ->
  exists s2', sysexec (R cx) glob cx wf s2 look = Some (s2', o) /\ same_but_reports s' s2' /\ kinds (R cx) glob cx wf ikind s2 look = kinds (R cx) glob cx wf ikind s look.
Proof.
  induction look as [|op look IH]; intros s s2 s' o Sm Hl E; cbn [sysexec kinds] in *; [injection E as <- <-; eauto|]. inversion_clear Hl as [|? ? Hb Hl'].
  destruct (sysstep _ _ _ _ s op) as [[s1 o1]|] eqn:E1; [|discriminate]. destruct (sysexec _ _ _ _ s1 look) as [[s3 o3]|] eqn:E3; [|discriminate]. injection E as <- <-.
  destruct (sys_same (R cx) glob cx wf _ _ _ _ _ Sm (job_job_side _ Hb) E1) as (s4 & E4 & S4). destruct (IH _ _ _ _ S4 Hl' E3) as (s5 & E5 & S5 & Ek). rewrite E4, E5, Ek, (kind_same _ _ _ _ _ Sm S4 Hb). eauto.
Qed.
Lemma can_same allowed (s s2 : @system T) : same_but_reports s s2 -> can_move (R cx) glob cx wf ikind (fun op => allowed op /\ by_job i op = true) s -> can_move (R cx) glob cx wf ikind (fun op => allowed op /\ by_job i op = true) s2.
Proof.
  intros Sm (look & op & s1 & o1 & s3 & o3 & Ha & X & Hi & Y & Hk). apply Forall_app in Ha as [Ha Hb]. assert (Hl : Forall (fun op => by_job i op = true) look) by (eapply Forall_impl; [|exact Ha]; intros ? [_ ?]; assumption). inversion_clear Hb as [|? ? Hb0 _].
  destruct (exec_same _ _ _ _ _ Sm Hl X) as (s4 & X4 & S4 & Ek). destruct (sys_same (R cx) glob cx wf _ _ _ _ _ S4 (job_job_side _ (proj2 Hb0)) Y) as (s5 & Y5 & S5).
  exists look, op, s4, o1, s5, o3. split; [apply Forall_app; auto|]. split; [exact X4|]. rewrite Ek. split; [exact Hi|]. split; [exact Y5|]. rewrite (kind_same _ _ _ _ _ S4 S5 (proj2 Hb0)). exact Hk.
Qed.
Lemma job_acts_same n op d : by_job i op = true -> acts ikind stf_ act_ k cx wf n op d <-> acts ikind (all_of stg) (done_by actg) k cx wf n op d.
Proof.
  intros Hb. split; intros (s & s' & Ha & H1 & H2 & H3).
  - destruct (stands_to _ _ _ _ _ _ (proj1 (both n)) H1) as (s1 & K1 & S1). destruct (stands_to _ _ _ _ _ _ (proj1 (both (S n))) H2) as (s2 & K2 & S2). exists s1, s2. split; [apply act_done, Ha|]. split; [exact K1|]. split; [exact K2|].
    rewrite <- (kind_same _ _ _ _ _ S1 S2 Hb). exact H3.
  - destruct (stands_from _ _ _ _ _ _ (proj1 (both n)) H1) as (s1 & K1 & S1). destruct (stands_from _ _ _ _ _ _ (proj1 (both (S n))) H2) as (s2 & K2 & S2). exists s1, s2. split; [|split; [exact K1|split; [exact K2|rewrite (kind_same _ _ _ _ _ S1 S2 Hb); exact H3]]].
    destruct (done_act _ _ Ha) as [C|(q & j & Eq & _)]; [exact C|]. injection Eq as _ ->. discriminate Hb.
Qed.
Lemma job_kept_same allowed : job_kept_going R glob ikind (all_of stg) (done_by actg) allowed k cx wf i -> job_kept_going R glob ikind stf_ act_ allowed k cx wf i.
Proof.
  intros H n s Hat Hc. destruct (stands_to _ _ _ _ _ _ (proj1 (both n)) Hat) as (s1 & K1 & S1). apply same_sym in S1. destruct (H n s1 K1 (can_same _ _ _ S1 Hc)) as (m & op & Hm & Hb & Ha).
  exists m, op. split; [exact Hm|]. split; [exact Hb|]. apply job_acts_same; assumption.
Qed.
Lemma job_silent_same : job_falls_silent ikind (all_of stg) (done_by actg) k cx wf i -> job_falls_silent ikind stf_ act_ k cx wf i.
Proof. intros [n H]. exists n. intros m op Hm Hb Ha. apply job_acts_same in Ha; [|exact Hb]. exact (H m op Hm Hb Ha). Qed.
End Job.
Lemma task_to n k cx wf i t : task_at stf_ n k cx wf i t -> exists t', task_at (all_of stg) n k cx wf i t' /\ same_work t t'.
Proof.
  intros (s & Hat & Ht). destruct (stands_to _ _ _ _ _ _ (proj1 (both n)) Hat) as (s1 & K1 & S1). destruct S1 as (_ & _ & _ & _ & _ & Ft). assert (B := Forall2_both _ _ _ i Ft). rewrite Ht in B. destruct (nth_error (ws_tasks (sy_w s1)) i) as [t1|] eqn:E1; [|destruct B].
  exists t1. split; [exists s1; auto|]. destruct B as (B1 & B2 & B3). repeat split; congruence.
Qed.
Lemma task_from n k cx wf i t : task_at (all_of stg) n k cx wf i t -> exists t', task_at stf_ n k cx wf i t' /\ same_work t t'.
Proof.
  intros (s & Hat & Ht). destruct (stands_from _ _ _ _ _ _ (proj1 (both n)) Hat) as (s1 & K1 & S1). destruct S1 as (_ & _ & _ & _ & _ & Ft). assert (B := Forall2_both _ _ _ i Ft). rewrite Ht in B. destruct (nth_error (ws_tasks (sy_w s1)) i) as [t1|] eqn:E1; [|destruct B].
  exists t1. split; [exists s1; auto|exact B].
Qed.
Lemma ends_same k cx wf i : job_ends_at_last stf_ k cx wf i -> job_ends_at_last (all_of stg) k cx wf i.
Proof.
  intros [(n & r & H)|(n & H)].
  - left. exists n, r. intros m Hm. destruct (H m Hm) as (t & Ht & Hp). destruct (task_to _ _ _ _ _ _ Ht) as (t' & Ht' & _ & _ & E). exists t'. split; [exact Ht'|congruence].
  - right. exists n. intros m Hm. destruct (H m Hm) as (t & i' & t' & Ht & Hc & Hne & Ht' & Ek & Hs). destruct (task_to _ _ _ _ _ _ Ht) as (u & Hu & U1 & _ & U3). destruct (task_to _ _ _ _ _ _ Ht') as (u' & Hu' & V1 & _ & V3).
    exists u, i', u'. split; [exact Hu|]. split; [unfold crashed in *; rewrite U3; exact Hc|]. split; [exact Hne|]. split; [exact Hu'|]. split; [congruence|]. rewrite V3. exact Hs.
Qed.
End W.

(** ** What a run does after it has been given up *)
Section X.
Context {T iop iobs : Type}.
Variable R : ectx -> rside T iop iobs.
Variable glob : glob_oracle.
Notation fstep := (fstep R glob).
Notation gstep := (gstep R glob).
Notation gexec := (gexec R glob).
Lemma list_set_map {A B} (h : A -> B) i x y (l : list A) : nth_error l i = Some x -> h y = h x -> map h (list_set i y l) = map h l.
Proof. revert i. induction l as [|a l IH]; intros [|i] E Eh; try discriminate; cbn in *; [injection E as ->; congruence|]. f_equal. eauto. Qed.
Lemma side_step cx wf s op s' o : sysstep (R cx) glob cx wf s op = Some (s', o) -> job_side op = true ->
  ws_main (sy_w s') = ws_main (sy_w s) /\ ws_chan (sy_w s') = ws_chan (sy_w s) /\ map tk_key (ws_tasks (sy_w s')) = map tk_key (ws_tasks (sy_w s)) /\ (forall e, In e o -> exists i, fst e = Some i) /\
  ((forall t, In t (ws_tasks (sy_w s)) -> exists x, tk_phase t = JpReturned x) -> (forall t, In t (ws_tasks (sy_w s')) -> exists x, tk_phase t = JpReturned x) /\ job_action op = false).
Proof.
  intros E Hj. destruct op as [[|g|i jo|i|e]|i io|k io]; cbn [job_side] in Hj; try discriminate Hj; cbn [sysstep] in *.
  - destruct (is_step_op _); [discriminate|]. cbn [wstep] in *. destruct (nth_error (ws_tasks (sy_w s)) i) as [t|] eqn:Et; [|discriminate].
    destruct (job_step _ _ _ _ _ _ _) as [[[sh' p'] jt]|] eqn:Ej; [|discriminate].
    assert (Ev : forall e, In e (map (fun x => (fst x, inl (B := iobs) (snd x))) (map (fun x => (Some i, x)) jt)) -> exists i, fst e = Some i) by (intros e He; apply in_map_iff in He as (y & <- & He); apply in_map_iff in He as (z & <- & _); cbn; eauto).
    assert (K : sy_w s' = WState sh' (ws_main (sy_w s)) (list_set i (WTask (tk_key t) (tk_job t) p' (tk_sent t)) (ws_tasks (sy_w s))) (ws_chan (sy_w s)) /\ o = map (fun x => (fst x, inl (snd x))) (map (fun x => (Some i, x)) jt)).
    { destruct (step_over (sy_w s) (WTaskOp i jo)) as [[i' p]|]; injection E as <- <-; auto. }
    destruct K as [-> ->]. cbn [ws_main ws_chan ws_tasks]. split; [reflexivity|]. split; [reflexivity|]. split; [eapply list_set_map; [exact Et|reflexivity]|]. split; [exact Ev|].
    intros Hr. destruct (Hr t (nth_error_In _ _ Et)) as [x Hx]. rewrite Hx in Ej. destruct jo; discriminate Ej.
  - destruct (nth_error (ws_tasks (sy_w s)) i) as [t|] eqn:Et; [|discriminate]. destruct (nth_error (sy_cur s) i) as [x|]; [|discriminate].
    destruct (tk_phase t) as [| | | | | | | | | |t0 js rs sp rest| | | |] eqn:Ep; try discriminate E. destruct (rs_step _ _ _ _ _ _) as [[[[sh' sp'] x'] out]|]; [|discriminate E]. injection E as <- <-. cbn [sy_w ws_main ws_chan ws_tasks].
    split; [reflexivity|]. split; [reflexivity|]. split; [eapply list_set_map; [exact Et|reflexivity]|]. split; [intros e He; apply in_map_iff in He as (y & <- & _); exists i; reflexivity|].
    intros Hr. destruct (Hr t (nth_error_In _ _ Et)) as [y Hy]. congruence.
  - destruct (nth_error (sy_past s) k) as [[i [[sh p] x]]|]; [|discriminate]. destruct (rs_step _ _ _ _ _ _) as [[[[sh' sp'] x'] out]|]; [|discriminate E]. injection E as <- <-. cbn [sy_w].
    split; [reflexivity|]. split; [reflexivity|]. split; [reflexivity|]. split; [intros e He; apply in_map_iff in He as (y & <- & _); exists i; reflexivity|]. intros Hr. split; [exact Hr|reflexivity].
Qed.
Notation returned s := (forall t, In t (ws_tasks (sy_w s)) -> exists x, tk_phase t = JpReturned x).
(** One action, seen from a run that has been given up. *)
Lemma gone_keeps g op g' o k r : gstep g op = Some (g', o) -> In k (gf_gone g) -> nth_error (fl_runs (gf_all g)) k = Some r ->
  exists r', nth_error (fl_runs (gf_all g')) k = Some r' /\ fr_wf r' = fr_wf r /\ ws_main (sy_w (fr_sys r')) = ws_main (sy_w (fr_sys r)) /\ ws_chan (sy_w (fr_sys r')) = ws_chan (sy_w (fr_sys r)) /\
    map tk_key (ws_tasks (sy_w (fr_sys r'))) = map tk_key (ws_tasks (sy_w (fr_sys r))) /\ (forall e, In e (run_events k o) -> exists i, fst e = Some i) /\
    (returned (fr_sys r) -> returned (fr_sys r') /\ forall x, In x (run_ops k (one_of (gf_gone g) op)) -> job_action x = false).
Proof.
  assert (Evs : forall q (l : list (sysobs (iobs := iobs))) e, In e (run_events k (map (fun x => (q, x)) l)) -> q = k /\ In e l).
  { intros q l e He. unfold run_events in He. apply in_map_iff in He as ([a b] & <- & He). apply filter_In in He as [He Hq]. apply in_map_iff in He as (x & [= <- <-] & Hx). cbn in *. apply Nat.eqb_eq in Hq. auto. }
  intros E Hg Hk. assert (Same : forall f, fl_runs f = fl_runs (gf_all g) -> g' = GFleet f (gf_gone g') -> o = [] -> (forall x, In x (run_ops k (one_of (gf_gone g) op)) -> job_action x = false) ->
    exists r', nth_error (fl_runs (gf_all g')) k = Some r' /\ fr_wf r' = fr_wf r /\ ws_main (sy_w (fr_sys r')) = ws_main (sy_w (fr_sys r)) /\ ws_chan (sy_w (fr_sys r')) = ws_chan (sy_w (fr_sys r)) /\
    map tk_key (ws_tasks (sy_w (fr_sys r'))) = map tk_key (ws_tasks (sy_w (fr_sys r))) /\ (forall e, In e (run_events k o) -> exists i, fst e = Some i) /\
    (returned (fr_sys r) -> returned (fr_sys r') /\ forall x, In x (run_ops k (one_of (gf_gone g) op)) -> job_action x = false)).
  { intros f Ef -> -> Hx. exists r. cbn [gf_all]. rewrite Ef. repeat (split; [solve [auto]|]). split; [intros e []|]. auto. }
  destruct op as [op|q]; cbn [Drop_model.gstep] in E.
  - destruct op as [cx0|c wf0|q op|d|c j|c]; try (unfold plainly in E; cbn [Fleet_model.fstep] in E; injection E as <- <-; eapply Same; [| |reflexivity|]; [|reflexivity|intros x []]; reflexivity).
    + unfold plainly in E. cbn [Fleet_model.fstep] in E. destruct (nth_error (fl_ctx (gf_all g)) c) as [[cx0 ca0]|]; [|discriminate]. injection E as <- <-. exists r. cbn [gf_all fl_runs]. rewrite nth_error_app1 by (apply nth_error_Some; congruence).
      repeat (split; [solve [auto]|]). split; [intros e []|]. intros Hr. split; [exact Hr|intros x []].
    + assert (Pl : plainly R glob g (FRunOp q op) = Some (g', o) -> (q = k -> job_side op = true) -> exists r', nth_error (fl_runs (gf_all g')) k = Some r' /\ fr_wf r' = fr_wf r /\ ws_main (sy_w (fr_sys r')) = ws_main (sy_w (fr_sys r)) /\ ws_chan (sy_w (fr_sys r')) = ws_chan (sy_w (fr_sys r)) /\
        map tk_key (ws_tasks (sy_w (fr_sys r'))) = map tk_key (ws_tasks (sy_w (fr_sys r))) /\ (forall e, In e (run_events k o) -> exists i, fst e = Some i) /\
        (returned (fr_sys r) -> returned (fr_sys r') /\ forall x, In x (run_ops k (one_of (gf_gone g) (GDo (FRunOp q op)))) -> job_action x = false)).
      { clear E. intros E Hj. unfold plainly in E. cbn [Fleet_model.fstep] in E. destruct (nth_error (fl_runs (gf_all g)) q) as [rq|] eqn:Eq; [|discriminate]. destruct (nth_error (fl_ctx (gf_all g)) (fr_ctx rq)) as [[cx0 ca0]|]; [|discriminate].
        destruct (is_env op); [discriminate|]. destruct (sysstep _ _ _ _ _ op) as [[s' o']|] eqn:Es; [|discriminate]. injection E as <- <-. cbn [gf_all fl_runs].
        destruct (Nat.eq_dec k q) as [<-|Hne].
        - rewrite Hk in Eq. injection Eq as <-. destruct (side_step _ _ _ _ _ _ Es (Hj eq_refl)) as (H1 & H2 & H3 & H4 & H5). eexists. split; [apply (list_set_eq _ _ _ _ Hk)|]. cbn [fr_wf fr_sys]. split; [reflexivity|]. split; [exact H1|]. split; [exact H2|]. split; [exact H3|]. split.
          + intros e He. apply Evs in He as [_ He]. eauto.
          + intros Hr. destruct (H5 Hr) as [H6 H7]. split; [exact H6|]. intros x Hx. assert (x = op) as -> by (cbn [one_of] in Hx; destruct op as [[]| |]; try destruct (memb _ _); cbn in Hx; rewrite ?Nat.eqb_refl in Hx; cbn in Hx; intuition congruence). exact H7.
        - exists r. rewrite list_set_ne by exact Hne. repeat (split; [solve [auto]|]). split; [intros e He; apply Evs in He as [-> _]; destruct (Hne eq_refl)|]. intros Hr. split; [exact Hr|].
          intros x Hx. exfalso. cbn [one_of] in Hx. destruct op as [[]| |]; try destruct (memb _ _); cbn in Hx; rewrite ?(proj2 (Nat.eqb_neq q k)) in Hx by auto; exact Hx. }
      destruct (memb q (gf_gone g)) eqn:Em.
      * destruct op as [[|gh|i jo|i|e]|i io|p io]; try discriminate E; try (apply Pl; [exact E|reflexivity]).
        -- destruct (nth_error (fl_runs (gf_all g)) q) as [rq|] eqn:Eq; [|discriminate]. destruct (lose i (fr_sys rq)) as [s'|] eqn:El; [|discriminate]. injection E as <- <-. cbn [gf_all fl_runs one_of]. rewrite Em.
           destruct (Nat.eq_dec k q) as [<-|Hne].
           ++ rewrite Hk in Eq. injection Eq as <-. eexists. split; [apply (list_set_eq _ _ _ _ Hk)|]. cbn [fr_wf fr_sys]. unfold lose in El. destruct (nth_error (ws_tasks (sy_w (fr_sys r))) i) as [[key jj [] []]|] eqn:Et; try discriminate El. injection El as <-.
              cbn [sy_w set_task ws_main ws_chan ws_tasks]. repeat (split; [reflexivity|]). split; [eapply list_set_map; [exact Et|reflexivity]|]. split; [intros e []|]. intros Hr. split; [|intros x []].
              intros t Ht. apply In_nth_error in Ht as [n Hn]. destruct (Nat.eq_dec n i) as [->|Hni]; [rewrite (list_set_eq _ _ _ _ Et) in Hn; injection Hn as <-; cbn; eauto|]. rewrite list_set_ne in Hn by exact Hni. apply Hr, (nth_error_In _ _ Hn).
           ++ exists r. rewrite list_set_ne by exact Hne. repeat (split; [solve [auto]|]). split; [intros e []|]. intros Hr. split; [exact Hr|intros x []].
        -- exfalso. unfold plainly in E. cbn [Fleet_model.fstep] in E. destruct (nth_error _ q) as [rq|]; [|discriminate]. destruct (nth_error _ (fr_ctx rq)) as [[]|]; discriminate.
      * apply memb_false in Em. apply Pl; [exact E|]. intros ->. destruct (Em Hg).
  - destruct (nth_error (fl_runs (gf_all g)) q) as [rq|]; [|discriminate]. destruct (ws_main _); try discriminate E; destruct (memb _ _); try discriminate E; injection E as <- <-; (eapply Same; [| |reflexivity|]; [|reflexivity|intros x []]; reflexivity).
Qed.
Lemma gone_keeps_exec more : forall g g' o k r, gexec g more = Some (g', o) -> In k (gf_gone g) -> nth_error (fl_runs (gf_all g)) k = Some r ->
  exists r', nth_error (fl_runs (gf_all g')) k = Some r' /\ fr_wf r' = fr_wf r /\ ws_main (sy_w (fr_sys r')) = ws_main (sy_w (fr_sys r)) /\ ws_chan (sy_w (fr_sys r')) = ws_chan (sy_w (fr_sys r)) /\
    map tk_key (ws_tasks (sy_w (fr_sys r'))) = map tk_key (ws_tasks (sy_w (fr_sys r))) /\ (forall e, In e (run_events k o) -> exists i, fst e = Some i) /\
    (returned (fr_sys r) -> returned (fr_sys r') /\ forall x, In x (run_ops k (unaware (gf_gone g) more)) -> job_action x = false).
Proof.
  induction more as [|op more IH]; intros g g' o k r E Hg Hk; cbn [Drop_model.gexec] in E.
  - injection E as <- <-. exists r. repeat (split; [solve [auto]|]). split; [intros e []|]. intros Hr. split; [exact Hr|intros x []].
  - destruct (gstep g op) as [[g1 o1]|] eqn:E1; [|discriminate]. destruct (gexec g1 more) as [[g2 o2]|] eqn:E2; [|discriminate]. injection E as <- <-.
    destruct (gone_keeps _ _ _ _ _ _ E1 Hg Hk) as (r1 & H1 & H2 & H3 & H4 & H5 & H6 & H7). assert (Eg := gone_step R glob _ _ _ _ E1). assert (Hg1 : In k (gf_gone g1)) by (rewrite Eg; destruct op; cbn [goner]; [exact Hg|right; exact Hg]).
    destruct (IH _ _ _ _ _ E2 Hg1 H1) as (r2 & K1 & K2 & K3 & K4 & K5 & K6 & K7). exists r2. split; [exact K1|]. split; [congruence|]. split; [congruence|]. split; [congruence|]. split; [congruence|]. split.
    + intros e He. unfold run_events in He. rewrite filter_app, map_app in He. apply in_app_iff in He as [He|He]; eauto.
    + intros Hr. destruct (H7 Hr) as [H8 H9]. destruct (K7 H8) as [K8 K9]. split; [exact K8|]. intros x Hx. rewrite unaware_cons, <- Eg, run_ops_app in Hx. apply in_app_iff in Hx as [Hx|Hx]; eauto.
Qed.
(** A run that is over stays so, as before. *)
Lemma over_keeps more : forall g g' o k r, gexec g more = Some (g', o) -> nth_error (fl_runs (gf_all g)) k = Some r -> over r -> ~ In k (gf_gone g) -> forall x, In x (run_ops k (unaware (gf_gone g) more)) -> job_action x = false.
Proof.
  induction more as [|op more IH]; intros g g' o k r E Hk Ho Hg x Hx; [destruct Hx|]. cbn [Drop_model.gexec] in E.
  destruct (gstep g op) as [[g1 o1]|] eqn:E1; [|discriminate]. destruct (gexec g1 more) as [[g2 o2]|] eqn:E2; [|discriminate]. injection E as <- <-.
  assert (Eg := gone_step R glob _ _ _ _ E1). rewrite unaware_cons, <- Eg, run_ops_app in Hx.
  assert (S0 : stands_for (gf_all g) g). { repeat split. clear. induction (fl_runs (gf_all g)); constructor; [|assumption]. repeat split. apply same_refl. }
  assert (Q : (forall x, In x (run_ops k (one_of (gf_gone g) op)) -> job_action x = false) /\ (exists r1, nth_error (fl_runs (gf_all g1)) k = Some r1 /\ over r1) /\ ~ In k (gf_gone g1)).
  { destruct op as [op|q].
    - assert (Hg1 : ~ In k (gf_gone g1)) by (rewrite Eg; exact Hg). destruct (sim_step R glob _ _ _ _ _ S0 E1) as [(Q1 & _ & S1)|(fo & f1 & Q1 & _ & Ef & S1)]; rewrite Q1; destruct S1 as (_ & _ & _ & _ & S1); specialize (S1 k Hg1).
      + split; [intros y []|]. split; [exists r; split; [congruence|exact Ho]|exact Hg1].
      + destruct (over_fstep R glob _ _ _ _ _ _ Ef Hk Ho) as [H1 (r1 & H2 & H3)]. split; [exact H1|]. split; [exists r1; split; [congruence|exact H3]|exact Hg1].
    - cbn [Drop_model.gstep] in E1. destruct (nth_error (fl_runs (gf_all g)) q) as [rq|] eqn:Eq; [|discriminate]. destruct Ho as [[y Hy] Hr]. destruct (Nat.eq_dec k q) as [<-|Hne]; [rewrite Hk in Eq; injection Eq as <-; rewrite Hy in E1; discriminate|].
      destruct (ws_main (sy_w (fr_sys rq))); try discriminate E1; destruct (memb _ _); try discriminate E1; injection E1 as <- <-; cbn [gf_all gf_gone one_of]; (split; [intros z []|]); (split; [exists r; split; [exact Hk|split; [eauto|exact Hr]]|]); (intros [C|C]; [exact (Hne (eq_sym C))|exact (Hg C)]). }
  destruct Q as (Q1 & (r1 & Q2 & Q3) & Q4). apply in_app_iff in Hx as [Hx|Hx]; eauto.
Qed.
Lemma gone_there now ops g tr : gfleet_run R glob now ops g tr -> forall k, In k (gf_gone g) -> exists r, nth_error (fl_runs (gf_all g)) k = Some r.
Proof.
  induction 1 as [|ops g tr op g' o Hr IH E]; intros k Hi; [destruct Hi|]. rewrite (gone_step R glob _ _ _ _ E) in Hi.
  assert (Old : In k (gf_gone g) -> exists r, nth_error (fl_runs (gf_all g')) k = Some r) by (intros Q; destruct (IH k Q) as [r0 E1]; destruct (gone_keeps _ _ _ _ _ _ E Q E1) as (r1 & H1 & _); eauto).
  destruct op as [op|q]; [exact (Old Hi)|]. cbn [goner] in Hi. destruct Hi as [<-|Hi]; [|exact (Old Hi)]. cbn [Drop_model.gstep] in E. destruct (nth_error (fl_runs (gf_all g)) q) as [rq|] eqn:Eq; [|discriminate].
  destruct (ws_main _); try discriminate E; destruct (memb _ _); try discriminate E; injection E as <- _; cbn [gf_all]; eauto.
Qed.
(** A run that has been given up has no result. *)
Lemma gone_not_done now ops g tr : gfleet_run R glob now ops g tr -> forall k r x, In k (gf_gone g) -> nth_error (fl_runs (gf_all g)) k = Some r -> ws_main (sy_w (fr_sys r)) <> WpDone x.
Proof.
  induction 1 as [|ops g tr op g' o Hr IH E]; intros k r x Hg Hk Hx; [destruct Hg|]. assert (Eg := gone_step R glob _ _ _ _ E). destruct (in_dec Nat.eq_dec k (gf_gone g)) as [Hi|Hi].
  - destruct (nth_error (fl_runs (gf_all g)) k) as [r0|] eqn:E0.
    + destruct (gone_keeps _ _ _ _ _ _ E Hi E0) as (r1 & H1 & _ & H2 & _). rewrite Hk in H1. injection H1 as <-. apply (IH k r0 x Hi E0). congruence.
    + exfalso. destruct (gone_there _ _ _ _ Hr k Hi) as [r1 E1]. congruence.
  - rewrite Eg in Hg. destruct op as [op|q]; [exact (Hi Hg)|]. cbn [goner] in Hg. destruct Hg as [<-|Hg]; [|exact (Hi Hg)]. cbn [Drop_model.gstep] in E. destruct (nth_error (fl_runs (gf_all g)) q) as [rq|] eqn:Eq; [|discriminate].
    destruct (ws_main _) eqn:Em; try discriminate E; destruct (memb _ _); try discriminate E; injection E as <- _; cbn [gf_all] in Hk; congruence.
Qed.
Lemma deeds_app (a b : list (gop (iop := iop))) : deeds (a ++ b) = deeds a ++ deeds b.
Proof. unfold deeds. apply flat_map_app. Qed.
Lemma deeds_unaware ops : forall gone k op, In op (run_ops k (deeds ops)) -> In op (run_ops (iop := iop) k (unaware gone ops)) \/ exists i, op = YFlow (WSend i).
Proof.
  induction ops as [|o ops IH]; intros gone k op Hin; [destruct Hin|]. change (deeds (o :: ops)) with (match o with GDo op => [op] | GGiveUp _ => [] end ++ deeds ops) in Hin. rewrite unaware_cons. rewrite run_ops_app in *. apply in_app_iff in Hin as [Hin|Hin].
  - destruct o as [o|q]; [|destruct Hin]. cbn [one_of]. destruct o as [| |q [[]| |]| | |]; try (left; apply in_or_app; left; exact Hin). destruct (memb q gone); [|left; apply in_or_app; left; exact Hin].
    right. cbn in Hin. destruct (Nat.eqb q k); [|destruct Hin]. destruct Hin as [<-|[]]. eauto.
  - destruct (IH (goner gone o) k op Hin) as [H|H]; [left; apply in_or_app; right; exact H|right; exact H].
Qed.
Lemma deeds_thin ops : forall gone, thin (unaware gone ops) (deeds (iop := iop) ops).
Proof.
  induction ops as [|o ops IH]; intros gone; [constructor|]. change (deeds (o :: ops)) with (match o with GDo op => [op] | GGiveUp _ => [] end ++ deeds ops). rewrite unaware_cons. apply thin_app; [|apply IH].
  destruct o as [o|q]; [|constructor]. cbn [one_of]. destruct o as [| |q [[]| |]| | |]; try (constructor; constructor). destruct (memb q gone); constructor; constructor.
Qed.
Lemma thin_any (l l' : list (fop (iop := iop))) x : thin l l' -> In x l -> In x l'.
Proof. induction 1; cbn; intuition. Qed.
(** For a run not given up, the two histories are the same. *)
Lemma deeds_same ops k : forall gone, ~ In k (fold_left goner ops gone) -> run_ops k (unaware gone ops) = run_ops (iop := iop) k (deeds ops).
Proof.
  induction ops as [|o ops IH]; intros gone Hk; [reflexivity|]. cbn [fold_left] in Hk. change (deeds (o :: ops)) with (match o with GDo op => [op] | GGiveUp _ => [] end ++ deeds ops). rewrite unaware_cons, !run_ops_app, (IH _ Hk). f_equal.
  destruct o as [o|q]; [|reflexivity]. cbn [one_of]. destruct o as [| |q [[]| |]| | |]; try reflexivity. destruct (memb q gone) eqn:E; [|reflexivity]. cbn. destruct (Nat.eqb q k) eqn:Eq; [|reflexivity]. apply Nat.eqb_eq in Eq as ->.
  exfalso. apply Hk. apply goner_in. left. apply memb_true, E.
Qed.
Lemma alone_again now ops0 g0 tr0 c wf later g o : gfleet_run R glob now ops0 g0 tr0 -> gexec g0 (GDo (FStart c wf) :: later) = Some (g, o) ->
  (forall k' r' id, nth_error (fl_runs (gf_all g0)) k' = Some r' -> job_of (fr_wf r') id -> job_of wf id -> at_rest g0 k' r') ->
  (forall c' wf' id, In (GDo (FStart c' wf')) later -> job_of wf' id -> ~ job_of wf id) ->
  alone (deeds (ops0 ++ GDo (FStart c wf) :: later)) (gf_all g) (length (fl_runs (gf_all g0))) /\
  since (length (fl_runs (gf_all g0))) (deeds (ops0 ++ GDo (FStart c wf) :: later)) = deeds later.
Proof.
  intros Hr E Ho Hl. destruct (simulated R glob _ _ _ _ Hr) as [Eg (f0 & Hf & S0)].
  assert (Len : length (fl_runs f0) = length (fl_runs (gf_all g0))) by (eapply Forall2_len; apply S0).
  assert (St := starts_run R glob _ _ _ _ Hf). rewrite Len in St.
  assert (Th : starts (deeds ops0) = starts (unaware [] ops0)) by (symmetry; apply thin_starts, deeds_thin).
  assert (Sin : since (length (fl_runs (gf_all g0))) (deeds (ops0 ++ GDo (FStart c wf) :: later)) = deeds later).
  { rewrite deeds_app. cbn [deeds flat_map app]. apply since_here. congruence. }
  split; [|exact Sin]. intros k' r r' id op Hne Hk Hk' J J' Hin. rewrite Sin in Hin. destruct (deeds_unaware _ (gf_gone g0) _ _ Hin) as [Hin'|[i ->]]; [clear Hin; rename Hin' into Hin|reflexivity].
  assert (E' := E). cbn [Drop_model.gexec] in E'. destruct (gstep g0 (GDo (FStart c wf))) as [[g1 o1]|] eqn:E1; [|discriminate]. destruct (gexec g1 later) as [[g2 o2]|] eqn:E2; [|discriminate]. injection E' as -> _.
  assert (Eg1 := gone_step R glob _ _ _ _ E1). cbn [goner] in Eg1.
  cbn [Drop_model.gstep] in E1. unfold plainly in E1. cbn [Fleet_model.fstep] in E1. destruct (nth_error (fl_ctx (gf_all g0)) c) as [[cx0 ca0]|]; [|discriminate]. injection E1 as <- <-. cbn [gf_gone] in *.
  assert (S1 : stands_for (gf_all (GFleet (Fleet (fl_now (gf_all g0)) (fl_sm (gf_all g0)) (fl_ctx (gf_all g0)) (fl_runs (gf_all g0) ++ [FRun c wf (System (winit (Shared (fl_now (gf_all g0)) (fl_sm (gf_all g0)) ca0)) [] [])])) (gf_gone g0)))
     (GFleet (Fleet (fl_now (gf_all g0)) (fl_sm (gf_all g0)) (fl_ctx (gf_all g0)) (fl_runs (gf_all g0) ++ [FRun c wf (System (winit (Shared (fl_now (gf_all g0)) (fl_sm (gf_all g0)) ca0)) [] [])])) (gf_gone g0))).
  { repeat split. cbn [gf_all]. clear. induction (fl_runs _); constructor; [|assumption]. repeat split. apply same_refl. }
  destruct (sim_exec R glob _ _ _ _ _ S1 E2) as (f & Ef & Sf). cbn [gf_all] in Ef. cbn [gf_gone] in Ef.
  assert (From : forall q rq, nth_error (fl_runs (gf_all g)) q = Some rq -> (exists r0, nth_error (fl_runs (gf_all g0) ++ [FRun c wf (System (winit (Shared (fl_now (gf_all g0)) (fl_sm (gf_all g0)) ca0)) [] [])]) q = Some r0 /\ fr_wf r0 = fr_wf rq) \/ (exists c', In (GDo (FStart c' (fr_wf rq))) later)).
  { intros q rq Hq. assert (W := stands_wf f g q Sf). rewrite Hq in W. destruct (nth_error (fl_runs f) q) as [rf|] eqn:Hf'; [|discriminate]. cbn in W. injection W as W. rewrite <- W.
    destruct (runs_from R glob _ _ _ _ _ _ Ef Hf') as [(r0 & H1 & H2)|(_ & c' & H2)]; [left; exists r0; auto|right; exists c'].
    clear -H2. revert H2. generalize (gf_gone g0). induction later as [|x later IH]; intros gone H2; [destruct H2|]. rewrite unaware_cons in H2. apply in_app_iff in H2 as [H2|H2]; [|right; eapply IH; exact H2].
    left. destruct x as [x|]; [|destruct H2]. cbn [one_of] in H2. destruct x as [| |q [[]| |]| | |]; try destruct (memb _ _); cbn in H2; intuition congruence. }
  assert (Er : fr_wf r = wf).
  { destruct (From _ _ Hk) as [(r0 & H1 & H2)|(c' & H2)].
    - rewrite nth_error_app2, Nat.sub_diag in H1 by apply le_n. injection H1 as <-. symmetry. exact H2.
    - destruct (stands_wf f g (length (fl_runs (gf_all g0))) Sf). assert (W := stands_wf f g (length (fl_runs (gf_all g0))) Sf). rewrite Hk in W. destruct (nth_error (fl_runs f) (length (fl_runs (gf_all g0)))) as [rf|] eqn:Hf'; [|discriminate]. cbn in W. injection W as W. rewrite <- W.
      destruct (runs_from R glob _ _ _ _ _ _ Ef Hf') as [(r0 & H3 & H4)|(H3 & _)]; cbn [fl_runs] in H3; [rewrite nth_error_app2, Nat.sub_diag in H3 by apply le_n; injection H3 as <-; symmetry; exact H4|rewrite app_length in H3; cbn in H3; lia]. }
  rewrite Er in J. destruct (From _ _ Hk') as [(r0 & H1 & H2)|(c' & H2)]; [|exfalso; exact (Hl _ _ _ H2 J' J)].
  destruct (Nat.lt_ge_cases k' (length (fl_runs (gf_all g0)))) as [Lt|Ge].
  - rewrite nth_error_app1 in H1 by exact Lt. rewrite <- H2 in J'. assert (H1' : nth_error (fl_runs (gf_all g0) ++ [FRun c wf (System (winit (Shared (fl_now (gf_all g0)) (fl_sm (gf_all g0)) ca0)) [] [])]) k' = Some r0) by (rewrite nth_error_app1 by exact Lt; exact H1).
    destruct (Ho _ _ _ H1 J' J) as [Hov|[Hg Hret]].
    + assert (Hng : ~ In k' (gf_gone g0)) by (intros Q; destruct (proj1 Hov) as [x Hx]; exact (gone_not_done _ _ _ _ Hr k' r0 x Q H1 Hx)). eapply (over_keeps _ _ _ _ _ _ E2 H1' Hov); [exact Hng|exact Hin].
    + destruct (gone_keeps_exec _ _ _ _ _ _ E2 Hg H1') as (r1 & _ & _ & _ & _ & _ & _ & Q). destruct (Q Hret) as [_ Q2]. apply Q2, Hin.
  - rewrite nth_error_app2 in H1 by exact Ge. destruct (k' - length (fl_runs (gf_all g0))) as [|n] eqn:En; [lia|]. destruct n; discriminate H1.
Qed.
End X.
