From Verif Require Import Base Types Signals_model Stream_model Cond_model
  Plugins_model Plugins_spec Exec_model Exec_spec Job_proof Job_props Workflow_model Workflow_spec Workflow_proof Workflow_inv
  Paths_model Docker_model Runner_model Runner_proof Local_model Local_spec System_model System_spec System_proof System_flow System_inst Step_props Workflow_props Process_spec Process_proof Settled_spec.

(** ** Only a task that has not yet started its process makes anything *)
Lemma x_step_makes c x i x' o : xstep c x i = Some (x', o) -> forall e, In e o -> makes e -> fresh_x x = true /\ exists o', o = e :: o' /\ forall y, In y o' -> exists q, y = EfEnd q.
Proof.
  assert (N : forall r res res' o', x_end r res = (res', o') -> forall y, In y o' -> exists q, y = EfEnd q).
  { intros r res res' o' X y Hy. unfold x_end in X. destruct res; injection X as <- <-; cbn in Hy; [destruct Hy|]. destruct Hy as [<-|[]]. eauto. }
  intros E e Hin Hm. apply xstep_trans in E. inversion E; subst; cbn [In] in Hin; try contradiction;
    try (destruct Hin as [<-|[]]; cbn [makes] in Hm; try contradiction; split; [reflexivity|eexists; split; [reflexivity|]; intros y []]; fail);
    try (match goal with X : x_end _ _ = _ |- _ => destruct (N _ _ _ _ X _ Hin) as [q ->]; destruct Hm end; fail).
  - apply in_map_iff in Hin as (l & <- & _). destruct Hm.
  - destruct Hin as [<-|Hin]; [|match goal with X : x_end _ _ = _ |- _ => destruct (N _ _ _ _ X _ Hin) as [q ->]; destruct Hm end]. cbn [makes] in Hm. destruct Hm.
  - destruct Hin as [<-|[]]. destruct Hm.
  - destruct Hin as [<-|[]]. destruct Hm.
Qed.

Section S.
Variables (cx : ectx) (rhooks : run_context -> run_context) (conf : run_context -> xconf) (glob : glob_oracle) (wf : workflow).
Notation B := (builtin cx rhooks conf).
Notation side := (side cx rhooks conf).

Definition made_while_prepared (tr : list (who * (obs + lobs))) : Prop :=
  forall pre w e post, tr = pre ++ (w, inr (LEff e)) :: post -> makes e -> exists i rc, w = Some i /\ being_prepared i rc pre.

(** One action on a step. *)
Lemma step_makes i me sh sp x op sh' sp' x' out tr : rs_step B me sh sp x op = Some (sh', sp', x', out) -> side i sp x tr ->
  forall pre e post, out = pre ++ LEff e :: post -> makes e -> pre = [] /\ exists rc, being_prepared i rc tr.
Proof.
  intros E0 Hs pre e post Eo Hm. apply builtin_step in E0 as [E Hw].
  assert (L : forall o : list obs, map LObs o = pre ++ LEff e :: post -> False).
  { intros o C. assert (K : In (LEff e) (map LObs o)) by (rewrite C; apply in_or_app; right; left; reflexivity). apply in_map_iff in K as (y & K & _). discriminate K. }
  destruct op as [eo| |xi| |e']; [| | | |destruct (Hw e' eq_refl)].
  - assert (K : exists o, out = map LObs o).
    { cbn [lstep lo_sh lo_step lo_task] in E. destruct eo as [|c|[]| | | |ro]; try discriminate E;
        try (destruct x; try discriminate E);
        repeat match type of E with match ?z with Some _ => _ | None => _ end = _ => destruct z as [[[? ?] ?]|]; [|discriminate E] end; injection E as <- <- <- <-; eauto. }
    destruct K as [o ->]. destruct (L _ Eo).
  - cbn [lstep lo_sh lo_step lo_task] in E. destruct sp; try discriminate E. destruct x; [discriminate E|]. injection E as _ _ _ <-. destruct pre; discriminate Eo.
  - assert (K : match x with Some (LTask c x0 []) => match xstep c x0 xi with Some (x', o0) => Some (LState sh sp (Some (LTask c x' (flat_map sender_ops o0))), map LEff o0) | None => None end | _ => None end = Some (LState sh' sp' x', out)).
    { destruct xi; try discriminate E; exact E. }
    clear E. destruct x as [[c x0 [|pd pds]]|]; try discriminate K. destruct (xstep c x0 xi) as [[x1 o0]|] eqn:Ex; [|discriminate K]. injection K as <- <- <- <-.
    destruct Hs as (rc & H1 & H2 & H3). cbn [lt_conf lt_x] in *.
    assert (Hin : In e o0).
    { assert (K : In (LEff e) (map LEff o0)) by (rewrite Eo; apply in_or_app; right; left; reflexivity). apply in_map_iff in K as (y & [= ->] & K). exact K. }
    destruct (x_step_makes _ _ _ _ _ Ex _ Hin Hm) as (Hf & o' & -> & Ho). split; [|exists rc; exact (H3 Hf)].
    destruct pre as [|z pre]; [reflexivity|]. cbn [map app] in Eo. injection Eo as _ Eo. exfalso.
    assert (K : In (LEff e) (map LEff o')) by (rewrite Eo; apply in_or_app; right; left; reflexivity). apply in_map_iff in K as (y & [= ->] & K). destruct (Ho _ K) as [q ->]. destruct Hm.
  - exfalso. cbn [lstep lo_sh lo_step lo_task] in E. destruct x as [[c x0 [|pd pds]]|]; try discriminate E.
    repeat match type of E with match ?z with _ => _ end = _ => destruct z; try discriminate E end; injection E as _ _ _ <-; try (destruct pre; discriminate Eo); apply (L _ Eo).
Qed.
Lemma made_app tr o : made_while_prepared tr -> (forall pre w e post, o = pre ++ (w, inr (LEff e)) :: post -> makes e -> exists i rc, w = Some i /\ being_prepared i rc (tr ++ pre)) -> made_while_prepared (tr ++ o).
Proof. intros H Ho pre w e post E. apply mid_app in E as [(p & E)|(p & -> & E)]; eauto. Qed.
Lemma made_run sh0 ops s tr : sysrun B glob cx wf sh0 ops s tr -> made_while_prepared tr.
Proof.
  assert (F := builtin_faithful cx rhooks conf).
  induction 1 as [|ops s tr op s' o Hr IH E]; [intros pre w e post C; destruct pre; discriminate C|].
  destruct (proc_run _ _ _ _ _ _ _ _ _ Hr) as [V1 V2 _]. assert (I := sys_inv B glob cx wf F _ _ _ _ Hr).
  apply made_app; [exact IH|]. intros pre w e post Eo Hm.
  assert (G : forall i me sh sp x iop sh' sp' x' out, rs_step B me sh sp x iop = Some (sh', sp', x', out) -> side i sp x tr ->
      o = map (fun e => (Some i, inr e)) out -> exists i rc, w = Some i /\ being_prepared i rc (tr ++ pre)).
  { intros i me sh sp x iop sh' sp' x' out Es Hs Ho. rewrite Ho in Eo. apply map_eq_app in Eo as (a & b & -> & Ea & Eb).
    destruct b as [|y b]; [discriminate Eb|]. cbn [map] in Eb. injection Eb as Ew Ey _. subst w y.
    destruct (step_makes _ _ _ _ _ _ _ _ _ _ _ Es Hs _ _ _ eq_refl Hm) as [-> [rc K]]. cbn [map] in Ea. subst pre. rewrite app_nil_r. eauto. }
  destruct op as [wo|i io|k io].
  - destruct (flow_sides cx rhooks conf glob wf _ _ _ _ _ _ I E) as (J1 & _). destruct (J1 w (inr (LEff e))) as [y C]; [rewrite Eo; apply in_or_app; right; left; reflexivity|discriminate C].
  - cbn [sysstep] in E. destruct (nth_error (ws_tasks (sy_w s)) i) as [t|] eqn:Et; [|discriminate]. destruct (nth_error (sy_cur s) i) as [x|] eqn:Ex; [|discriminate].
    destruct (tk_phase t) as [| | | | | | | | | |t0 js rs sp rest| | | |] eqn:Ep; try discriminate E.
    destruct (rs_step B (S i) (ws_sh (sy_w s)) sp x io) as [[[[sh' sp'] x'] out]|] eqn:Es; [|discriminate E]. injection E as _ Ho.
    eapply G; [exact Es|eapply V1; eauto|symmetry; exact Ho].
  - cbn [sysstep] in E. destruct (nth_error (sy_past s) k) as [[i [[sh p] x]]|] eqn:Ek; [|discriminate].
    destruct (rs_step B (S i) sh p x io) as [[[[sh' p'] x'] out]|] eqn:Es; [|discriminate E]. injection E as _ Ho.
    assert (V := V2 _ (nth_error_In _ _ Ek)). cbn [fst snd] in V. eapply G; [exact Es|exact V|symmetry; exact Ho].
Qed.

(** ** Stories are closed: every call of the runner is followed by the end of the step *)
Definition closed (evs : list obs) : Prop := forall a c b, evs = a ++ ORun c :: b -> exists r, In (OHook (HStepCompleted r)) b.
Lemma closed_none evs : (forall c, ~ In (ORun c) evs) -> closed evs.
Proof. intros H a c b ->. destruct (H c). apply in_or_app. right. left. reflexivity. Qed.
Lemma closed_app x y : closed x -> closed y -> closed (x ++ y).
Proof.
  intros Hx Hy a c b E0. assert (E1 := E0). apply mid_app in E1 as [(p & E)|(p & -> & E)]; [|eauto].
  destruct (Hx _ _ _ E) as [r Hr]. exists r. subst x. rewrite <- app_assoc in E0. apply app_inv_head in E0. injection E0 as <-. apply in_or_app. left. exact Hr.
Qed.
Lemma step_closed st0 evs r : step_story cx st0 evs r -> closed evs.
Proof.
  intros (st & t0 & t1 & _ & _ & _ & _ & _ & [(_ & _ & ->)|(rr & logs & _ & _ & ->)]).
  - intros a c b E. destruct a as [|x [|y [|z a]]]; try discriminate E.
    + injection E as _ _ _ <-. exists r. right. left. reflexivity.
    + injection E as _ _ _ E'. exfalso. destruct a as [|? [|? a]]; try discriminate E'. destruct a; discriminate E'.
  - intros a c b E. assert (K : forall o, In o ([step_state_event (st_id st) InProgress] ++ map (fun l => OHook (HLog l)) logs ++ [step_state_event (st_id st) (sr_state r); OHook (HStepCompleted r)]) -> forall c, o <> ORun c).
    { intros o Ho c' ->. destruct Ho as [C|Ho]; [discriminate C|]. cbn [app] in Ho. apply in_app_or in Ho. destruct Ho as [Ho|Ho]; [|cbn in Ho; intuition discriminate]. apply in_map_iff in Ho as (l & C & _). discriminate C. }
    destruct a as [|x [|y [|z a]]]; try discriminate E.
    + injection E as _ _ _ <-. exists r. right. apply in_or_app. right. right. left. reflexivity.
    + injection E as _ _ _ E'. exfalso. eapply K; [|reflexivity]. cbn [app]. rewrite E'. apply in_or_app. right. left. reflexivity.
Qed.
Lemma lets_run_closed on chk : lets_run on chk -> closed chk.
Proof. intros H. apply closed_none. intros c Hc. destruct on; cbn in H; subst chk; cbn in Hc; intuition discriminate. Qed.
Lemma job_closed j evs r : job_story cx j evs r -> closed evs.
Proof.
  intros H. destruct H as [c E|chk e rs s t0 t1 H1 H2 H3 H4]; [apply closed_none; cbn; intuition discriminate|].
  apply closed_app; [eapply lets_run_closed, H1|]. apply closed_app; [apply closed_none; cbn; intuition discriminate|].
  apply closed_app; [|apply closed_none; cbn; intuition discriminate].
  clear H1 H3 H4. induction H2 as [e|e st rest q evs rs H1 H2 Ha IH|e st rest c q evs rs H1 H2 H3 Ha IH|e st rest chk' sevs q evs rs H1 H2 H3 Ha IH].
  - apply closed_none; cbn; intuition.
  - apply closed_app; [apply closed_none; cbn; intuition discriminate|exact IH].
  - apply closed_app; [apply closed_none; cbn; intuition discriminate|exact IH].
  - apply closed_app; [eapply lets_run_closed, H2|]. apply closed_app; [eapply step_closed, H3|exact IH].
Qed.

(** ** The end of the run *)
Hypothesis Hnd : NoDup (keys (wf_jobs wf)).
Lemma completed_is_done wls w tr : wrun glob cx wf wls w tr -> forall r, In (None, OHook (HWorkflowCompleted r)) tr -> exists r', ws_main w = WpDone r'.
Proof.
  induction 1 as [sh|wls w tr op w' o R IH E]; intros r Hin; [destruct Hin|].
  assert (D : forall r, ws_main w = WpDone r -> ws_main w' = WpDone r).
  { intros r0 Hm. destruct op as [|gh|i jo|i|e]; cbn [wstep] in E.
    - unfold main_step in E. rewrite Hm in E. discriminate E.
    - rewrite Hm in E. discriminate E.
    - destruct (nth_error _ _); [|discriminate]. destruct (job_step _ _ _ _ _ _ _) as [[[? ?] ?]|]; [|discriminate]. injection E as <- <-. exact Hm.
    - destruct (nth_error _ _) as [[key j p sent]|]; [|discriminate]. destruct p; try discriminate. destruct sent; [discriminate|]. rewrite Hm in E. injection E as <- <-. exact Hm || (cbn; exact Hm).
    - injection E as <- <-. exact Hm. }
  apply in_app_iff in Hin as [Hin|Hin]; [destruct (IH _ Hin) as [r' Hr]; eauto|].
  destruct op as [|gh|i jo|i|e]; cbn [wstep] in E.
  - unfold main_step in E. idtac.
    repeat match type of E with match ?z with _ => _ end = _ => destruct z eqn:?; try discriminate E end; injection E as <- <-; cbn in Hin; try (intuition discriminate); cbn; eauto.
  - destruct (ws_main w); try discriminate E. destruct (is_match_second _ _ _ _). injection E as <- <-. cbn in Hin. intuition discriminate.
  - destruct (nth_error _ _); [|discriminate]. destruct (job_step _ _ _ _ _ _ _) as [[[? ?] ?]|]; [|discriminate]. injection E as <- <-. apply in_map_iff in Hin as (? & C & _). discriminate C.
  - destruct (nth_error _ _) as [[key j p sent]|]; [|discriminate]. destruct p; try discriminate. destruct sent; [discriminate|].
    destruct (ws_main w); try (destruct (Nat.ltb _ _); [|discriminate E]); injection E as <- <-; destruct Hin.
  - injection E as <- <-. destruct Hin.
Qed.
Lemma started_app a b : started (a ++ b) = started a ++ started b.
Proof. unfold started, started_in, events_of. rewrite !flat_map_app. reflexivity. Qed.
Lemma nodup_front {A} (a b : list A) : NoDup (a ++ b) -> NoDup a.
Proof. induction a as [|x a IH]; intros H; [constructor|]. inversion H; subst. constructor; [intros C; apply H2, in_or_app; auto|auto]. Qed.
Lemma events_in (i : who) (tr : trace) o : In (i, o) tr -> In o (events_of i tr).
Proof. intros H. unfold events_of. apply in_flat_map. exists (i, o). split; [exact H|]. cbn [fst]. rewrite eqb_refl. left. reflexivity. Qed.

Lemma flow_cons x tr : flow_of B (x :: tr) = flow_of B [x] ++ flow_of B tr.
Proof. change (x :: tr) with ([x] ++ tr). apply (flow_app B). Qed.
Lemma in_flow i o tr : In o (events_of (Some i) (flow_of B tr)) -> In (Some i, inl o) tr \/ In (Some i, inr (LObs o)) tr.
Proof.
  intros H. unfold events_of in H. apply in_flat_map in H as ([w y] & H & K). cbn [fst snd] in K. destruct (eqb w (Some i)) eqn:Ew; [|destruct K]. apply (proj1 (eqb_true _ _)) in Ew. subst w. destruct K as [<-|[]].
  unfold flow_of in H. apply in_flat_map in H as ([w e] & H & K). destruct e as [x|[x|x]]; cbn in K; [destruct K as [[= -> ->]|[]]; auto|destruct K as [[= -> ->]|[]]; auto|destruct K].
Qed.
Lemma settled sh0 ops s a r p q i rc : sysrun B glob cx wf sh0 ops s (a ++ (None, inl (OHook (HWorkflowCompleted r))) :: p ++ q) ->
  NoDup (started (flow_of B (a ++ (None, inl (OHook (HWorkflowCompleted r))) :: p ++ q))) ->
  being_prepared i rc (a ++ (None, inl (OHook (HWorkflowCompleted r))) :: p) -> False.
Proof.
  intros Hr Hst (earlier & since & E & Hs). destruct (flow_run _ glob cx wf (builtin_faithful cx rhooks conf) _ _ _ _ Hr) as (wls & W & _ & _). clear Hr.
  rewrite flow_app, flow_cons, flow_app in W, Hst. change (flow_of B [(None, inl (OHook (HWorkflowCompleted r)))]) with [(@None nat, OHook (HWorkflowCompleted r))] in W, Hst. cbn [app] in W, Hst.
  assert (E0 := E). apply mid_app in E as [(post' & ->)|(pre' & -> & E)].
  - rewrite <- app_assoc in E0. apply app_inv_head in E0. injection E0 as E0. subst since. destruct (wrun_split _ _ _ _ _ _ W _ _ _ eq_refl) as (ls1 & op & ls2 & s1 & s2 & _ & W1 & E1). assert (W2 := wrun_step _ _ _ _ _ _ _ _ _ W1 E1). clear W W1 E1.
    assert (N2 : NoDup (started (flow_of B (earlier ++ (Some i, inr (LObs (ORun rc))) :: post') ++ [(None, OHook (HWorkflowCompleted r))]))).
    { rewrite started_app. change (started [(None, OHook (HWorkflowCompleted r))]) with (@nil string). rewrite app_nil_r. rewrite started_app in Hst. exact (nodup_front _ _ Hst). }
    destruct (completed_is_done _ _ _ W2 r) as [r' Hm]; [apply in_or_app; right; left; reflexivity|].
    destruct (C65_all_jobs_finished_partial _ _ _ _ _ _ _ Hnd W2 Hm N2) as [Fin _].
    assert (Ev : events_of (Some i) (flow_of B (earlier ++ (Some i, inr (LObs (ORun rc))) :: post') ++ [(None, OHook (HWorkflowCompleted r))]) = events_of (Some i) (flow_of B earlier) ++ ORun rc :: events_of (Some i) (flow_of B post')).
    { rewrite flow_app, flow_cons, !events_of_app. change (flow_of B [(Some i, inr (LObs (ORun rc)))]) with [(Some i, ORun rc)].
      assert (K : events_of (Some i) [(Some i, ORun rc)] = [ORun rc]) by (unfold events_of; cbn [flat_map fst snd]; rewrite eqb_refl; reflexivity). rewrite K. cbn [app].
      change (events_of (Some i) [(None, OHook (HWorkflowCompleted r))]) with (@nil obs). rewrite app_nil_r. reflexivity. }
    assert (Hin := in_elt (ORun rc) (events_of (Some i) (flow_of B earlier)) (events_of (Some i) (flow_of B post'))). rewrite <- Ev in Hin.
    destruct (task_events glob cx wf _ _ _ i (ORun rc) W2 Hin) as [t Ht].
    destruct (Fin t (nth_error_In _ _ Ht)) as [jr Hp]. destruct (tasks_run_inv glob cx wf _ _ _ W2) as [TR _]. destruct (TR i t Ht) as (jls & J & _). rewrite Hp in J.
    apply C31_job_life_cycle, job_closed in J. destruct (J _ _ _ Ev) as [x Hx]. apply in_flow in Hx as [Hx|Hx].
    + apply (Hs (inl (OHook (HStepCompleted x)))). apply in_or_app. left. exact Hx.
    + apply (Hs (inr (LObs (OHook (HStepCompleted x))))). apply in_or_app. left. exact Hx.
  - destruct pre' as [|y pre']; [discriminate E|]. cbn [app] in E. injection E as _ Ep.
    assert (Ef : flow_of B p = flow_of B pre' ++ (Some i, ORun rc) :: flow_of B since) by (rewrite Ep, flow_app, flow_cons; reflexivity).
    rewrite Ef in W, Hst. rewrite <- app_assoc in W, Hst. cbn [app] in W, Hst. rewrite app_comm_cons, app_assoc in W, Hst.
    destruct (wrun_split _ _ _ _ _ _ W _ _ _ eq_refl) as (ls1 & op & ls2 & s1 & s2 & _ & W1 & E1).
    destruct (completed_is_done _ _ _ W1 r) as [r' Hm]; [apply in_or_app; right; left; reflexivity|]. rewrite started_app in Hst.
    destruct (C65_all_jobs_finished_partial _ _ _ _ _ _ _ Hnd W1 Hm (nodup_front _ _ Hst)) as [_ Q]. specialize (Q _ _ _ E1). discriminate Q.
Qed.
End S.
