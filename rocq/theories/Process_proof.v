From Verif Require Import Base Types Signals_model Signals_proof Stream_model Stream_spec Stream_proof Cond_model
  Plugins_model Plugins_spec Plugins_proof Exec_model Exec_spec Step_proof Job_proof Workflow_model Workflow_spec Workflow_proof Workflow_inv
  Paths_model Docker_model Runner_model Runner_spec Runner_proof Local_model Local_spec Local_proof System_model System_spec System_proof System_flow System_inst Process_spec.

(** ** The task before it has started its process *)
Definition fresh_x (x : xstate) : bool := match xs_phase x with XCheck | XMkdir | XWrite | XSelect CSpawn => true | _ => false end.
Lemma x_stream_nil res : x_stream [] res = (res, []).
Proof. reflexivity. Qed.
Lemma x_step_fresh c x i x' o : xstep c x i = Some (x', o) ->
  (fresh_x x' = true -> fresh_x x = true /\ xs_result x' = xs_result x /\ forall t, ~ In (EfSpawn t) o) /\ (forall t, In (EfSpawn t) o -> fresh_x x = true /\ t = xc_spawned c /\ o = [EfSpawn t]).
Proof.
  intros E. destruct x as [ph sg res]. destruct i as [|ok|ci|s|]; cbn [xstep xs_phase xs_signal xs_result] in E.
  - destruct ph; try discriminate E.
    + destruct sg; injection E as <- <-; (split; [intros H; split; [reflexivity|]; split; [reflexivity|intros t []]|intros t []]).
    + destruct (x_end (signal_result s) res) as [res' o'] eqn:X. injection E as <- <-. split; [discriminate|]. intros t [C|C]; [discriminate C|]. unfold x_end in X. destruct res; injection X as <- <-; cbn in C; intuition discriminate.
    + destruct (x_end (RFailed 1) res) as [res' o'] eqn:X. injection E as <- <-. split; [discriminate|]. intros t C. unfold x_end in X. destruct res; injection X as <- <-; cbn in C; intuition discriminate.
    + injection E as <- <-. split; [discriminate|]. intros t [C|[]]. discriminate C.
  - destruct ph; try discriminate E.
    + destruct ok; injection E as <- <-; (split; [intros H; split; [reflexivity|]; split; [reflexivity|intros t C; cbn in C; intuition discriminate]|intros t C; cbn in C; intuition discriminate]).
    + destruct ok; injection E as <- <-; (split; [intros H; split; [reflexivity|]; split; [reflexivity|intros t C; cbn in C; intuition discriminate]|intros t C; cbn in C; intuition discriminate]).
    + injection E as <- <-. split; [discriminate|]. intros t C. destruct ok; cbn in C; intuition discriminate.
  - destruct ph as [| | |p| | | | |]; try discriminate E. destruct (cmd_step p ci) as [[p' effs]|] eqn:C; [|discriminate E].
    destruct p; destruct ci as [ok'|r|r|code|]; try discriminate C.
    + destruct ok'; injection C as <- <-; cbn in E; injection E as <- <-; (split; [discriminate|]); intros t H; cbn in H; [destruct H as [[= <-]|[]]; auto|destruct H].
    + destruct r; injection C as <- <-; cbn in E; injection E as <- <-; (split; [discriminate|]); intros t H; cbn in H; intuition discriminate.
    + destruct r; injection C as <- <-; cbn in E; injection E as <- <-; (split; [discriminate|]); intros t H; cbn in H; intuition discriminate.
    + injection C as <- <-. cbn [x_stream fold_left fst snd] in E. unfold x_stream, x_end in E. cbn [fold_left fst snd] in E. destruct res; injection E as <- <-; (split; [discriminate|]); intros t H; cbn in H; intuition discriminate.
    + injection C as <- <-. cbn in E. injection E as <- <-. split; [discriminate|]. intros t [].
  - injection E as <- <-. split; [intros H; split; [exact H|]; split; [reflexivity|intros t []]|intros t []].
  - destruct ph as [| | |p| | | | |]; try discriminate E. destruct sg as [s|]; [|discriminate E]. destruct (xc_host c).
    + destruct (x_end (signal_result s) res) as [res' o'] eqn:X. injection E as <- <-. split; [discriminate|]. intros t C. unfold x_end in X. destruct res; injection X as <- <-; cbn in C; intuition discriminate.
    + injection E as <- <-. split; [discriminate|]. intros t [].
Qed.
Lemma fresh_no_result c ins x tr : xrun c ins x tr -> fresh_x x = true -> xs_result x = None.
Proof.
  induction 1 as [|ins x tr i x' o R IH E]; [reflexivity|]. intros H. destruct (x_step_fresh _ _ _ _ _ E) as [K _]. destruct (K H) as (F & -> & _). auto.
Qed.

(** ** One step *)
(** ** Traces *)
Lemma prepared_app i rc tr o : being_prepared i rc tr -> (forall e, In (Some i, e) o -> still_preparing e) -> being_prepared i rc (tr ++ o).
Proof.
  intros (a & b & -> & H) Ho. exists a, (b ++ o). split; [rewrite <- app_assoc; reflexivity|]. intros e He. apply in_app_iff in He as [He|He]; auto.
Qed.
Lemma prepared_called i rc tr : being_prepared i rc tr -> In (Some i, inr (LObs (ORun rc))) tr.
Proof. intros (a & b & -> & _). apply in_or_app. right. left. reflexivity. Qed.
Lemma tagged (i : nat) out (k : who) e : In (k, e) (map (fun e : lobs => (Some i, @inr obs lobs e)) out) -> k = Some i /\ exists l, e = inr l /\ In l out.
Proof. intros H. apply in_map_iff in H as (l & [= <- <-] & H). eauto. Qed.
Lemma mid_app {A} (a b pre : list A) y post : a ++ b = pre ++ y :: post -> (exists post', a = pre ++ y :: post') \/ (exists pre', pre = a ++ pre' /\ b = pre' ++ y :: post).
Proof.
  revert pre. induction a as [|z a IH]; intros pre E; [right; exists pre; auto|]. destruct pre as [|z' pre].
  - injection E as -> E. left. exists a. reflexivity.
  - injection E as -> E. destruct (IH _ E) as [(p & ->)|(p & -> & ->)]; [left; exists p; reflexivity|right; exists p; split; reflexivity].
Qed.

Section Local.
Variables (cx : ectx) (rhooks : run_context -> run_context) (conf : run_context -> xconf).
Notation B := (builtin cx rhooks conf).
Lemma engine_quiet me sh p op sh' p' o : step_step cx me sh p op = Some (sh', p', o) -> phase_early p = false -> (forall r, p' <> SpDone r) ->
  forall e, In e (map LObs o) -> still_preparing (inr e).
Proof.
  intros E L N e He. destruct p; try discriminate L; destruct op; try discriminate E; cbn [step_step] in E;
    repeat match type of E with
    | (let '(_, _) := ?x in _) = _ => destruct x as [? ?]
    | match ?x with _ => _ end = _ => destruct x eqn:?; try discriminate E
    end; injection E as <- <- <-; cbn in He; try (destruct He as [<-|He]; [exact Logic.I|]; destruct He); try (destruct He; fail).
  exfalso. eapply N. reflexivity.
Qed.
Lemma engine_calls me sh p op sh' st t0 a sg str o : step_step cx me sh p op = Some (sh', SpCalling st t0 a sg str, o) -> (forall x, op <> OpRunner x) -> o = [ORun (given cx st)].
Proof.
  intros E N. destruct p; destruct op; try discriminate E; cbn [step_step] in E;
    repeat match type of E with
    | (let '(_, _) := ?x in _) = _ => destruct x as [? ?]
    | match ?x with _ => _ end = _ => destruct x eqn:?; try discriminate E
    end; try discriminate E; try (exfalso; eapply N; reflexivity). injection E as <- <- <- <- <- <- <-. reflexivity.
Qed.
Lemma irun_hist me st ops sh p x tr : irun B me st ops sh p x tr -> exists lops ins, lhist cx me rhooks conf st lops (LState sh p x) tr ins.
Proof. intros H. apply builtin_hist in H. destruct (lrun_hist _ _ _ _ _ _ _ _ H) as [ins K]. eauto. Qed.
Lemma irun_spent me st ops sh r t tr : irun B me st ops sh (SpDone r) (Some t) tr -> fresh_x (lt_x t) = false.
Proof.
  intros H. destruct (irun_hist _ _ _ _ _ _ _ H) as (lops & ins & K). destruct (result_of_run _ _ _ _ _ _ _ _ _ _ K eq_refl) as (t' & st' & rr & E & _ & _ & _ & X & Er & _).
  injection E as <-. destruct (fresh_x (lt_x t)) eqn:F; [|reflexivity]. rewrite (fresh_no_result _ _ _ _ X F) in Er. discriminate Er.
Qed.
Lemma irun_late me st ops sh p t tr : irun B me st ops sh p (Some t) tr -> phase_early p = false.
Proof.
  intros H. destruct (irun_hist _ _ _ _ _ _ _ H) as (lops & ins & K). apply lhist_inv in K as [_ _ E _ _]. destruct (phase_early p) eqn:Ep; [|reflexivity]. discriminate (E Ep).
Qed.
Lemma irun_x me st ops sh p t tr : irun B me st ops sh p (Some t) tr -> exists ins, xrun (lt_conf t) ins (lt_x t) (task_effects tr).
Proof.
  intros H. destruct (irun_hist _ _ _ _ _ _ _ H) as (lops & ins & K). apply lhist_inv in K as [_ _ _ _ L]. exists ins. apply (L t eq_refl).
Qed.

(** *** The invariant *)
Definition comes_from (i : nat) (rc : run_context) (e : xeff) (pre : list (who * (obs + lobs))) : Prop :=
  In (Some i, inr (LObs (ORun rc))) pre /\ (exists ins x effs, xrun (conf (rhooks rc)) ins x effs /\ In e effs) /\
  forall t, e = EfSpawn t -> being_prepared i rc pre /\ t = xc_spawned (conf (rhooks rc)).
Definition attributed (tr : list (who * (obs + lobs))) : Prop := forall pre w e post, tr = pre ++ (w, inr (LEff e)) :: post -> exists i rc, w = Some i /\ comes_from i rc e pre.
Definition side (i : nat) (sp : step_phase) (x : option ltask) (tr : list (who * (obs + lobs))) : Prop :=
  match x with
  | None => forall st t0 a sg str, sp = SpCalling st t0 a sg str -> being_prepared i (given cx st) tr
  | Some t => exists rc, lt_conf t = conf (rhooks rc) /\ In (Some i, inr (LObs (ORun rc))) tr /\ (fresh_x (lt_x t) = true -> being_prepared i rc tr)
  end.
Lemma side_app i sp x tr o : side i sp x tr -> (forall e, In (Some i, e) o -> still_preparing e) -> side i sp x (tr ++ o).
Proof.
  intros H Ho. destruct x as [t|]; cbn [side] in *.
  - destruct H as (rc & H1 & H2 & H3). exists rc. split; [exact H1|]. split; [apply in_or_app; auto|]. intros Hf. apply prepared_app; auto.
  - intros. apply prepared_app; eauto.
Qed.
Lemma side_late i sp t tr o : side i sp (Some t) tr -> fresh_x (lt_x t) = false -> side i sp (Some t) (tr ++ o).
Proof. intros (rc & H1 & H2 & H3) Hf. exists rc. split; [exact H1|]. split; [apply in_or_app; auto|]. congruence. Qed.
Lemma attributed_app tr o : attributed tr -> (forall pre w e post, o = pre ++ (w, inr (LEff e)) :: post -> exists i rc, w = Some i /\ comes_from i rc e (tr ++ pre)) -> attributed (tr ++ o).
Proof. intros H Ho pre w e post E. apply mid_app in E as [(p & E)|(p & -> & E)]; eauto. Qed.

Lemma see_conf p t : lt_conf (see_signal p t) = lt_conf t /\ fresh_x (lt_x (see_signal p t)) = fresh_x (lt_x t).
Proof. unfold see_signal. destruct (phase_signal p); auto. Qed.
Lemma task_effects_app a b : task_effects (a ++ b) = task_effects a ++ task_effects b.
Proof. apply flat_map_app. Qed.
Lemma task_effs o : task_effects (map LEff o) = o.
Proof. induction o as [|e o IH]; cbn; [reflexivity|f_equal; exact IH]. Qed.

(** One action on a step. *)
Lemma side_step i st ops sh sp x os op sh' sp' x' out tr : irun B (S i) st ops sh sp x os -> rs_step B (S i) sh sp x op = Some (sh', sp', x', out) ->
  side i sp x tr -> attributed tr ->
  side i sp' x' (tr ++ map (fun e => (Some i, inr e)) out) /\ attributed (tr ++ map (fun e => (Some i, inr e)) out).
Proof.
  intros R E0 Hs Ha. assert (R' := irun_op _ _ _ _ _ _ _ _ _ _ _ _ _ R E0). apply builtin_step in E0 as [E Hw].
  assert (Quiet : forall o, attributed (tr ++ map (fun e => (Some i, inr e)) (map LObs o))).
  { intros o. apply attributed_app; [exact Ha|]. intros pre w e post Eq. exfalso.
    assert (K : In (w, inr (LEff e)) (map (fun e => (Some i, @inr obs lobs e)) (map LObs o))) by (rewrite Eq; apply in_or_app; right; left; reflexivity).
    apply tagged in K as (_ & l & [= <-] & K). apply in_map_iff in K as (y & C & _). discriminate C. }
  destruct op as [eo| |xi| |e]; [| | | |destruct (Hw e eq_refl)].
  - assert (K : (forall y, eo <> OpRunner y) /\ match step_step cx (S i) sh sp eo with Some (sh', p', obs) => Some (LState sh' p' (option_map (see_signal p') x), map LObs obs) | None => None end = Some (LState sh' sp' x', out)).
    { cbn [lstep lo_sh lo_step lo_task] in E. destruct eo as [|c|[]| | | |ro]; try discriminate E; (split; [discriminate|]); try exact E; destruct x; try discriminate E; exact E. }
    destruct K as [Hn K]. destruct (step_step cx (S i) sh sp eo) as [[[sh1 sp1] o]|] eqn:Es; [|discriminate K]. injection K as <- <- <- <-.
    split; [|apply Quiet]. destruct x as [t|]; cbn [option_map] in *.
    + destruct Hs as (rc & H1 & H2 & H3). destruct (see_conf sp1 t) as [C1 C2]. exists rc. rewrite C1. split; [exact H1|]. split; [apply in_or_app; auto|].
      intros Hf. apply prepared_app; [apply H3; congruence|]. intros e He. apply tagged in He as (_ & l & -> & He).
      eapply engine_quiet; [exact Es|eapply irun_late, R| |exact He]. intros r ->. apply irun_spent in R'. congruence.
    + intros st1 t0 a sg str ->. rewrite (engine_calls _ _ _ _ _ _ _ _ _ _ _ Es Hn). exists tr, []. split; [reflexivity|]. intros e [].
  - cbn [lstep lo_sh lo_step lo_task] in E. destruct sp; try discriminate E. destruct x; [discriminate E|]. injection E as <- <- <- <-. cbn [map]. rewrite app_nil_r. split; [|exact Ha].
    cbn [side] in Hs. eexists. cbn [lt_conf lt_x]. split; [reflexivity|]. specialize (Hs _ _ _ _ _ eq_refl). split; [apply prepared_called, Hs|intros _; exact Hs].
  - assert (K : match x with Some (LTask c x0 []) => match xstep c x0 xi with Some (x', o0) => Some (LState sh sp (Some (LTask c x' (flat_map sender_ops o0))), map LEff o0) | None => None end | _ => None end = Some (LState sh' sp' x', out)).
    { destruct xi; try discriminate E; exact E. }
    clear E. destruct x as [[c x0 [|pd pds]]|]; try discriminate K. destruct (xstep c x0 xi) as [[x1 o0]|] eqn:Ex; [|discriminate K]. injection K as <- <- <- <-.
    destruct Hs as (rc & H1 & H2 & H3). cbn [lt_conf lt_x] in *. destruct (x_step_fresh _ _ _ _ _ Ex) as [F1 F2]. split.
    + exists rc. cbn [lt_conf lt_x]. split; [exact H1|]. split; [apply in_or_app; auto|]. intros Hf. destruct (F1 Hf) as (Hf0 & _ & Hns).
      apply prepared_app; [auto|]. intros e He. apply tagged in He as (_ & l & -> & He). apply in_map_iff in He as (y & <- & He). destruct y; try exact Logic.I. eapply Hns, He.
    + apply attributed_app; [exact Ha|]. intros pre w e post Eq.
      assert (In (w, inr (LEff e)) (map (fun e => (Some i, @inr obs lobs e)) (map LEff o0))) as He by (rewrite Eq; apply in_or_app; right; left; reflexivity).
      apply tagged in He as (-> & l & [= <-] & He). apply in_map_iff in He as (y & [= ->] & He). exists i, rc. split; [reflexivity|]. split; [apply in_or_app; auto|]. split.
      * destruct (irun_x _ _ _ _ _ _ _ R') as [ins X]. cbn [lt_conf lt_x] in X. rewrite H1 in X. eexists _, _, _. split; [exact X|]. rewrite task_effects_app, task_effs. apply in_or_app. auto.
      * intros t ->. destruct (F2 _ He) as (Hf & -> & ->). destruct pre as [|p0 pre]; [|destruct pre; discriminate Eq]. rewrite app_nil_r, H1. split; [auto|reflexivity].
  - cbn [lstep lo_sh lo_step lo_task] in E. destruct x as [[c x0 [|pd pds]]|]; try discriminate E.
    destruct (step_step cx (S i) sh sp (OpRunner pd)) as [[[sh1 p1] out1]|]; injection E as <- <- <- <-; cbn [map]; rewrite app_nil_r; (split; [|exact Ha]); exact Hs.
Qed.
End Local.

(** ** The whole run *)
Lemma calling_after_job glob cx me j sh p op sh' t0 js rs sp rest o : job_step glob cx me j sh p op = Some (sh', JpStepRun t0 js rs sp rest, o) ->
  (forall x, op <> JStep x) -> exists st, sp = SpBefore st.
Proof.
  intros E Hn. unfold job_step in E. destruct p as [|c ev| | |t1|t1|t1|t1 js1 rs1 rest1|t1 js1 rs1 st rest1 c ev|t1 js1 rs1 st rest1|t1 js1 rs1 sp1 rest1|r|r|r|r];
    destruct op as [|gh|sop]; try (destruct (Hn sop eq_refl); fail); try discriminate E.
  - destruct (jb_on j); [destruct (is_match_first _ _ _ _) as [[]|]|]; discriminate E.
  - destruct (is_match_second _ _ _ _) as [c' []]; discriminate E.
  - destruct rest1 as [|st rest1]; [discriminate E|]. destruct (forced_skip js1 st); [discriminate E|].
    destruct (st_on st); [destruct (is_match_first _ _ _ _) as [[]|]|]; try discriminate E; injection E as <- <- <- <- <- <-; eauto.
  - destruct rest1; discriminate E.
  - destruct (is_match_second _ _ _ _) as [c' []]; [|discriminate E]. injection E as <- <- <- <- <- <-. eauto.
  - destruct sp1; discriminate E.
  - destruct sp1; discriminate E.
Qed.

Section Whole.
Variables (cx : ectx) (rhooks : run_context -> run_context) (conf : run_context -> xconf) (glob : glob_oracle) (wf : workflow).
Notation B := (builtin cx rhooks conf).
Notation side := (side cx rhooks conf).
Notation attributed := (attributed rhooks conf).

(** What the engine outside a step does to the runner's sides. *)
Lemma flow_sides ops s tr op s' o : sysinv B cx ops s tr -> sysstep B glob cx wf s (YFlow op) = Some (s', o) ->
  (forall w e, In (w, e) o -> exists y, e = inl y) /\
  (forall k t' x, nth_error (ws_tasks (sy_w s')) k = Some t' -> nth_error (sy_cur s') k = Some x ->
     (exists t, nth_error (ws_tasks (sy_w s)) k = Some t /\ tk_phase t' = tk_phase t /\ nth_error (sy_cur s) k = Some x /\ (forall e, ~ In (Some k, e) o)) \/
     (x = None /\ forall t0 js rs sp rest, tk_phase t' = JpStepRun t0 js rs sp rest -> exists st, sp = SpBefore st)) /\
  (forall e, In e (sy_past s') -> In e (sy_past s) \/
     exists t t0 js rs r rest, nth_error (ws_tasks (sy_w s)) (fst e) = Some t /\ tk_phase t = JpStepRun t0 js rs (SpDone r) rest /\ nth_error (sy_cur s) (fst e) = Some (snd (snd e))).
Proof.
  intros [I1 I2 I3 I4 I5] E. cbn [sysstep] in E. destruct (is_step_op op) eqn:Hs; [discriminate|]. destruct (wstep glob cx wf (sy_w s) op) as [[w' wtr]|] eqn:Ew; [|discriminate].
  assert (Inl : forall wtr : trace, forall w e, In (w, e) (map (fun x : who * obs => (fst x, @inl obs lobs (snd x))) wtr) -> exists y, e = inl y /\ In (w, y) wtr).
  { intros l w e H. apply in_map_iff in H as ([w0 y] & [= <- <-] & H). eauto. }
  destruct op as [|gh|i jo|i|e].
  - cbn [step_over] in E. injection E as <- <-. cbn [wstep] in Ew. assert (Hw := main_who glob cx wf _ _ _ Ew). apply main_tasks in Ew. cbn [sy_w sy_cur sy_past].
    split; [intros w e H; destruct (Inl _ _ _ H) as (y & -> & _); eauto|]. split; [|intros e He; rewrite app_nil_r in He; auto].
    intros k t' x Ht Hx.
    assert (Hn : (k < length (ws_tasks (sy_w s)) /\ nth_error (ws_tasks (sy_w s)) k = Some t') \/ (length (ws_tasks (sy_w s)) <= k /\ tk_phase t' = JpCheck)).
    { destruct Ew as [[Et _]|(kj & Et & _)]; rewrite Et in Ht.
      - left. split; [apply nth_error_Some; congruence|exact Ht].
      - destruct (Nat.lt_ge_cases k (length (ws_tasks (sy_w s)))) as [Hl|Hl]; [rewrite nth_error_app1 in Ht by exact Hl; auto|].
        right. split; [exact Hl|]. rewrite nth_error_app2 in Ht by exact Hl. apply nth_error_In in Ht as [<-|[]]. reflexivity. }
    destruct Hn as [[Hl Ht']|[Hl Hp]].
    + left. exists t'. apply pad_nth in Hx as [[_ Hx]|[Hl' _]]; [|lia]. split; [exact Ht'|]. split; [reflexivity|]. split; [exact Hx|]. intros e H. destruct (Inl _ _ _ H) as (y & _ & H'). apply Hw in H'. discriminate H'.
    + right. apply pad_nth in Hx as [[Hl' _]|[_ Hx]]; [lia|]. split; [exact Hx|]. intros. congruence.
  - cbn [step_over] in E. injection E as <- <-. cbn [wstep] in Ew. destruct (ws_main (sy_w s)); try discriminate Ew.
    destruct (is_match_second _ _ _ _) as [cache' b]. injection Ew as <- <-. cbn [sy_w sy_cur sy_past ws_tasks]. rewrite pad_eq by exact I1. rewrite app_nil_r.
    split; [intros w e H; destruct (Inl _ _ _ H) as (y & -> & _); eauto|]. split; [|auto]. intros k t' x Ht Hx. left. exists t'. split; [exact Ht|]. split; [reflexivity|]. split; [exact Hx|]. intros e [[= C _]|[]].
  - cbn [wstep] in Ew. destruct (nth_error (ws_tasks (sy_w s)) i) as [t|] eqn:Et; [|discriminate Ew].
    destruct (job_step glob cx (S i) (tk_job t) (ws_sh (sy_w s)) (tk_phase t) jo) as [[[sh' p'] out]|] eqn:Ej; [|discriminate Ew]. injection Ew as <- <-.
    assert (Hlt : i < length (ws_tasks (sy_w s))) by (apply nth_error_Some; congruence).
    destruct (nth_error (sy_cur s) i) as [x|] eqn:Ex; [|apply nth_error_None in Ex; lia].
    assert (Hop : forall sop, jo <> JStep sop) by (intros sop ->; discriminate Hs).
    assert (Hbef : forall t0 js rs sp rest, p' = JpStepRun t0 js rs sp rest -> exists st, sp = SpBefore st).
    { intros t0 js rs sp rest ->. eapply calling_after_job; eauto. }
    assert (Ev : forall k, k <> i -> forall e, ~ In (Some k, e) (map (fun x : who * obs => (fst x, @inl obs lobs (snd x))) (map (fun x => (Some i, x)) out))).
    { intros k Hk e H. destruct (Inl _ _ _ H) as (y & _ & H'). apply in_map_iff in H' as (z & [= C _] & _). congruence. }
    assert (K : (exists t0 js rs r rest, tk_phase t = JpStepRun t0 js rs (SpDone r) rest /\
                   s' = System (WState sh' (ws_main (sy_w s)) (list_set i (set_phase t p') (ws_tasks (sy_w s))) (ws_chan (sy_w s))) (list_set i None (sy_cur s)) (sy_past s ++ [(i, (ws_sh (sy_w s), SpDone r, x))])) \/
                (in_step (tk_phase t) = false /\ s' = System (WState sh' (ws_main (sy_w s)) (list_set i (set_phase t p') (ws_tasks (sy_w s))) (ws_chan (sy_w s))) (sy_cur s) (sy_past s))).
    { unfold step_over in E. fold (set_phase t p') in E. destruct jo as [|gh|sop]; [| |destruct (Hop sop eq_refl)].
      - rewrite Et in E. destruct (tk_phase t) as [| | | | | | | | | |t0 js rs sp rest| | | |] eqn:Ep;
          try (right; split; [reflexivity|]; injection E as <- _; cbn [ws_tasks]; rewrite pad_eq by (rewrite list_set_length; exact I1); rewrite app_nil_r; reflexivity).
        left. cbn [job_step] in Ej. destruct sp; try discriminate Ej. rewrite Ex in E. injection E as <- _. cbn [ws_tasks]. rewrite pad_eq by (rewrite !list_set_length; exact I1).
        eexists _, _, _, _, _. split; reflexivity.
      - right. assert (Hn : in_step (tk_phase t) = false).
        { destruct (tk_phase t); try reflexivity. cbn [job_step] in Ej. destruct p; discriminate Ej. }
        split; [exact Hn|]. injection E as <- _. cbn [ws_tasks]. rewrite pad_eq by (rewrite list_set_length; exact I1). rewrite app_nil_r; reflexivity. }
    assert (o = map (fun x : who * obs => (fst x, @inl obs lobs (snd x))) (map (fun x => (Some i, x)) out)) as ->.
    { destruct (step_over (sy_w s) (WTaskOp i jo)) as [[a b]|]; injection E as _ <-; reflexivity. }
    clear E. split; [intros w e H; destruct (Inl _ _ _ H) as (y & -> & _); eauto|].
    destruct K as [(t0 & js & rs & r & rest & Ep & ->)|[Hn ->]]; cbn [sy_w sy_cur sy_past ws_tasks].
    + split.
      * intros k t' y Hk Hy. destruct (Nat.eq_dec k i) as [->|Hne].
        -- right. erewrite list_set_eq in Hk by exact Et. injection Hk as <-. erewrite list_set_eq in Hy by exact Ex. injection Hy as <-. split; [reflexivity|exact Hbef].
        -- left. rewrite list_set_ne in Hk by exact Hne. rewrite list_set_ne in Hy by exact Hne. exists t'. split; [exact Hk|]. split; [reflexivity|]. split; [exact Hy|]. apply Ev, Hne.
      * intros e He. apply in_app_iff in He as [He|[<-|[]]]; [auto|]. right. cbn [fst snd]. exists t, t0, js, rs, r, rest. auto.
    + split; [|auto]. intros k t' y Hk Hy. destruct (Nat.eq_dec k i) as [->|Hne].
      * right. erewrite list_set_eq in Hk by exact Et. injection Hk as <-. split; [eapply I3; eauto|exact Hbef].
      * left. rewrite list_set_ne in Hk by exact Hne. exists t'. split; [exact Hk|]. split; [reflexivity|]. split; [exact Hy|]. apply Ev, Hne.
  - cbn [step_over] in E. injection E as <- <-. cbn [wstep] in Ew. destruct (nth_error (ws_tasks (sy_w s)) i) as [[key j p sent]|] eqn:Ei; [|discriminate]. destruct p as [| | | | | | | | | | | | | |r]; try discriminate.
    destruct sent; [discriminate|].
    assert (Et : ws_tasks w' = list_set i (WTask key j (JpReturned r) true) (ws_tasks (sy_w s)) /\ wtr = []).
    { destruct (ws_main (sy_w s)); try (destruct (Nat.ltb _ _); [|discriminate Ew]); injection Ew as <- <-; auto. }
    destruct Et as (Et & ->). cbn [map sy_w sy_cur sy_past]. rewrite app_nil_r. split; [intros w e []|]. split; [|auto].
    assert (Hl : length (ws_tasks w') = length (ws_tasks (sy_w s))) by (rewrite Et; apply list_set_length).
    rewrite pad_eq by congruence. intros k t' y Ht Hy. left. rewrite Et in Ht. destruct (Nat.eq_dec k i) as [->|Hne].
    + erewrite list_set_eq in Ht by exact Ei. injection Ht as <-. eexists. split; [exact Ei|]. split; [reflexivity|]. split; [exact Hy|]. intros e [].
    + rewrite list_set_ne in Ht by exact Hne. exists t'. split; [exact Ht|]. split; [reflexivity|]. split; [exact Hy|]. intros e [].
  - cbn [step_over] in E. injection E as <- <-. cbn [wstep] in Ew. injection Ew as <- <-. cbn [map sy_w sy_cur sy_past ws_tasks]. rewrite app_nil_r. split; [intros w e' []|]. split; [|auto].
    rewrite pad_eq by exact I1. intros k t' y Ht Hy. left. exists t'. auto 6.
Qed.

Lemma past_quiet me sh r x op sh' p' x' out : rs_step B me sh (SpDone r) x op = Some (sh', p', x', out) -> (forall t, x = Some t -> fresh_x (lt_x t) = false) ->
  forall l, In l out -> still_preparing (inr l).
Proof.
  intros E Hf. apply builtin_step in E as [E Hw]. destruct op as [eo| |xi| |e]; [| | | |destruct (Hw e eq_refl)]; cbn [lstep lo_sh lo_step lo_task] in E.
  - destruct eo as [|c|[]| | | |ro]; try discriminate E; destruct x; discriminate E.
  - discriminate E.
  - assert (K : match x with Some (LTask c x0 []) => match xstep c x0 xi with Some (x', o0) => Some (LState sh (SpDone r) (Some (LTask c x' (flat_map sender_ops o0))), map LEff o0) | None => None end | _ => None end = Some (LState sh' p' x', out)).
    { destruct xi; try discriminate E; exact E. }
    destruct x as [[c x0 [|pd pds]]|]; try discriminate K. destruct (xstep c x0 xi) as [[x1 o0]|] eqn:Ex; [|discriminate K]. injection K as _ _ _ <-.
    intros l Hl. apply in_map_iff in Hl as (y & <- & Hl). destruct y; try exact Logic.I. destruct (x_step_fresh _ _ _ _ _ Ex) as [_ F2]. destruct (F2 _ Hl) as (C & _). specialize (Hf _ eq_refl). cbn [lt_x] in Hf. congruence.
  - destruct x as [[c x0 [|pd pds]]|]; try discriminate E. injection E as _ _ _ <-. intros l [].
Qed.

Record proc_inv (s : system) (tr : list (who * (obs + lobs))) : Prop := {
  pv_side : forall i t x t0 js rs sp rest, nth_error (ws_tasks (sy_w s)) i = Some t -> nth_error (sy_cur s) i = Some x -> tk_phase t = JpStepRun t0 js rs sp rest -> side i sp x tr;
  pv_past : forall e, In e (sy_past s) -> side (fst e) (snd (fst (snd e))) (snd (snd e)) tr;
  pv_from : attributed tr }.

Lemma proc_run sh0 ops s tr : sysrun B glob cx wf sh0 ops s tr -> proc_inv s tr.
Proof.
  assert (F := builtin_faithful cx rhooks conf).
  induction 1 as [|ops s tr op s' o Hr [V1 V2 V3] E].
  { split; cbn; [intros [|i]; discriminate|intros e []|]. intros pre w e post C. destruct pre; discriminate C. }
  assert (I := sys_inv B glob cx wf F _ _ _ _ Hr). assert (I0 := I). destruct I as [I1 I2 I3 I4 I5].
  assert (I' := sys_inv B glob cx wf F _ _ _ _ (sysrun_step _ _ _ _ _ _ _ _ _ _ _ Hr E)).
  assert (Late : forall e t, In e (sy_past s) -> snd (snd e) = Some t -> fresh_x (lt_x t) = false).
  { intros e t He Et. destruct (I2 _ He) as (st & r & iops & os & _ & Hi & _). rewrite Et in Hi. eapply irun_spent, Hi. }
  assert (Past : forall e o, In e (sy_past s) -> side (fst e) (snd (fst (snd e))) (snd (snd e)) (tr ++ o)).
  { intros e o' He. destruct (snd (snd e)) as [t|] eqn:Et.
    - assert (V := V2 _ He). rewrite Et in V. apply side_late; [exact V|]. eapply Late; eauto.
    - destruct (I2 _ He) as (st & r & iops & os & Hd & _). rewrite Hd. cbn. discriminate. }
  destruct op as [wo|i io|k io].
  - destruct (flow_sides _ _ _ _ _ _ I0 E) as (J1 & J2 & J3). split.
    + intros i t x t0 js rs sp rest Ht Hx Hp. destruct (J2 _ _ _ Ht Hx) as [(t' & Ht' & Hp' & Hx' & Hn)|[-> Hn]].
      * rewrite Hp' in Hp. apply side_app; [exact (V1 _ _ _ _ _ _ _ _ Ht' Hx' Hp)|]. intros e He. destruct (Hn _ He).
      * destruct (Hn _ _ _ _ _ Hp) as [st ->]. cbn. discriminate.
    + intros e He. destruct (J3 _ He) as [He'|(t & t0 & js & rs & r & rest & Ht & Hp & Hx)]; [apply Past, He'|].
      destruct (si_past B cx _ _ _ I' _ He) as (st & r' & iops & os & Hd & Hi & _). rewrite Hd. destruct (snd (snd e)) as [x|] eqn:Ex; [|cbn; discriminate].
      apply irun_spent in Hi. apply side_late; [|exact Hi]. assert (V := V1 _ _ _ _ _ _ _ _ Ht Hx Hp). exact V.
    + apply attributed_app; [exact V3|]. intros pre w e post ->. exfalso. destruct (J1 w (inr (LEff e))) as [y C]; [apply in_or_app; right; left; reflexivity|discriminate C].
  - cbn [sysstep] in E. destruct (nth_error (ws_tasks (sy_w s)) i) as [t|] eqn:Et; [|discriminate]. destruct (nth_error (sy_cur s) i) as [x|] eqn:Ex; [|discriminate].
    destruct (tk_phase t) as [| | | | | | | | | |t0 js rs sp rest| | | |] eqn:Ep; try discriminate E.
    destruct (rs_step B (S i) (ws_sh (sy_w s)) sp x io) as [[[[sh' sp'] x'] out]|] eqn:Es; [|discriminate E]. injection E as <- <-.
    assert (G := I4 _ _ _ Et Ex). rewrite Ep in G. destruct G as (st & _ & _ & _ & _ & _ & _ & _ & (iops & os & Hi & _)).
    destruct (side_step _ _ _ _ _ _ _ _ _ _ _ _ _ _ _ _ Hi Es (V1 _ _ _ _ _ _ _ _ Et Ex Ep) V3) as [S1 S2]. split; cbn [sy_w sy_cur sy_past ws_tasks]; [|intros e He; apply Past, He|exact S2].
    intros k t' y u js' rs' q rest' Hk Hy Hq. destruct (Nat.eq_dec k i) as [->|Hne].
    + erewrite list_set_eq in Hk by exact Et. injection Hk as <-. erewrite list_set_eq in Hy by exact Ex. injection Hy as <-. cbn [tk_phase set_phase] in Hq. injection Hq as <- <- <- <- <-. exact S1.
    + rewrite list_set_ne in Hk by exact Hne. rewrite list_set_ne in Hy by exact Hne. apply side_app; [eapply V1; eauto|]. intros e He. apply tagged in He as [[= C] _]. congruence.
  - cbn [sysstep] in E. destruct (nth_error (sy_past s) k) as [[i [[sh p] x]]|] eqn:Ek; [|discriminate].
    destruct (rs_step B (S i) sh p x io) as [[[[sh' p'] x'] out]|] eqn:Es; [|discriminate E]. injection E as <- <-.
    assert (Hin := nth_error_In _ _ Ek). destruct (I2 _ Hin) as (st & r & iops & os & Hp & Hi & _). cbn [fst snd] in Hp, Hi. subst p.
    assert (V := V2 _ Hin). cbn [fst snd] in V. destruct (side_step _ _ _ _ _ _ _ _ _ _ _ _ _ _ _ _ Hi Es V V3) as [S1 S2].
    assert (Q := past_quiet _ _ _ _ _ _ _ _ _ Es (fun t Ht => Late _ t Hin Ht)). split; cbn [sy_w sy_cur sy_past]; [| |exact S2].
    + intros k' t' y u js' rs' q rest' Hk Hy Hq. apply side_app; [eapply V1; eauto|]. intros e He. apply tagged in He as (_ & l & -> & Hl). apply Q, Hl.
    + intros e He. apply In_nth_error in He as [n He]. destruct (Nat.eq_dec n k) as [->|Hne].
      * erewrite list_set_eq in He by exact Ek. injection He as <-. exact S1.
      * rewrite list_set_ne in He by exact Hne. apply Past, (nth_error_In _ _ He).
Qed.
End Whole.
