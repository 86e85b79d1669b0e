From Verif Require Import Base Types Signals_model Signals_proof Stream_model Stream_spec Stream_proof Cond_model Plugins_model Plugins_spec
  Exec_model Exec_spec Step_proof Timing_proof Paths_model Docker_model Runner_model Runner_spec Runner_proof Local_model Local_spec.

(** ** What the task does to the stream *)
Definition log_op (l : log) : runner_op := match l with Log LLog m => RLog m | Log LError m => RError m end.
Definition end_ops (r : option run_result) : list runner_op := match r with Some r => [REndCheck 0 r; REndCommit 0] | None => [] end.
Lemma sender_app a b : flat_map sender_ops (a ++ b) = flat_map sender_ops a ++ flat_map sender_ops b.
Proof. apply flat_map_app. Qed.
Lemma logs_app a b : logs_of (a ++ b) = logs_of a ++ logs_of b.
Proof. apply flat_map_app. Qed.
Lemma sender_logs ls : flat_map sender_ops (map EfLog ls) = map log_op ls.
Proof. induction ls as [|[[] m] ls IH]; cbn; [reflexivity| |]; f_equal; exact IH. Qed.
Lemma logs_of_logs ls : logs_of (map EfLog ls) = ls.
Proof. induction ls as [|l ls IH]; cbn; [reflexivity|]; f_equal; exact IH. Qed.

Lemma x_sender c ins x tr : xrun c ins x tr -> flat_map sender_ops tr = map log_op (logs_of tr) ++ end_ops (xs_result x).
Proof.
  induction 1 as [|ins x tr i x' o R IH E]; [reflexivity|]. rewrite sender_app, logs_app, map_app, IH.
  assert (Rp := x_result_phase _ _ _ _ R). clear R IH. apply xstep_trans in E.
  inv E; cbn [xs_phase xs_result xs_signal] in *; try (cbn; rewrite ?app_nil_r; reflexivity).
  1: { subst res. cbn [end_ops]. rewrite !app_nil_r, sender_logs, logs_of_logs. reflexivity. }
  all: match goal with H : x_end _ ?r = _ |- _ => destruct r; cbn in H; injection H as <- <- end; cbn; rewrite ?app_nil_r; reflexivity.
Qed.

(** ** Sender operations and stream operations *)
Definition runner_ops (ls : list slabel) : list runner_op := flat_map (fun l => match l with SOwn (OpRunner o) => [o] | _ => [] end) ls.
Definition lst {A} (o : option A) : list A := match o with Some x => [x] | None => [] end.
Definition stream_of (os : list runner_op) : list stream_op := flat_map (fun o => lst (runner_stream_op o)) os.
Definition spoll_b (o : stream_op) : bool := match o with SPoll _ => true | _ => false end.
Definition unpolled (ops : list stream_op) : list stream_op := filter (fun o => negb (spoll_b o)) ops.
Lemma unpolled_app a b : unpolled (a ++ b) = unpolled a ++ unpolled b.
Proof. apply filter_app. Qed.
Lemma runner_ops_app a b : runner_ops (a ++ b) = runner_ops a ++ runner_ops b.
Proof. apply flat_map_app. Qed.
Lemma unpolled_stream me ls : unpolled (stream_ops me ls) = stream_of (runner_ops ls).
Proof.
  induction ls as [|[op|e] ls IH]; cbn; [reflexivity| |exact IH]. destruct op as [| | | | | |o]; cbn; try exact IH.
  rewrite unpolled_app, IH. f_equal. destruct o; reflexivity.
Qed.
Lemma sent_unpolled ops : sent (unpolled ops) = sent ops.
Proof. induction ops as [|[] ops IH]; cbn; try reflexivity; try exact IH; f_equal; exact IH. Qed.
Lemma stream_of_app a b : stream_of (a ++ b) = stream_of a ++ stream_of b.
Proof. apply flat_map_app. Qed.
Lemma sent_log_ops ls : sent (stream_of (map log_op ls)) = ls.
Proof. induction ls as [|[[] m] ls IH]; cbn; [reflexivity| |]; f_equal; exact IH. Qed.
Lemma in_unpolled o ops : In o (unpolled ops) <-> In o ops /\ spoll_b o = false.
Proof. unfold unpolled. rewrite filter_In, negb_true_iff. reflexivity. Qed.
Lemma log_ops_no_end ls o : In o (stream_of (map log_op ls)) -> (forall c, o <> SEndCommit c) /\ (forall c r, o <> SEndCheck c r).
Proof.
  unfold stream_of. rewrite in_flat_map. intros (x & Hx & Ho). apply in_map_iff in Hx as ([[] m] & <- & _); cbn in Ho; destruct Ho as [<-|[]]; split; discriminate.
Qed.

(** A commit in a prefix of [logs ++ end] means the prefix is everything. *)
Lemma commit_all ls r pre post c : stream_of (map log_op ls ++ end_ops r) = pre ++ post -> In (SEndCommit c) pre ->
  post = [] /\ exists rr, r = Some rr.
Proof.
  rewrite stream_of_app. intros E Hin. destruct r as [rr|].
  - cbn [end_ops] in E. change (stream_of [REndCheck 0 rr; REndCommit 0]) with [SEndCheck 0 rr; SEndCommit 0] in E.
    split; [|eauto]. destruct post as [|x post]; [reflexivity|exfalso].
    destruct (exists_last (l := x :: post)) as (q & y & Hq); [discriminate|]. rewrite Hq in E.
    replace (stream_of (map log_op ls) ++ [SEndCheck 0 rr; SEndCommit 0]) with ((stream_of (map log_op ls) ++ [SEndCheck 0 rr]) ++ [SEndCommit 0]) in E by (rewrite <- app_assoc; reflexivity).
    rewrite app_assoc in E. apply app_inj_tail in E as [E _].
    assert (Hi : In (SEndCommit c) (stream_of (map log_op ls) ++ [SEndCheck 0 rr])) by (rewrite E; apply in_or_app; left; exact Hin).
    apply in_app_iff in Hi as [Hi|[Hi|[]]]; [|discriminate]. apply log_ops_no_end in Hi as [Hi _]. exact (Hi c eq_refl).
  - cbn [end_ops] in E. change (stream_of []) with (@nil stream_op) in E. rewrite app_nil_r in E.
    assert (Hi : In (SEndCommit c) (stream_of (map log_op ls))) by (rewrite E; apply in_or_app; left; exact Hin).
    apply log_ops_no_end in Hi as [Hi _]. destruct (Hi c eq_refl).
Qed.
Lemma check_result ls r c rr : In (SEndCheck c rr) (stream_of (map log_op ls ++ end_ops r)) -> r = Some rr.
Proof.
  rewrite stream_of_app, in_app_iff. intros [H|H].
  - apply log_ops_no_end in H as [_ H]. destruct (H c rr eq_refl).
  - destruct r as [r|]; cbn in H; [|contradiction]. destruct H as [H|[H|[]]]; congruence.
Qed.

(** ** The invariant *)
Section Inv.
Variables (cx : ectx) (me : task) (rhooks : run_context -> run_context) (conf : run_context -> xconf) (st0 : step).
Lemma engine_app a b : engine_events (a ++ b) = engine_events a ++ engine_events b.
Proof. apply flat_map_app. Qed.
Lemma effects_app a b : task_effects (a ++ b) = task_effects a ++ task_effects b.
Proof. apply flat_map_app. Qed.
Lemma engine_obs o : engine_events (map LObs o) = o.
Proof. induction o as [|x o IH]; cbn; [reflexivity|]; try exact IH; f_equal; exact IH. Qed.
Lemma effects_obs o : task_effects (map LObs o) = [].
Proof. induction o as [|x o IH]; cbn; [reflexivity|]; try exact IH; f_equal; exact IH. Qed.
Lemma engine_eff o : engine_events (map LEff o) = [].
Proof. induction o as [|x o IH]; cbn; [reflexivity|]; try exact IH; f_equal; exact IH. Qed.
Lemma effects_eff o : task_effects (map LEff o) = o.
Proof. induction o as [|x o IH]; cbn; [reflexivity|]; try exact IH; f_equal; exact IH. Qed.

(** the step the runner was called for *)
Definition phase_early (p : step_phase) : bool :=
  match p with SpBefore _ | SpStarted _ | SpRunEvent _ _ | SpQueue _ _ | SpGetSignal _ _ | SpCall _ _ _ | SpPanic PMissingSignal => true | _ => false end.
Definition phase_step (p : step_phase) : option step :=
  match p with
  | SpCalling st _ _ _ _ | SpInProgress st _ _ _ _ | SpEnter st _ _ _ _ | SpLoop st _ _ _ _ _
  | SpGotLog st _ _ _ _ _ | SpDeliver st _ _ _ _ _ | SpBroken st _ _ _ _ | SpEnded st _ _ _ => Some st
  | _ => None
  end.
Definition phase_call (p : step_phase) : bool := match p with SpCalling _ _ _ _ _ => true | _ => false end.
Record linv (s : lstate) (tr : list lobs) (ins : list xinput) : Prop := {
  li_srun : exists ls more, srun cx me st0 ls (lo_sh s) (lo_step s) (engine_events tr) /\
    runner_ops ls ++ more = flat_map sender_ops (task_effects tr) /\
    (forall sg, phase_signal (lo_step s) = Some sg -> more = match lo_task s with Some t => lt_pending t | None => [] end) /\
    ~ In (SOwn (OpAnswer false)) ls;
  li_none : lo_task s = None -> ins = [] /\ task_effects tr = [] /\ (phase_early (lo_step s) = true \/ phase_call (lo_step s) = true);
  li_early : phase_early (lo_step s) = true -> lo_task s = None;
  li_fresh : lo_task s = None -> forall sg, phase_signal (lo_step s) = Some sg -> sg_signal sg = None;
  li_task : forall t, lo_task s = Some t -> xrun (lt_conf t) ins (lt_x t) (task_effects tr) /\
    (forall sg, phase_signal (lo_step s) = Some sg -> sg_signal sg = xs_signal (lt_x t)) /\
    (exists st, hooked st0 st /\ lt_conf t = conf (rhooks (given cx st)) /\ In (ORun (given cx st)) (engine_events tr)) }.

Lemma step_step_early sh p op sh' p' o : step_step cx me sh p op = Some (sh', p', o) -> (forall x, op <> OpRunner x) ->
  phase_early p = true -> phase_early p' = true \/ (phase_call p' = true /\ (forall sg, phase_signal p' = Some sg -> sg_signal sg = None)).
Proof.
  intros E Hn H. destruct p; try discriminate H; destruct op; try discriminate E; cbn [step_step] in E; try (injection E as <- <- <-; auto).
  - destruct (lookup _ _); injection E as <- <- <-; auto.
  - right. split; [reflexivity|]. intros sg [= <-]. reflexivity.
Qed.
Lemma step_step_late sh p op sh' p' o : step_step cx me sh p op = Some (sh', p', o) -> phase_early p = false -> phase_early p' = false.
Proof.
  intros E H. destruct p; try discriminate H; destruct op; try discriminate E; cbn [step_step] in E;
    try (destruct (runner_step _ _ _); injection E as <- <- <-; reflexivity); try (injection E as <- <- <-; reflexivity).
  - destruct ok; injection E as <- <- <-; reflexivity.
  - destruct (_ <=? _)%N; [|discriminate]; injection E as <- <- <-; reflexivity.
  - destruct (sm_step _ _) as [sm' [| | |[| |[]]|]]; try discriminate E; injection E as <- <- <-; reflexivity.
  - destruct (stream_poll _ _) as [[? []] ?]; injection E as <- <- <-; reflexivity.
  - destruct (ss_result _); injection E as <- <- <-; reflexivity.
Qed.

(** How an action of the engine changes the step's signal. *)
Lemma engine_signal sh p op sh' p' o : step_step cx me sh p op = Some (sh', p', o) -> (forall x, op <> OpRunner x) ->
  forall t sg', phase_signal p' = Some sg' ->
  (phase_early p = true /\ sg_signal sg' = None /\ passes_on (LState sh p t) (LEngine op) = None) \/
  exists sg, phase_signal p = Some sg /\
    sg_signal sg' = match passes_on (LState sh p t) (LEngine op) with Some g => match sg_signal sg with None => Some g | Some s => Some s end | None => sg_signal sg end.
Proof.
  intros E Hn t sg' Hs. destruct p as [st|st|st t0|st t0|st t0|st t0 a|st t0 a sg str|st t0 a sg str|st t0 a sg str|st t0 a sg str ti|st t0 a sg str l|st t0 a sg str l|st t0 a sg str|st t0 w c|r|r|r|w];
    destruct op as [|c'|ok| | | |x]; try discriminate E; try (destruct (Hn x eq_refl)); cbn [step_step] in E.
  all: try (injection E as <- <- <-; cbn in Hs; first [discriminate Hs|injection Hs as <-; right; exists sg; split; reflexivity]).
  - destruct (lookup _ _); injection E as <- <- <-; discriminate Hs.
  - injection E as <- <- <-. left. injection Hs as <-. auto.
  - destruct ok; injection E as <- <- <-; cbn in Hs; first [discriminate Hs|injection Hs as <-; right; exists sg; split; reflexivity].
  - destruct (_ <=? _)%N; [|discriminate]. injection E as <- <- <-. injection Hs as <-. right. exists sg. split; [reflexivity|]. cbn [passes_on lo_step]. apply raise_ok_spec.
  - right. exists sg. split; [reflexivity|]. cbn [passes_on lo_step lo_sh].
    assert (Q := job_signal_poll cx me sh st t0 a sg str ti). unfold cell in Q.
    destruct (nth_error (sm_heap (sh_sm sh)) a) as [c|] eqn:Hc.
    + destruct (Q c eq_refl) as (sh2 & E2 & _). cbn [step_step] in E2. rewrite E2 in E. injection E as <- <- <-.
      destruct (if sg_notified c then None else sg_signal c) as [g|] eqn:D; injection Hs as <-; [apply raise_ok_spec|reflexivity].
    + cbn [sm_step] in E. rewrite Hc in E. discriminate.
  - destruct (stream_poll _ _) as [[? []] ?]; injection E as <- <- <-; injection Hs as <-; right; exists sg; split; reflexivity.
  - destruct (ss_result _); injection E as <- <- <-; discriminate Hs.
Qed.
(** Nothing is handed on by an action that leads to a phase without the step's signal. *)
Lemma no_pass sh p op sh' p' o t : step_step cx me sh p op = Some (sh', p', o) -> phase_signal p' = None -> passes_on (LState sh p t) (LEngine op) = None.
Proof.
  intros E Hs. destruct p as [st|st|st t0|st t0|st t0|st t0 a|st t0 a sg str|st t0 a sg str|st t0 a sg str|st t0 a sg str ti|st t0 a sg str l|st t0 a sg str l|st t0 a sg str|st t0 w c|r|r|r|w]; try reflexivity.
  destruct op as [|c'|ok| | | |x]; try reflexivity; cbn [step_step] in E.
  - destruct (_ <=? _)%N; [|discriminate]. injection E as <- <- <-. discriminate.
  - destruct (sm_step _ _) as [sm' [| | |[| |[]]|]]; try discriminate E; injection E as <- <- <-; discriminate Hs.
Qed.
(** Sender calls of the task do not touch its signal and emit nothing. *)
Lemma sender_step sh p op sh' p' o : step_step cx me sh p (OpRunner op) = Some (sh', p', o) -> (forall so, op <> RSig so) ->
  sh' = sh /\ o = [] /\ phase_signal p' = phase_signal p /\ phase_signal p <> None /\ phase_early p' = phase_early p /\ phase_call p' = phase_call p.
Proof.
  intros E Hn. destruct p; try discriminate E; cbn [step_step] in E;
    (assert (K : fst (runner_step op sg str) = sg) by (destruct op; try reflexivity; destruct (Hn _ eq_refl)));
    destruct (runner_step op sg str) as [sg' str']; cbn in K; subst sg'; injection E as <- <- <-; repeat split; discriminate.
Qed.
Lemma sender_stuck sh p op : step_step cx me sh p (OpRunner op) = None -> phase_signal p = None.
Proof. destruct p; try reflexivity; cbn [step_step]; destruct (runner_step op sg str); discriminate. Qed.
Lemma pending_not_sig tr o : In o (flat_map sender_ops tr) -> forall so, o <> RSig so.
Proof.
  rewrite in_flat_map. intros (e & _ & H). destruct e as [| | |[[] m]| | | |]; cbn in H; try contradiction;
    repeat (destruct H as [<-|H]; [discriminate|]); contradiction.
Qed.
Lemma phase_signal_call p sg : phase_signal p = Some sg -> phase_early p = false.
Proof. destruct p; try discriminate; reflexivity. Qed.

Lemma happens_engine s op : happens s (LEngine op) = match passes_on s (LEngine op) with Some g => [XISignal g] | None => [] end.
Proof. reflexivity. Qed.
Lemma see_conf p t : lt_conf (see_signal p t) = lt_conf t.
Proof. unfold see_signal. destruct (phase_signal p); reflexivity. Qed.
Lemma see_pending p t : lt_pending (see_signal p t) = lt_pending t.
Proof. unfold see_signal. destruct (phase_signal p); reflexivity. Qed.

Lemma engine_step s tr ins op sh' p' o :
  linv s tr ins -> (forall x, op <> OpRunner x) -> op <> OpAnswer false -> (op = OpAnswer true -> lo_task s <> None) ->
  step_step cx me (lo_sh s) (lo_step s) op = Some (sh', p', o) ->
  linv (LState sh' p' (option_map (see_signal p') (lo_task s))) (tr ++ map LObs o) (ins ++ happens s (LEngine op)).
Proof.
  intros [(ls & more & R & Em & Hm & Hna) Hnone Hearly Hfresh Htask] Hr Hf Ht E.
  assert (Hmk : forall A (x y : A), lo_task s = None -> True) by auto. clear Hmk.
  assert (Es : LState (lo_sh s) (lo_step s) (lo_task s) = s) by (destruct s; reflexivity).
  assert (Ei : happens s (LEngine op) = match passes_on s (LEngine op) with Some g => [XISignal g] | None => [] end) by reflexivity.
  split; cbn [lo_sh lo_step lo_task].
  - exists (ls ++ [SOwn op]), more. rewrite engine_app, engine_obs, effects_app, effects_obs, app_nil_r, runner_ops_app.
    split; [eapply srun_own; eauto|]. split; [|split].
    + replace (runner_ops [SOwn op]) with (@nil runner_op); [rewrite app_nil_r; exact Em|]. destruct op; try reflexivity. destruct (Hr _ eq_refl).
    + intros sg' Hs'. destruct (engine_signal _ _ _ _ _ _ E Hr (lo_task s) sg' Hs') as [(H1 & _)|(sg & H1 & _)].
      * apply Hearly in H1. destruct (Hnone H1) as (_ & H2 & _). rewrite H1. cbn. rewrite H2 in Em. apply app_eq_nil in Em. apply Em.
      * rewrite (Hm sg H1). destruct (lo_task s) as [t|]; cbn; [symmetry; apply see_pending|reflexivity].
    + rewrite in_app_iff. intros [C|[C|[]]]; [exact (Hna C)|]. injection C as C. exact (Hf C).
  - destruct (lo_task s) as [t|] eqn:T; [discriminate|]. intros _. destruct (Hnone eq_refl) as (-> & H2 & H3).
    rewrite effects_app, effects_obs, H2. rewrite Ei.
    assert (Hp : passes_on s (LEngine op) = None).
    { destruct s as [sh p t]. cbn in *. destruct p; try reflexivity; destruct H3; discriminate. }
    rewrite Hp. split; [reflexivity|]. split; [reflexivity|].
    destruct H3 as [H3|H3]; [destruct (step_step_early _ _ _ _ _ _ E Hr H3) as [K|[K _]]; auto|].
    destruct (lo_step s); try discriminate H3. destruct op as [|c'|[]| | | |x]; try discriminate E; [destruct (Ht eq_refl eq_refl)|destruct (Hf eq_refl)|destruct (Hr x eq_refl)].
  - intros H. destruct (phase_early (lo_step s)) eqn:Pe; [rewrite (Hearly eq_refl); reflexivity|].
    rewrite (step_step_late _ _ _ _ _ _ E Pe) in H. discriminate.
  - intros T sg' Hs'. destruct (lo_task s) as [t|] eqn:T'; [discriminate|].
    destruct (engine_signal _ _ _ _ _ _ E Hr None sg' Hs') as [(_ & H & _)|(sg & H1 & H2)]; [exact H|].
    assert (Hp : passes_on (LState (lo_sh s) (lo_step s) None) (LEngine op) = None).
    { destruct (Hnone eq_refl) as (_ & _ & H3). destruct s as [sh p t]. cbn in *. destruct p; try reflexivity; destruct H3; discriminate. }
    rewrite H2, Hp. eapply Hfresh; eauto.
  - intros t' T. destruct (lo_task s) as [t|] eqn:T'; [|discriminate]. injection T as <-.
    destruct (Htask t eq_refl) as (X & Hsg & st & Hst & Hc & Hrun). rewrite see_conf, effects_app, effects_obs, app_nil_r, engine_app.
    assert (Hlate : phase_early (lo_step s) = false) by (destruct (phase_early (lo_step s)); [discriminate (Hearly eq_refl)|reflexivity]).
    split; [|split].
    + rewrite Ei. destruct (phase_signal p') as [sg'|] eqn:Hp'.
      * destruct (engine_signal _ _ _ _ _ _ E Hr (Some t) sg' Hp') as [(C & _)|(sg & H1 & H2)]; [congruence|]. rewrite Es in H2.
        assert (Hx := Hsg sg H1). unfold see_signal. rewrite Hp'. cbn [lt_x]. rewrite H2, Hx. destruct (lt_x t) as [ph xs res] eqn:Lx. cbn [xs_phase xs_signal xs_result] in *.
        destruct (passes_on s (LEngine op)) as [g|]; [|rewrite app_nil_r; exact X].
        rewrite <- (app_nil_r (task_effects tr)). eapply xrun_step; [exact X|]. cbn [xstep xs_phase xs_signal xs_result]. destruct xs; reflexivity.
      * assert (Hp : passes_on s (LEngine op) = None) by (rewrite <- Es; eapply no_pass; eauto).
        rewrite Hp, app_nil_r. unfold see_signal. rewrite Hp'. exact X.
    + intros sg' Hp'. unfold see_signal. rewrite Hp'. reflexivity.
    + exists st. split; [exact Hst|]. split; [exact Hc|]. apply in_or_app. left. exact Hrun.
Qed.

Lemma lhist_inv ops s tr ins : lhist cx me rhooks conf st0 ops s tr ins -> linv s tr ins.
Proof.
  induction 1 as [sh|ops s tr ins op s' o R IH E].
  { split; cbn; auto; try discriminate. exists [], []. split; [constructor|]. split; [reflexivity|]. split; [discriminate|intros []]. }
  destruct op as [op| |i| |e]; cbn [lstep] in E.
  - destruct op as [|c'|[]| | | |x]; try discriminate E;
      try (destruct (step_step cx me (lo_sh s) (lo_step s) _) as [[[sh' p'] ob]|] eqn:E'; [|discriminate E]; injection E as <- <-;
           eapply engine_step; eauto; intros; discriminate).
    destruct (lo_task s) as [t|] eqn:T; [|discriminate E]. rewrite <- T in E.
    destruct (step_step cx me (lo_sh s) (lo_step s) _) as [[[sh' p'] ob]|] eqn:E'; [|discriminate E]. injection E as <- <-.
    eapply engine_step; eauto; intros; try discriminate. congruence.
  - destruct (lo_step s) as [st|st|st t0|st t0|st t0|st t0 a|st t0 a sg str|st t0 a sg str|st t0 a sg str|st t0 a sg str ti|st t0 a sg str l|st t0 a sg str l|st t0 a sg str|st t0 w c|r|r|r|w] eqn:Ph; try discriminate E.
    destruct (lo_task s) eqn:T; [discriminate E|]. injection E as <- <-. destruct IH as [(ls & more & R' & Em & Hm & Hna) Hnone Hearly Hfresh Htask].
    destruct (Hnone T) as (-> & H2 & _). rewrite app_nil_r.
    assert (Hh : happens s LSpawn = []) by (unfold happens, passes_on; rewrite Ph; reflexivity). rewrite Hh.
    rewrite Ph in *. split; cbn [lo_sh lo_step lo_task lt_conf lt_x lt_pending app].
    + exists ls, more. split; [exact R'|]. split; [exact Em|]. split; [|exact Hna]. intros sg' Hs. rewrite (Hm sg' Hs), T. reflexivity.
    + discriminate.
    + discriminate.
    + discriminate.
    + intros t [= <-]. cbn [lt_conf lt_x]. rewrite H2. split; [constructor|]. split; [intros sg' Hs; rewrite (Hfresh T sg' Hs); reflexivity|].
      apply srun_inv in R'. cbn [sinv] in R'. destruct R' as (Hst & _ & Htr & _). exists st. split; [exact Hst|]. split; [reflexivity|]. rewrite Htr. cbn. auto.
  - assert (Hi : exists t x' ob, lo_task s = Some t /\ lt_pending t = [] /\ xstep (lt_conf t) (lt_x t) i = Some (x', ob) /\ (forall g, i <> XISignal g) /\
        s' = LState (lo_sh s) (lo_step s) (Some (LTask (lt_conf t) x' (flat_map sender_ops ob))) /\ o = map LEff ob).
    { destruct i; try discriminate E; (destruct (lo_task s) as [[c x [|]]|]; try discriminate E; destruct (xstep c x _) as [[x' ob]|] eqn:X; [|discriminate E]; injection E as <- <-;
        exists (LTask c x []), x', ob; repeat split; try exact X; discriminate). }
    clear E. destruct Hi as (t & x' & ob & T & Tp & X & Hs & -> & ->). destruct IH as [(ls & more & R' & Em & Hm & Hna) Hnone Hearly Hfresh Htask].
    destruct (Htask t T) as (Xr & Hsg & Hst). split; cbn [lo_sh lo_step lo_task lt_conf lt_x lt_pending].
    + exists ls, (more ++ flat_map sender_ops ob). rewrite engine_app, engine_eff, effects_app, effects_eff, app_nil_r, sender_app, app_assoc, Em.
      split; [exact R'|]. split; [reflexivity|]. split; [|exact Hna]. intros sg Hp. rewrite (Hm sg Hp), T, Tp. reflexivity.
    + discriminate.
    + intros C. rewrite (Hearly C) in T. discriminate.
    + discriminate.
    + intros t' [= <-]. cbn [lt_conf lt_x happens]. rewrite effects_app, effects_eff, engine_app, engine_eff, app_nil_r. split; [eapply xrun_step; eauto|]. split; [|exact Hst].
      intros sg Hp. rewrite (Hsg sg Hp). apply xstep_trans in X. inv X; try reflexivity. destruct (Hs s0 eq_refl).
  - destruct (lo_task s) as [[c x [|ro rest]]|] eqn:T; try discriminate E.
    assert (Hh : happens s LSender = []) by (unfold happens, passes_on; destruct (lo_step s); reflexivity). rewrite Hh, app_nil_r.
    destruct IH as [(ls & more & R' & Em & Hm & Hna) Hnone Hearly Hfresh Htask]. destruct (Htask _ T) as (Xr & Hsg & Hst). cbn [lt_conf lt_x] in *.
    destruct (step_step cx me (lo_sh s) (lo_step s) (OpRunner ro)) as [[[sh' p'] ob]|] eqn:E'; injection E as <- <-; rewrite app_nil_r.
    + assert (Hns : phase_signal (lo_step s) <> None) by (destruct (lo_step s); try discriminate E'; discriminate).
      destruct (phase_signal (lo_step s)) as [sg|] eqn:Hp; [|congruence]. assert (Hmore := Hm sg eq_refl). rewrite T in Hmore. cbn in Hmore. subst more.
      assert (Hro : forall so, ro <> RSig so) by (apply (pending_not_sig (task_effects tr)); rewrite <- Em; apply in_or_app; right; left; reflexivity).
      assert (R2 := srun_own _ _ _ _ _ _ _ _ _ _ _ R' E').
      destruct (sender_step _ _ _ _ _ _ E' Hro) as (-> & -> & Hp' & _ & He & Hcall). rewrite app_nil_r in R2.
      split; cbn [lo_sh lo_step lo_task lt_conf lt_x lt_pending].
      * exists (ls ++ [SOwn (OpRunner ro)]), rest. split; [exact R2|]. split; [|split; [reflexivity|]].
        2: { rewrite in_app_iff. intros [C|[C|[]]]; [exact (Hna C)|discriminate]. }
        rewrite runner_ops_app, <- app_assoc. exact Em.
      * discriminate.
      * rewrite He. intros C. rewrite (Hearly C) in T. discriminate.
      * discriminate.
      * intros t' [= <-]. cbn [lt_conf lt_x]. split; [exact Xr|]. split; [|exact Hst]. intros sg' H. rewrite Hp', Hp in H. apply Hsg. exact H.
    + assert (Hp := sender_stuck _ _ _ E'). split; cbn [lo_sh lo_step lo_task lt_conf lt_x lt_pending].
      * exists ls, more. split; [exact R'|]. split; [exact Em|]. split; [|exact Hna]. rewrite Hp. discriminate.
      * discriminate.
      * intros C. rewrite (Hearly C) in T. discriminate.
      * discriminate.
      * intros t' [= <-]. cbn [lt_conf lt_x]. split; [exact Xr|]. split; [|exact Hst]. rewrite Hp. discriminate.
  - injection E as <- <-. assert (Hh : happens s (LWorld e) = []) by (unfold happens, passes_on; destruct (lo_step s); reflexivity). rewrite Hh, !app_nil_r.
    destruct IH as [(ls & more & R' & Em & Hm & Hna) Hnone Hearly Hfresh Htask]. split; cbn [lo_sh lo_step lo_task]; try assumption.
    exists (ls ++ [SEnv e]), more. split; [apply srun_env; exact R'|]. split; [|split; [exact Hm|rewrite in_app_iff; intros [C|[C|[]]]; [exact (Hna C)|discriminate]]]. rewrite runner_ops_app. cbn. rewrite app_nil_r. exact Em.
Qed.
End Inv.

Section Thm.
Variables (cx : ectx) (me : task) (rhooks : run_context -> run_context) (conf : run_context -> xconf) (st0 : step).
Definition progress_event (id : step_id) : obs := OHook (HState (StepStateUpdated id InProgress)).
Lemma body_progress st logs : In (progress_event (st_id st)) (body cx st logs).
Proof. unfold body. apply in_or_app. right. left. reflexivity. Qed.
Lemma in_progress_seen ls sh p tr : srun cx me st0 ls sh p tr -> ~ In (SOwn (OpAnswer false)) ls ->
  match p with
  | SpEnded st _ _ _ => In (progress_event (st_id st)) tr
  | SpTerminal r | SpComplete r | SpDone r => In (progress_event (sr_id r)) tr
  | _ => True
  end.
Proof.
  induction 1 as [sh|ls sh p tr op sh' p' o R IH E|ls sh p tr e R IH]; intros Hn; [exact I| |apply IH; intros C; apply Hn, in_or_app; left; exact C].
  assert (IH' := IH (fun C => Hn (in_or_app _ _ _ (or_introl C)))). clear IH.
  assert (Ha : op <> OpAnswer false) by (intros ->; apply Hn, in_or_app; right; left; reflexivity).
  apply srun_inv in R.
  destruct p as [st|st|st t0|st t0|st t0|st t0 a|st t0 a sg str|st t0 a sg str|st t0 a sg str|st t0 a sg str ti|st t0 a sg str l|st t0 a sg str l|st t0 a sg str|st t0 w c|r|r|r|w];
    destruct op as [|c'|[]| | | |x]; try discriminate E; cbn [step_step] in E;
    try (destruct (runner_step _ _ _); injection E as <- <- <-; exact I); try (injection E as <- <- <-; try exact I; cbn; apply in_or_app; left; exact IH').
  - destruct (lookup _ _); injection E as <- <- <-; exact I.
  - destruct (Ha eq_refl).
  - destruct (_ <=? _)%N; [|discriminate]; injection E as <- <- <-; exact I.
  - destruct (sm_step _ _) as [sm' [| | |[| |[]]|]]; try discriminate E; injection E as <- <- <-; exact I.
  - destruct (stream_poll _ _) as [[? []] ?]; injection E as <- <- <-; exact I.
  - cbn [sinv] in R. destruct R as (_ & _ & _ & _ & logs & _ & _ & ->).
    destruct (ss_result _); injection E as <- <- <-; [|exact I]. apply in_or_app. left. apply body_progress.
Qed.
Lemma verdict_none_raised ins : forall b rr, verdict None b ins = Some rr -> raised ins = [] -> ~ fs_failed ins -> ~ command_broke ins ->
  exists code, In (XICmd (CIExit code)) ins /\ rr = exit_result code.
Proof.
  unfold fs_failed, command_broke. induction ins as [|i ins IH]; intros b rr V Hr Hf Hb; [discriminate|].
  assert (K : forall b', verdict None b' ins = Some rr -> raised ins = [] -> exists code, In (XICmd (CIExit code)) (i :: ins) /\ rr = exit_result code).
  { intros b' V' R'. destruct (IH b' rr V' R') as (code & H1 & H2); [intros C; apply Hf; right; exact C|intros [C|C]; apply Hb; [left|right]; right; exact C|].
    exists code. split; [right; exact H1|exact H2]. }
  destruct i as [|[]|[[]|[]|[]|code|]|s|]; cbn [verdict] in V; cbn in Hr; try discriminate Hr; try (eapply K; eauto; fail).
  - destruct b; eapply K; eauto.
  - destruct Hf. left. reflexivity.
  - destruct Hb. left. left. reflexivity.
  - injection V as <-. exists code. split; [left; reflexivity|reflexivity].
  - destruct Hb. right. left. reflexivity.
Qed.
Lemma verdict_cancelled ins : forall sig b, verdict sig b ins = Some RCancelled -> sig = Some SigCancel \/ In (XISignal SigCancel) ins.
Proof.
  induction ins as [|i ins IH]; intros sig b V; [discriminate|].
  assert (K : forall b', verdict sig b' ins = Some RCancelled -> sig = Some SigCancel \/ In (XISignal SigCancel) (i :: ins)).
  { intros b' V'. destruct (IH _ _ V') as [H|H]; [left; exact H|right; right; exact H]. }
  destruct i as [|[]|[[]|[]|[]|code|]|s|]; cbn [verdict] in V; try discriminate V; try (eapply K; eauto; fail).
  - destruct b, sig; try discriminate V; eapply K; eauto.
  - exfalso. unfold exit_result in V. destruct code as [c|]; [destruct (c =? 0)%Z|]; discriminate.
  - destruct (IH _ _ V) as [H|H]; [|right; right; exact H]. destruct sig; [left; exact H|]. injection H as ->. right. left. reflexivity.
  - destruct sig as [[]|]; [left; reflexivity|discriminate V|eapply K; eauto].
Qed.

Lemma sent_others l : (forall o, In o l -> ~ is_spoll o) -> stream_of [] = [] -> unpolled l = [] -> l = [].
Proof.
  intros H _ E. destruct l as [|o l]; [reflexivity|exfalso]. cbn in E. destruct (spoll_b o) eqn:S; [|discriminate E].
  destruct o; try discriminate S. apply (H (SPoll t) (or_introl eq_refl)). exists t. reflexivity.
Qed.
Lemma result_of_run ops s tr ins r : lhist cx me rhooks conf st0 ops s tr ins -> lo_step s = SpDone r ->
  exists t st rr, lo_task s = Some t /\ hooked st0 st /\ lt_conf t = conf (rhooks (given cx st)) /\ In (ORun (given cx st)) (engine_events tr) /\
    xrun (lt_conf t) ins (lt_x t) (task_effects tr) /\ xs_result (lt_x t) = Some rr /\
    verdict None false ins = Some rr /\ mirrors rr r /\ delivered (engine_events tr) = task_logs tr.
Proof.
  intros H D. apply lhist_inv in H as [(ls & more & R & Em & _ & Hna) Hnone _ _ Htask]. rewrite D in *.
  destruct (lo_task s) as [t|] eqn:T; [|destruct (Hnone eq_refl) as (_ & _ & [C|C]); discriminate].
  destruct (Htask t eq_refl) as (X & _ & st & Hst & Hc & Hrun). assert (Sx := x_sender _ _ _ _ X). rewrite <- Em in Sx.
  assert (P := in_progress_seen _ _ _ _ R Hna). cbn in P.
  destruct (step_logs _ _ _ _ _ _ _ R) as [(_ & _ & _ & C)|(rr & l1 & l2 & E1 & E2 & E3 & E4 & E5 & E6 & _)]; [destruct (C P)|].
  assert (U : unpolled l1 ++ (unpolled l2 ++ stream_of more) = stream_of (map log_op (logs_of (task_effects tr)) ++ end_ops (xs_result (lt_x t)))).
  { rewrite <- Sx, stream_of_app, <- (unpolled_stream me), E1, unpolled_app, app_assoc. reflexivity. }
  assert (Hc1 : exists c, In (SEndCommit c) (unpolled l1)).
  { destruct E2 as [r1 E2]. unfold stream_output in E2. cbn in E2. injection E2 as E2. apply result_from in E2 as (c & pre & mid & post & -> & _).
    exists c. apply in_unpolled. split; [|reflexivity]. apply in_or_app. right. right. apply in_or_app. right. left. reflexivity. }
  destruct Hc1 as [c Hc1]. symmetry in U. destruct (commit_all _ _ _ _ _ U Hc1) as [Z [rr' Hrr]]. apply app_eq_nil in Z as [Z1 Z2].
  rewrite Z1, Z2, !app_nil_r in U.
  assert (Hres : xs_result (lt_x t) = Some rr).
  { unfold stream_output in E5. cbn in E5. injection E5 as E5. apply result_from in E5 as (c2 & pre & mid & post & E5 & _).
    eapply (check_result (logs_of (task_effects tr))). rewrite U.
    assert (Hin : In (SEndCheck c2 rr) (unpolled (stream_ops me ls))).
    { apply in_unpolled. split; [|reflexivity]. rewrite E5. apply in_or_app. right. left. reflexivity. }
    rewrite E1, unpolled_app, Z1, app_nil_r in Hin. exact Hin. }
  exists t, st, rr. split; [reflexivity|]. split; [exact Hst|]. split; [exact Hc|]. split; [exact Hrun|]. split; [exact X|]. split; [exact Hres|].
  split; [rewrite (x_verdict _ _ _ _ X), Hres; reflexivity|]. split; [exact E6|].
  rewrite E4, <- sent_unpolled, <- U, stream_of_app, sent_app, sent_log_ops, Hres. cbn. apply app_nil_r.
Qed.
(** Where the signals in the task's history come from. *)
Lemma raised_from ops s tr ins g : lhist cx me rhooks conf st0 ops s tr ins -> In (XISignal g) ins ->
  exists pre op post s1 tr1 ins1 s2 o, ops = pre ++ op :: post /\ lhist cx me rhooks conf st0 pre s1 tr1 ins1 /\
    lstep cx me rhooks conf s1 op = Some (s2, o) /\ passes_on s1 op = Some g.
Proof.
  induction 1 as [sh|ops s tr ins op s' o R IH E]; [intros []|]. intros Hin. apply in_app_iff in Hin as [Hin|Hin].
  - destruct (IH Hin) as (pre & op1 & post & s1 & tr1 & ins1 & s2 & o1 & -> & H1 & H2 & H3).
    exists pre, op1, (post ++ [op]), s1, tr1, ins1, s2, o1. rewrite <- app_assoc. auto.
  - exists ops, op, [], s, tr, ins, s', o. split; [reflexivity|]. split; [exact R|]. split; [exact E|].
    unfold happens in Hin. destruct op as [op| |i| |e]; try (destruct (passes_on s _); [destruct Hin as [Hin|[]]; injection Hin as ->; reflexivity|contradiction]).
    destruct Hin as [->|[]]. discriminate E.
Qed.
Lemma lexec_hist ops s tr ins : lhist cx me rhooks conf st0 ops s tr ins -> forall more s' o, lexec cx me rhooks conf s more = Some (s', o) ->
  exists ins', lhist cx me rhooks conf st0 (ops ++ more) s' (tr ++ o) (ins ++ ins').
Proof.
  intros H more. revert ops s tr ins H. induction more as [|op more IH]; intros ops s tr ins H s' o E; cbn [lexec] in E.
  - injection E as <- <-. exists []. rewrite !app_nil_r. exact H.
  - destruct (lstep cx me rhooks conf s op) as [[s1 o1]|] eqn:E1; [|discriminate]. destruct (lexec cx me rhooks conf s1 more) as [[s2 o2]|] eqn:E2; [|discriminate]. injection E as <- <-.
    assert (H1 := lhist_step _ _ _ _ _ _ _ _ _ _ _ _ H E1). destruct (IH _ _ _ _ H1 _ _ E2) as [ins' H2].
    exists (happens s op ++ ins'). rewrite <- !app_assoc in H2. exact H2.
Qed.
(** Once the step is done, only the task goes on. *)
Lemma done_step s op s' o r : lo_step s = SpDone r -> lstep cx me rhooks conf s op = Some (s', o) ->
  lo_step s' = SpDone r /\ passes_on s op = None /\ engine_events o = [].
Proof.
  intros D E. split; [|split].
  3: { destruct op as [op| |i| |e]; cbn [lstep] in E; rewrite ?D in E.
    - destruct op as [|c'|[]| | | |x]; try discriminate E. destruct (lo_task s); discriminate E.
    - discriminate E.
    - destruct i; try discriminate E; (destruct (lo_task s) as [[c x [|]]|]; try discriminate E; destruct (xstep c x _) as [[x' ob]|]; [|discriminate E]; injection E as <- <-; apply engine_eff).
    - destruct (lo_task s) as [[c x [|ro rest]]|]; try discriminate E. cbn [step_step] in E. injection E as <- <-. reflexivity.
    - injection E as <- <-. reflexivity. }
  2: { unfold passes_on. rewrite D. reflexivity. }
  destruct op as [op| |i| |e]; cbn [lstep] in E; rewrite ?D in E.
  - destruct op as [|c'|[]| | | |x]; try discriminate E. destruct (lo_task s); discriminate E.
  - discriminate E.
  - destruct i; try discriminate E; (destruct (lo_task s) as [[c x [|]]|]; try discriminate E; destruct (xstep c x _) as [[x' ob]|]; [|discriminate E]; injection E as <- <-; reflexivity).
  - destruct (lo_task s) as [[c x [|ro rest]]|]; try discriminate E. cbn [step_step] in E. injection E as <- <-. reflexivity.
  - injection E as <- <-. cbn. first [exact D|reflexivity].
Qed.
Lemma done_more more : forall s s' o r, lo_step s = SpDone r -> lexec cx me rhooks conf s more = Some (s', o) -> lo_step s' = SpDone r /\ engine_events o = [].
Proof.
  induction more as [|op more IH]; intros s s' o r D E; cbn [lexec] in E; [injection E as <- <-; auto|].
  destruct (lstep cx me rhooks conf s op) as [[s1 o1]|] eqn:E1; [|discriminate]. destruct (lexec cx me rhooks conf s1 more) as [[s2 o2]|] eqn:E2; [|discriminate]. injection E as <- <-.
  destruct (done_step _ _ _ _ _ D E1) as (D1 & _ & H1). destruct (IH _ _ _ _ D1 E2) as [D2 H2]. split; [exact D2|]. rewrite engine_app, H1, H2. reflexivity.
Qed.
Lemma raised_hist ops s tr ins : lhist cx me rhooks conf st0 ops s tr ins -> forall g, In g (raised ins) <-> In (XISignal g) ins.
Proof.
  intros _ g. unfold raised. rewrite in_flat_map. split; [intros (i & H1 & H2); destruct i; cbn in H2; try contradiction; destruct H2 as [<-|[]]; exact H1|].
  intros H. exists (XISignal g). split; [exact H|left; reflexivity].
Qed.
Lemma done_raises_nothing more : forall ops s tr ins r s' o, lhist cx me rhooks conf st0 ops s tr ins -> lo_step s = SpDone r -> lexec cx me rhooks conf s more = Some (s', o) ->
  exists ins', lhist cx me rhooks conf st0 (ops ++ more) s' (tr ++ o) (ins ++ ins') /\ raised ins' = [].
Proof.
  induction more as [|op more IH]; intros ops s tr ins r s' o H D E; cbn [lexec] in E.
  - injection E as <- <-. exists []. rewrite !app_nil_r. auto.
  - destruct (lstep cx me rhooks conf s op) as [[s1 o1]|] eqn:E1; [|discriminate]. destruct (lexec cx me rhooks conf s1 more) as [[s2 o2]|] eqn:E2; [|discriminate]. injection E as <- <-.
    destruct (done_step _ _ _ _ _ D E1) as (D1 & Hp & _).
    assert (H1 := lhist_step _ _ _ _ _ _ _ _ _ _ _ _ H E1). destruct (IH _ _ _ _ _ _ _ H1 D1 E2) as (ins' & H2 & H3).
    exists (happens s op ++ ins'). rewrite <- !app_assoc in H2. split; [exact H2|]. rewrite raised_app, H3, app_nil_r.
    unfold happens. rewrite Hp. destruct op as [op| |i| |e]; try reflexivity. destruct i; try reflexivity. discriminate E1.
Qed.
(** The after-run hooks. *)
Lemma x_not_taken c ins x tr : xrun c ins x tr -> command_exited ins -> ~ In XITake ins -> xs_phase x = XSelect (CDone true).
Proof.
  induction 1 as [|ins x tr i x' o R IH E]; [intros [code []]|]. intros [code Hc] Hn. 
  assert (Hn' : ~ In XITake ins) by (intros C; apply Hn, in_or_app; left; exact C).
  apply in_app_iff in Hc as [Hc|[Hc|[]]].
  - assert (P := IH (ex_intro _ code Hc) Hn'). apply xstep_trans in E. inv E; cbn [xs_phase] in *; try discriminate P; try exact P.
    + destruct Hn. apply in_or_app. right. left. reflexivity.
    + destruct Hn. apply in_or_app. right. left. reflexivity.
  - subst i. apply xstep_trans in E. inv E; try reflexivity. match goal with K : _ \/ _ |- _ => destruct K as [K|K]; discriminate K end.
Qed.
Lemma x_after c ins x tr : xrun c ins x tr -> In EfAfterRun tr <-> xs_phase x = XStop.
Proof.
  induction 1 as [|ins x tr i x' o R IH E]; [split; [intros []|discriminate]|]. rewrite in_app_iff, IH. apply xstep_trans in E.
  inv E; cbn [xs_phase]; try (split; [intros [C|C]; [discriminate C|cbn in C; intuition discriminate]|discriminate]).
  - cbn. tauto.
  - split; [intros [C|C]; [discriminate C|]|destruct H0 as [->| ->]; discriminate]. apply in_map_iff in C as (l & C & _). discriminate C.
  - apply x_end_ends in H as (_ & _ & H & _). split; [intros [C|C]; [discriminate C|apply H in C; discriminate C]|discriminate].
  - clear H; apply x_end_ends in H0 as (_ & _ & H & _). split; [intros [C|C]; [discriminate C|apply H in C; discriminate C]|discriminate].
  - apply x_end_ends in H as (_ & _ & H & _). split; [intros [C|[C|C]]; [discriminate C|discriminate C|apply H in C; discriminate C]|discriminate].
  - apply x_end_ends in H as (_ & _ & H & _). split; [intros [C|C]; [discriminate C|apply H in C; discriminate C]|discriminate].
  - split; [reflexivity|]. intros _. right. left. reflexivity.
Qed.
Lemma x_done_take c ins x tr ok : xrun c ins x tr -> xs_phase x = XSelect (CDone ok) -> ~ In XITake ins.
Proof.
  assert (G : forall c ins x tr, xrun c ins x tr -> In XITake ins -> match xs_phase x with XKill _ | XRemove | XFinish | XAfter | XStop => True | _ => False end).
  { clear. induction 1 as [|ins x tr i x' o R IH E]; [intros []|]. intros Hin. apply in_app_iff in Hin as [Hin|[Hi|[]]]; [|subst i].
    - specialize (IH Hin). apply xstep_trans in E. inv E; cbn [xs_phase] in *; try contradiction; try exact I. exact IH.
    - apply xstep_trans in E. inv E; exact I. }
  intros R P C. apply (G _ _ _ _ R) in C. rewrite P in C. exact C.
Qed.
Lemma x_after_iff c ins x tr : xrun c ins x tr -> settled c x -> In EfAfterRun tr <-> ~ (command_exited ins /\ ~ In XITake ins).
Proof.
  intros R S. rewrite (x_after _ _ _ _ R). apply settled_iff in S as [S|(ok & S & _)].
  - split; [|intros; exact S]. intros _ [H1 H2]. rewrite (x_not_taken _ _ _ _ R H1 H2) in S. discriminate.
  - rewrite S. split; [discriminate|]. intros C. destruct C. split; [eapply x_exited; eauto|eapply x_done_take; eauto].
Qed.
End Thm.
