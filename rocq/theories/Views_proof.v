(** What a receiver sees: simulation by executions in which a delivery is one transition. *)
From Verif Require Import Base Types Signals_model Signals_proof Stream_model Cond_model Plugins_model Exec_model Workflow_model Workflow_proof Workflow_inv Views_model Views_spec.

Section V.
Variables (glob : glob_oracle) (cx : ectx) (wf : workflow) (n : nat).
Notation wstep := (wstep glob cx wf).
Notation delivering := (delivering glob cx wf).

(** The event a phase delivers and the phase afterwards. *)
Definition main_ahead (p : wphase) : option (hook_event * wphase) :=
  match p with
  | WpSkip => Some (HState (WorkflowStateUpdated (wf_id wf) Skipped), WpDone (WorkflowRunResult (wf_id wf) Skipped None None []))
  | WpRunEvent t0 => Some (HRunWorkflow (RunEvent wf (cm_event (cx_matcher cx)) (cx_payload cx)), WpInProgress t0)
  | WpInProgress t0 => Some (HState (WorkflowStateUpdated (wf_id wf) InProgress), WpSpawn t0 InProgress [] (wf_jobs wf))
  | WpEndState r => Some (HState (WorkflowStateUpdated (wr_id r) (wr_state r)), WpEndDone r)
  | WpEndDone r => Some (HWorkflowCompleted r, WpDone r)
  | _ => None
  end.
Definition step_ahead (p : step_phase) : option (hook_event * step_phase) :=
  match p with
  | SpRunEvent st t0 => Some (HRunStep (RunEvent st (cm_event (cx_matcher cx)) (cx_payload cx)), SpQueue st t0)
  | SpQueue st t0 => Some (HState (StepStateUpdated (st_id st) Queued), SpGetSignal st t0)
  | SpInProgress st t0 a sg str => Some (HState (StepStateUpdated (st_id st) InProgress), SpEnter st t0 a sg str)
  | SpDeliver st t0 a sg str wl => Some (HLog wl, SpEnter st t0 a sg str)
  | SpTerminal r => Some (HState (StepStateUpdated (sr_id r) (sr_state r)), SpComplete r)
  | SpComplete r => Some (HStepCompleted r, SpDone r)
  | _ => None
  end.
Definition job_ahead (j : job) (p : job_phase) : option (hook_event * job_phase) :=
  match p with
  | JpSkip => Some (HState (JobStateUpdated (jb_id j) Skipped), JpReturned (JobRunResult (jb_id j) Skipped None None []))
  | JpRunEvent t0 => Some (HRunJob (RunEvent j (cm_event (cx_matcher cx)) (cx_payload cx)), JpInProgress t0)
  | JpInProgress t0 => Some (HState (JobStateUpdated (jb_id j) InProgress), JpSteps t0 InProgress [] (jb_steps j))
  | JpStepSkip t0 js rs st rest => Some (HState (StepStateUpdated (st_id st) Skipped), JpSteps t0 js (rs ++ [skipped_step_result st]) rest)
  | JpEndState r => Some (HState (JobStateUpdated (jr_id r) (jr_state r)), JpUnregister r)
  | JpCompleted r => Some (HJobCompleted r, JpReturned r)
  | JpStepRun t0 js rs p rest => option_map (fun x => (fst x, JpStepRun t0 js rs (snd x) rest)) (step_ahead p)
  | _ => None
  end.
Definition set_phase (t : wtask) (p : job_phase) : wtask := WTask (tk_key t) (tk_job t) p (tk_sent t).

Lemma main_hook s s' o : main_step glob cx wf s = Some (s', o) -> hooks o = [] /\ main_ahead (ws_main s) = None \/ exists e p, main_ahead (ws_main s) = Some (e, p) /\ o = [(None, OHook e)] /\ s' = set_main p s.
Proof.
  unfold main_step. intros E. destruct (ws_main s); cbn [main_ahead] in *.
  all: try (injection E as <- <-; right; do 2 eexists; (split; [reflexivity|split; reflexivity])).
  all: try discriminate E.
  all: left; unfold spawn in E; repeat (match type of E with context [match ?x with _ => _ end] => destruct x end; try discriminate E); injection E as <- <-; auto.
Qed.
Lemma step_hook me sh p op sh' p' o : step_step cx me sh p op = Some (sh', p', o) ->
  (flat_map (fun x => match x with OHook e => [e] | _ => [] end) o = [] /\ (op = OpNext -> step_ahead p = None)) \/
  op = OpNext /\ exists e, step_ahead p = Some (e, p') /\ o = [OHook e] /\ sh' = sh.
Proof.
  intros E. destruct p, op; cbn [step_step] in E; try discriminate E.
  all: try (injection E as <- <- <-; right; (split; [reflexivity|]); eexists; (split; [reflexivity|split; reflexivity])).
  all: left; repeat (match type of E with context [match ?x with _ => _ end] => destruct x end; try discriminate E); injection E as <- <- <-; (split; [reflexivity|]); intros C; try discriminate C; reflexivity.
Qed.
Lemma job_hook me j sh p op sh' p' o : job_step glob cx me j sh p op = Some (sh', p', o) ->
  (flat_map (fun x => match x with OHook e => [e] | _ => [] end) o = [] /\ (op = JNext \/ op = JStep OpNext -> job_ahead j p = None)) \/
  (op = JNext \/ op = JStep OpNext) /\ exists e, job_ahead j p = Some (e, p') /\ o = [OHook e] /\ sh' = sh.
Proof.
  intros E. destruct p; try (
    destruct op; cbn [job_step] in E; try discriminate E;
    try (injection E as <- <- <-; right; (split; [auto; fail|]); eexists; (split; [reflexivity|split; reflexivity]));
    left; repeat (match type of E with context [match ?x with _ => _ end] => destruct x end; try discriminate E); injection E as <- <- <-; (split; [reflexivity|]); intros C; try (destruct C as [C|C]; discriminate C); reflexivity).
  destruct op as [|gh|sop]; [| |].
  - destruct p; cbn [job_step] in E; try discriminate E. injection E as <- <- <-. left. split; reflexivity.
  - destruct p; cbn [job_step] in E; discriminate E.
  - assert (E' : match step_step cx me sh p sop with Some (sh', sp', o) => Some (sh', JpStepRun t0 js rs sp' rest, o) | None => None end = Some (sh', p', o)) by (destruct p; exact E).
    destruct (step_step cx me sh p sop) as [[[sh1 sp1] o1]|] eqn:E1; [|discriminate E']. injection E' as <- <- <-. cbn [job_ahead].
    destruct (step_hook _ _ _ _ _ _ _ E1) as [[H1 H2]|(-> & e & H1 & H2 & H3)].
    + left. split; [exact H1|]. intros [C|C]; [discriminate C|injection C as ->]. rewrite H2 by reflexivity. reflexivity.
    + right. split; [auto|]. exists e. rewrite H1. auto.
Qed.
Lemma hooks_own i o : hooks (map (fun x => (Some i, x)) o) = flat_map (fun x => match x with OHook e => [e] | _ => [] end) o.
Proof. induction o as [|x o IH]; [reflexivity|]. unfold hooks in *. cbn [map flat_map snd]. rewrite IH. reflexivity. Qed.

Lemma job_next_ahead me j sh p e p' : job_ahead j p = Some (e, p') -> exists op, (op = JNext \/ op = JStep OpNext) /\ job_step glob cx me j sh p op = Some (sh, p', [OHook e]).
Proof.
  intros E. destruct p; cbn [job_ahead] in E; try discriminate E; try (injection E as <- <-; exists JNext; split; [auto|reflexivity]).
  exists (JStep OpNext). split; [auto|]. destruct p; cbn in E; try discriminate E; injection E as <- <-; reflexivity.
Qed.

Definition after_of (s : wstate) (t : who) : option (hook_event * wstate) :=
  match t with
  | None => option_map (fun x => (fst x, set_main (snd x) s)) (main_ahead (ws_main s))
  | Some i => match nth_error (ws_tasks s) i with
              | Some t => option_map (fun x => (fst x, WState (ws_sh s) (ws_main s) (list_set i (set_phase t (snd x)) (ws_tasks s)) (ws_chan s))) (job_ahead (tk_job t) (tk_phase t))
              | None => None
              end
  end.
Lemma delivering_ahead s t : delivering s t = after_of s t.
Proof.
  unfold Views_model.delivering. destruct t as [i|]; cbn [delivery_ops first_some after_of]; unfold delivers; cbn [Workflow_model.wstep].
  - destruct (nth_error (ws_tasks s) i) as [t|] eqn:Ei; [|reflexivity].
    destruct (job_step glob cx (S i) (tk_job t) (ws_sh s) (tk_phase t) JNext) as [[[sh1 p1] o1]|] eqn:E1.
    + destruct (job_hook _ _ _ _ _ _ _ _ E1) as [[H1 H2]|(_ & e & H1 & -> & ->)].
      * rewrite hooks_own, H1. rewrite (H2 (or_introl eq_refl)). cbn [option_map].
        destruct (job_step glob cx (S i) (tk_job t) (ws_sh s) (tk_phase t) (JStep OpNext)) as [[[sh2 p2] o2]|] eqn:E2; [|reflexivity].
        destruct (job_hook _ _ _ _ _ _ _ _ E2) as [[H3 H4]|(_ & e & H3 & -> & ->)]; [rewrite hooks_own, H3; reflexivity|]. rewrite (H2 (or_introl eq_refl)) in H3. discriminate H3.
      * cbn. rewrite H1. reflexivity.
    + destruct (job_step glob cx (S i) (tk_job t) (ws_sh s) (tk_phase t) (JStep OpNext)) as [[[sh2 p2] o2]|] eqn:E2.
      * destruct (job_hook _ _ _ _ _ _ _ _ E2) as [[H3 H4]|(_ & e & H3 & -> & ->)]; [rewrite hooks_own, H3, (H4 (or_intror eq_refl)); reflexivity|]. cbn. rewrite H3. reflexivity.
      * destruct (job_ahead (tk_job t) (tk_phase t)) as [[e p']|] eqn:Ea; [|reflexivity]. destruct (job_next_ahead (S i) _ (ws_sh s) _ _ _ Ea) as (op & [-> | ->] & C); congruence.
  - destruct (main_step glob cx wf s) as [[s1 o1]|] eqn:E1.
    + destruct (main_hook _ _ _ E1) as [[H1 H2]|(e & p & H1 & -> & ->)]; [rewrite H1, H2; reflexivity|]. cbn. rewrite H1. reflexivity.
    + destruct (ws_main s) eqn:Em; try reflexivity; unfold main_step in E1; rewrite Em in E1; discriminate E1.
Qed.
(** The action by which it is delivered in one transition. *)
Lemma deliver_op s t e s' : after_of s t = Some (e, s') -> exists op, plain_next op = true /\ wstep s op = Some (s', [(t, OHook e)]).
Proof.
  destruct t as [i|]; cbn [after_of].
  - destruct (nth_error (ws_tasks s) i) as [t|] eqn:Ei; [|discriminate]. destruct (job_ahead (tk_job t) (tk_phase t)) as [[e0 p]|] eqn:Ea; [|discriminate]. cbn. intros [= <- <-].
    destruct (job_next_ahead (S i) _ (ws_sh s) _ _ _ Ea) as (op & Hop & E). exists (WTaskOp i op). split; [destruct Hop as [-> | ->]; reflexivity|]. cbn [Workflow_model.wstep]. rewrite Ei, E. reflexivity.
  - intros E. exists WMain. split; [reflexivity|]. cbn [Workflow_model.wstep]. unfold main_step. destruct (ws_main s); cbn in E; try discriminate E; injection E as <- <-; reflexivity.
Qed.
(** Transitions that emit an event are deliveries. *)
Lemma hook_op s op s' o : wstep s op = Some (s', o) -> hooks o <> [] -> exists t e, o = [(t, OHook e)] /\ after_of s t = Some (e, s') /\ actor op = Some t.
Proof.
  intros E Hh. destruct op as [|gh|i jop|i|e]; cbn [Workflow_model.wstep] in E.
  - destruct (main_hook _ _ _ E) as [[C _]|(e & p & H1 & -> & ->)]; [contradiction|]. exists None, e. cbn [after_of actor]. rewrite H1. auto.
  - destruct (ws_main s); try discriminate E. destruct (is_match_second glob _ _ _) as [c9 b9]. injection E as <- <-. destruct Hh. reflexivity.
  - destruct (nth_error (ws_tasks s) i) as [t|] eqn:Ei; [|discriminate E]. destruct (job_step glob cx (S i) (tk_job t) (ws_sh s) (tk_phase t) jop) as [[[sh1 p1] o1]|] eqn:E1; [|discriminate E]. injection E as <- <-.
    destruct (job_hook _ _ _ _ _ _ _ _ E1) as [[C _]|(Hop & e & H1 & -> & ->)]; [rewrite hooks_own in Hh; contradiction|]. exists (Some i), e. cbn [after_of actor map]. rewrite Ei, H1.
    split; [reflexivity|]. split; [reflexivity|]. destruct Hop as [-> | ->]; reflexivity.
  - destruct (nth_error (ws_tasks s) i) as [[key j [] []]|]; try discriminate E. destruct (ws_main s); try (injection E as <- <-; destruct Hh; reflexivity); destruct (Nat.ltb _ _); try discriminate E; injection E as <- <-; destruct Hh; reflexivity.
  - injection E as <- <-. destruct Hh. reflexivity.
Qed.

(** *** The simulation *)
Definition passed (k : nat) (g : map_ who nat) (t : who) : bool := match lookup t g with Some c => Nat.ltb k c | None => false end.
Definition adv_main (k : nat) (g : map_ who nat) (p : wphase) : wphase := if passed k g None then match main_ahead p with Some (_, p') => p' | None => p end else p.
Definition adv_task (k : nat) (g : map_ who nat) (i : nat) (t : wtask) : wtask :=
  if passed k g (Some i) then match job_ahead (tk_job t) (tk_phase t) with Some (_, p') => set_phase t p' | None => t end else t.
Record rel (k : nat) (v : vstate) (s : wstate) : Prop := {
  rl_sh : ws_sh s = ws_sh (vs_w v);
  rl_main : ws_main s = adv_main k (vs_going v) (ws_main (vs_w v));
  rl_tasks : forall i, nth_error (ws_tasks s) i = option_map (adv_task k (vs_going v) i) (nth_error (ws_tasks (vs_w v)) i);
  rl_chan : ws_chan s = ws_chan (vs_w v) \/ exists r, ws_main s = WpDone r }.
(** A task inside a delivery is at an event. *)
Definition vinv (v : vstate) : Prop := forall t c, lookup t (vs_going v) = Some c -> 1 <= c <= S n /\ exists e s', after_of (vs_w v) t = Some (e, s').

(** The event of a task does not depend on what others do. *)
Lemma others_leave s op s' o t e s1 : wstep s op = Some (s', o) -> actor op <> Some t -> after_of s t = Some (e, s1) -> exists s2, after_of s' t = Some (e, s2).
Proof.
  intros E Hne Ha. destruct t as [i|]; cbn [after_of] in *.
  - destruct (nth_error (ws_tasks s) i) as [t|] eqn:Ei; [|discriminate Ha]. destruct (job_ahead (tk_job t) (tk_phase t)) as [[e0 p]|] eqn:Ea; [|discriminate Ha]. cbn in Ha. injection Ha as <- _.
    assert (Q : nth_error (ws_tasks s') i = Some t -> exists s2, match nth_error (ws_tasks s') i with
              | Some t => option_map (fun x => (fst x, WState (ws_sh s') (ws_main s') (list_set i (set_phase t (snd x)) (ws_tasks s')) (ws_chan s'))) (job_ahead (tk_job t) (tk_phase t))
              | None => None end = Some (e0, s2)) by (intros ->; rewrite Ea; cbn; eauto).
    destruct op as [|gh|i' jop|i'|ev]; cbn [Workflow_model.wstep actor] in *.
    + apply Q. revert E. unfold main_step, spawn. destruct (ws_main s); intros E.
      all: repeat (match type of E with context [match ?x with _ => _ end] => destruct x end; try discriminate E); try discriminate E; injection E as <- <-; cbn [ws_tasks set_main]; try exact Ei.
      all: rewrite nth_error_app1 by (apply nth_error_Some; congruence); exact Ei.
    + apply Q. destruct (ws_main s); try discriminate E. destruct (is_match_second glob _ _ _). injection E as <- <-. exact Ei.
    + destruct (nth_error (ws_tasks s) i') as [t'|] eqn:Ei'; [|discriminate E]. destruct (job_step glob cx (S i') (tk_job t') (ws_sh s) (tk_phase t') jop) as [[[sh1 p1] o1]|] eqn:E1; [|discriminate E].
      injection E as <- <-. destruct (Nat.eq_dec i i') as [<-|Hn]; [|apply Q; cbn [ws_tasks]; rewrite list_set_ne by exact Hn; exact Ei].
      rewrite Ei in Ei'. injection Ei' as <-. destruct (runner_acts jop) eqn:Er; [|destruct (Hne eq_refl)]. destruct jop as [| |[| | | | | |ro]]; try discriminate Er.
      cbn [ws_tasks]. rewrite (list_set_eq i _ _ _ Ei). cbn [tk_job tk_phase]. clear Q Hne Er.
      destruct (tk_phase t); cbn [job_ahead] in Ea; try discriminate Ea; cbn [job_step] in E1; try discriminate E1. destruct p0; cbn [step_ahead] in Ea; try discriminate Ea; cbn [step_step] in E1; try discriminate E1.
      all: destruct (runner_step ro sg str) as [sg' str']; injection E1 as <- <- <-; cbn in Ea; injection Ea as <- <-; cbn; eauto.
    + assert (i <> i') by (intros <-; exact (Hne eq_refl)). apply Q. destruct (nth_error (ws_tasks s) i') as [[key j [] []]|]; try discriminate E.
      destruct (ws_main s); try (injection E as <- <-; cbn [ws_tasks set_task]; rewrite list_set_ne by assumption; exact Ei); destruct (Nat.ltb _ _); try discriminate E; injection E as <- <-; cbn [ws_tasks]; rewrite list_set_ne by assumption; exact Ei.
    + injection E as <- <-. apply Q. exact Ei.
  - destruct (main_ahead (ws_main s)) as [[e0 p]|] eqn:Ea; [|discriminate Ha]. cbn in Ha. injection Ha as <- _.
    assert (Q : ws_main s' = ws_main s -> exists s2, option_map (fun x => (fst x, set_main (snd x) s')) (main_ahead (ws_main s')) = Some (e0, s2)) by (intros ->; rewrite Ea; cbn; eauto). apply Q.
    destruct op as [|gh|i' jop|i'|ev]; cbn [Workflow_model.wstep actor] in *; try (destruct (Hne eq_refl)).
    + destruct (nth_error (ws_tasks s) i') as [t'|]; [|discriminate E]. destruct (job_step _ _ _ _ _ _ _) as [[[sh1 p1] o1]|]; [|discriminate E]. injection E as <- <-. reflexivity.
    + destruct (nth_error (ws_tasks s) i') as [[key j [] []]|]; try discriminate E. destruct (ws_main s) eqn:Em; try (injection E as <- <-; cbn; auto); destruct (Nat.ltb _ _); try discriminate E; injection E as <- <-; cbn; auto.
    + injection E as <- <-. reflexivity.
Qed.
(** ... nor does what they do depend on it: the delivery of one task. *)
Lemma delivery_leaves s t e s' t' e1 s1 : after_of s t = Some (e, s') -> t <> t' -> after_of s t' = Some (e1, s1) -> exists s2, after_of s' t' = Some (e1, s2).
Proof.
  intros E Hne Ha. destruct (deliver_op s t e s' E) as (op & _ & X). eapply others_leave; [exact X| |exact Ha].
  destruct (hook_op _ _ _ _ X ltac:(discriminate)) as (t0 & e0 & [= <- <-] & _ & ->). congruence.
Qed.

Lemma vinv_step v op v' o : vinv v -> vstep glob cx wf n v op = Some (v', o) -> vinv v'.
Proof.
  intros I E t c Hl. destruct op as [op|t0|t0]; cbn [vstep] in E.
  - destruct (idle v op) eqn:Ed; [|discriminate E]. destruct (wstep (vs_w v) op) as [[s' o']|] eqn:E1; [|discriminate E]. destruct (hooks o'); [|discriminate E]. injection E as <- <-. cbn [vs_w vs_going] in *.
    destruct (I t c Hl) as [H1 (e & s1 & H2)]. split; [exact H1|]. exists e. eapply others_leave; [exact E1| |exact H2]. intros C. unfold idle in Ed. rewrite C, Hl in Ed. discriminate Ed.
  - rewrite delivering_ahead in E. destruct (after_of (vs_w v) t0) as [[e s1]|] eqn:Ea; [|discriminate E]. destruct (Nat.leb (called v t0) n) eqn:El; [|discriminate E]. apply Nat.leb_le in El. injection E as <- <-. cbn [vs_w vs_going] in *.
    destruct (eq_dec t t0) as [->|Hne]; [rewrite lookup_insert_eq in Hl; injection Hl as <-; split; [lia|eauto]|]. rewrite lookup_insert_ne in Hl by exact Hne. exact (I t c Hl).
  - rewrite delivering_ahead in E. destruct (after_of (vs_w v) t0) as [[e s1]|] eqn:Ea; [|discriminate E]. destruct (Nat.eqb (called v t0) (S n)) eqn:El; [|discriminate E]. injection E as <- <-. cbn [vs_w vs_going] in *.
    destruct (eq_dec t t0) as [->|Hne]; [rewrite lookup_remove_eq in Hl; discriminate Hl|]. rewrite lookup_remove_ne in Hl by exact Hne. destruct (I t c Hl) as [H1 (e1 & s2 & H2)]. split; [exact H1|].
    exists e1. eapply delivery_leaves; [exact Ea|congruence|exact H2].
Qed.

Lemma main_frame w w' o : main_step glob cx wf w = Some (w', o) -> exists add, ws_sh w' = ws_sh w /\ ws_tasks w' = ws_tasks w ++ add /\
  forall s, ws_sh s = ws_sh w -> ws_main s = ws_main w -> ws_chan s = ws_chan w -> main_step glob cx wf s = Some (WState (ws_sh w') (ws_main w') (ws_tasks s ++ add) (ws_chan w'), o).
Proof.
  destruct w as [sh m ts ch]. unfold main_step, spawn. cbn [ws_main ws_sh ws_chan]. intros E.
  assert (Q : exists add, ws_sh w' = sh /\ ws_tasks w' = ts ++ add /\ forall ts', main_step glob cx wf (WState sh m ts' ch) = Some (WState (ws_sh w') (ws_main w') (ts' ++ add) (ws_chan w'), o)).
  { unfold main_step, spawn, set_main. cbn [ws_main ws_sh ws_chan ws_tasks]. destruct m.
    all: repeat (match type of E with context [match ?x with _ => _ end] => destruct x end; try discriminate E); try discriminate E; injection E as <- <-; cbn [set_main ws_main ws_sh ws_chan ws_tasks].
    all: first [exists []; rewrite app_nil_r; (split; [reflexivity|]); (split; [reflexivity|]); intros ts'; rewrite app_nil_r; reflexivity|eexists; (split; [reflexivity|]); (split; [reflexivity|]); intros ts'; reflexivity]. }
  destruct Q as (add & H1 & H2 & H3). exists add. split; [exact H1|]. split; [exact H2|]. intros [sh' m' ts' ch']. cbn [ws_main ws_sh ws_chan ws_tasks]. intros -> -> ->. exact (H3 ts').
Qed.
Lemma idle_passed v op t k : idle v op = true -> actor op = Some t -> passed k (vs_going v) t = false.
Proof. unfold idle, passed. intros H Ha. rewrite Ha in H. destruct (lookup t (vs_going v)); [discriminate H|reflexivity]. Qed.
Lemma passed_at k v t : vinv v -> passed k (vs_going v) t = true -> exists e s1, after_of (vs_w v) t = Some (e, s1).
Proof. unfold passed. intros Iv H. destruct (lookup t (vs_going v)) as [c|] eqn:Q; [|discriminate H]. exact (proj2 (Iv t c Q)). Qed.
Lemma adv_main_done k g r : adv_main k g (WpDone r) = WpDone r.
Proof. unfold adv_main. destruct (passed k g None); reflexivity. Qed.
Lemma not_done_chan k v s : rel k v s -> (forall r, ws_main s <> WpDone r) -> ws_chan s = ws_chan (vs_w v).
Proof. intros [_ _ _ [H|[r H]]] Hn; [exact H|destruct (Hn r H)]. Qed.

Lemma do_step k v op w' o s : vinv v -> rel k v s -> idle v op = true -> wstep (vs_w v) op = Some (w', o) -> hooks o = [] ->
  exists s1, wstep s op = Some (s1, o) /\ rel k (VState w' (vs_going v)) s1.
Proof.
  intros Iv R Hi E Hh. destruct v as [w g]. cbn [vs_w vs_going] in *. assert (R0 := R). destruct R0 as [Rs Rm Rt Rc]. cbn [vs_w vs_going] in *.
  destruct op as [|gh|i jop|i|ev]; cbn [Workflow_model.wstep] in E |- *.
  - assert (Hp : passed k g None = false) by (exact (idle_passed (VState w g) WMain None k Hi eq_refl)). unfold adv_main in Rm. rewrite Hp in Rm.
    assert (Hc : ws_chan s = ws_chan w) by (apply (not_done_chan _ _ _ R); intros r C; rewrite Rm in C; unfold main_step in E; rewrite C in E; discriminate E).
    destruct (main_frame _ _ _ E) as (add & H1 & H2 & H3). eexists. split; [apply H3; assumption|]. constructor; cbn [ws_sh ws_main ws_tasks ws_chan vs_w vs_going].
    + reflexivity.
    + unfold adv_main. rewrite Hp. reflexivity.
    + intros i. rewrite H2. assert (L : length (ws_tasks s) = length (ws_tasks w)).
      { destruct (Nat.lt_trichotomy (length (ws_tasks s)) (length (ws_tasks w))) as [C|[C|C]]; [|exact C|].
        - destruct (nth_error (ws_tasks w) (length (ws_tasks s))) eqn:Q; [|apply nth_error_None in Q; lia]. specialize (Rt (length (ws_tasks s))). rewrite Q in Rt. cbn in Rt. apply nth_error_Some in C.
          assert (D : nth_error (ws_tasks s) (length (ws_tasks s)) = None) by (apply nth_error_None; lia). congruence.
        - specialize (Rt (length (ws_tasks w))). assert (D : nth_error (ws_tasks w) (length (ws_tasks w)) = None) by (apply nth_error_None; lia). rewrite D in Rt. cbn in Rt. apply nth_error_None in Rt. lia. }
      destruct (Nat.lt_ge_cases i (length (ws_tasks w))) as [Hl|Hl].
      * rewrite !nth_error_app1 by lia. apply Rt.
      * rewrite !nth_error_app2 by lia. rewrite L. destruct (nth_error add (i - length (ws_tasks w))) as [t|]; [|reflexivity]. cbn [option_map]. f_equal.
        unfold adv_task. destruct (passed k g (Some i)) eqn:Q; [|reflexivity]. destruct (passed_at k (VState w g) (Some i) Iv Q) as (e & s1 & C). cbn [after_of vs_w] in C. rewrite (proj2 (nth_error_None _ _)) in C by exact Hl. discriminate C.
    + auto.
  - assert (Hp : passed k g None = false) by (exact (idle_passed (VState w g) (WGithub gh) None k Hi eq_refl)). unfold adv_main in Rm. rewrite Hp in Rm.
    destruct (ws_main w) eqn:Em; try discriminate E. rewrite Rm, Rs. destruct (is_match_second glob (fetch_payload gh ev) (sh_cache (ws_sh w)) c) as [c9 b9]. injection E as <- <-.
    eexists. split; [reflexivity|]. constructor; cbn [ws_sh ws_main ws_tasks ws_chan vs_w vs_going]; [reflexivity|unfold adv_main; rewrite Hp; reflexivity|exact Rt|].
    left. apply (not_done_chan _ _ _ R). intros r. rewrite Rm. discriminate.
  - destruct (nth_error (ws_tasks w) i) as [t|] eqn:Ei; [|discriminate E]. destruct (job_step glob cx (S i) (tk_job t) (ws_sh w) (tk_phase t) jop) as [[[sh1 p1] o1]|] eqn:E1; [|discriminate E]. injection E as <- <-.
    rewrite Rt, Ei. cbn [option_map]. rewrite Rs.
    assert (Q : exists q, job_step glob cx (S i) (tk_job (adv_task k g i t)) (ws_sh w) (tk_phase (adv_task k g i t)) jop = Some (sh1, q, o1) /\
                  WTask (tk_key (adv_task k g i t)) (tk_job (adv_task k g i t)) q (tk_sent (adv_task k g i t)) = adv_task k g i (WTask (tk_key t) (tk_job t) p1 (tk_sent t))).
    { unfold adv_task. destruct (passed k g (Some i)) eqn:Hp; [|exists p1; auto]. destruct (runner_acts jop) eqn:Er.
      - destruct jop as [| |[| | | | | |ro]]; try discriminate Er. destruct (job_ahead (tk_job t) (tk_phase t)) as [[e p']|] eqn:Ea.
        + destruct (tk_phase t); cbn [job_ahead] in Ea; try discriminate Ea; cbn [job_step] in E1; try discriminate E1. destruct p; cbn [step_ahead] in Ea; try discriminate Ea; cbn [step_step] in E1; try discriminate E1.
          all: cbn in Ea; injection Ea as <- <-; cbn [set_phase tk_job tk_phase tk_key tk_sent job_step step_step]; destruct (runner_step ro sg str) as [sg' str']; injection E1 as <- <- <-; cbn; eauto.
        + exfalso. destruct (passed_at k (VState w g) (Some i) Iv Hp) as (e & s1 & C). cbn [after_of vs_w] in C. rewrite Ei, Ea in C. discriminate C.
      - exfalso. assert (Ha : actor (WTaskOp i jop) = Some (Some i)) by (cbn [actor]; rewrite Er; reflexivity). assert (C := idle_passed (VState w g) (WTaskOp i jop) (Some i) k Hi Ha). cbn [vs_going] in C. congruence. }
    destruct Q as (q & Q1 & Q2). rewrite Q1, Q2. eexists. split; [reflexivity|]. constructor; cbn [ws_sh ws_main ws_tasks ws_chan vs_w vs_going]; [reflexivity|exact Rm| |exact Rc].
    intros i0. destruct (Nat.eq_dec i0 i) as [->|Hn]; [|rewrite !list_set_ne by exact Hn; apply Rt]. rewrite (list_set_eq i _ _ _ Ei). erewrite list_set_eq by (rewrite Rt, Ei; reflexivity). reflexivity.
  - assert (Hp : passed k g (Some i) = false) by (exact (idle_passed (VState w g) (WSend i) (Some i) k Hi eq_refl)).
    destruct (nth_error (ws_tasks w) i) as [[key j [] []]|] eqn:Ei; try discriminate E. rewrite Rt, Ei. cbn [option_map]. unfold adv_task at 1. rewrite Hp.
    assert (T : forall x, rel k (VState (WState (ws_sh w) (ws_main w) (list_set i (WTask key j (JpReturned r) true) (ws_tasks w)) x) g)
                  (WState (ws_sh s) (ws_main s) (list_set i (WTask key j (JpReturned r) true) (ws_tasks s)) x) /\ ((exists r, ws_main s = WpDone r) -> forall y,
                rel k (VState (WState (ws_sh w) (ws_main w) (list_set i (WTask key j (JpReturned r) true) (ws_tasks w)) x) g)
                  (WState (ws_sh s) (ws_main s) (list_set i (WTask key j (JpReturned r) true) (ws_tasks s)) y))).
    { intros x. assert (T0 : forall i0, nth_error (list_set i (WTask key j (JpReturned r) true) (ws_tasks s)) i0 = option_map (adv_task k g i0) (nth_error (list_set i (WTask key j (JpReturned r) true) (ws_tasks w)) i0)).
      { intros i0. destruct (Nat.eq_dec i0 i) as [->|Hn]; [|rewrite !list_set_ne by exact Hn; apply Rt]. rewrite (list_set_eq i _ _ _ Ei). erewrite list_set_eq by (rewrite Rt, Ei; reflexivity). cbn. unfold adv_task. rewrite Hp. reflexivity. }
      split; [|intros Hd y]; constructor; cbn [ws_sh ws_main ws_tasks ws_chan vs_w vs_going]; auto. }
    assert (D : (exists r0, ws_main w = WpDone r0) \/ forall r0, ws_main w <> WpDone r0) by (destruct (ws_main w); eauto; right; discriminate).
    assert (Ds : (exists r0, ws_main s = WpDone r0) \/ forall r0, ws_main s <> WpDone r0) by (destruct (ws_main s); eauto; right; discriminate).
    destruct D as [[r0 D]|D].
    + rewrite D in E. injection E as <- <-. rewrite D in Rm. rewrite adv_main_done in Rm. rewrite Rm. eexists. split; [reflexivity|]. unfold set_task. apply T. eauto.
    + assert (E' : (if Nat.ltb (length (ws_chan w)) channel_capacity then Some (WState (ws_sh w) (ws_main w) (list_set i (WTask key j (JpReturned r) true) (ws_tasks w)) (ws_chan w ++ [(key, r)]), []) else None) = Some (w', o))
        by (destruct (ws_main w); try exact E; destruct (D r0 eq_refl)). destruct (Nat.ltb (length (ws_chan w)) channel_capacity) eqn:El; [|discriminate E']. injection E' as <- <-. clear E.
      destruct Ds as [[r0 Ds]|Ds].
      * rewrite Ds. eexists. split; [reflexivity|]. unfold set_task. apply T. eauto.
      * rewrite (not_done_chan _ _ _ R Ds). cbn [vs_w]. exists (WState (ws_sh s) (ws_main s) (list_set i (WTask key j (JpReturned r) true) (ws_tasks s)) (ws_chan w ++ [(key, r)])). split; [|exact (proj1 (T _))].
        destruct (ws_main s) eqn:Em; try (rewrite El; reflexivity). destruct (Ds _ eq_refl).
  - injection E as <- <-. eexists. split; [reflexivity|]. constructor; cbn [ws_sh ws_main ws_tasks ws_chan vs_w vs_going]; [rewrite Rs; reflexivity|exact Rm|exact Rt|exact Rc].
Qed.

Lemma after_main s e s' : after_of s None = Some (e, s') -> main_ahead (ws_main s) = Some (e, ws_main s') /\ s' = set_main (ws_main s') s.
Proof. cbn [after_of]. destruct (main_ahead (ws_main s)) as [[e0 p]|]; [|discriminate]. cbn. intros [= <- <-]. auto. Qed.
Lemma after_task s i e s' : after_of s (Some i) = Some (e, s') -> exists t p, nth_error (ws_tasks s) i = Some t /\ job_ahead (tk_job t) (tk_phase t) = Some (e, p) /\
  s' = WState (ws_sh s) (ws_main s) (list_set i (set_phase t p) (ws_tasks s)) (ws_chan s).
Proof. cbn [after_of]. destruct (nth_error (ws_tasks s) i) as [t|]; [|discriminate]. destruct (job_ahead (tk_job t) (tk_phase t)) as [[e0 p]|] eqn:Ea; [|discriminate]. cbn. intros [= <- <-]. eauto. Qed.
Lemma passed_insert_eq k g t c : passed k (insert t c g) t = Nat.ltb k c.
Proof. unfold passed. rewrite lookup_insert_eq. reflexivity. Qed.
Lemma passed_insert_ne k g t t' c : t' <> t -> passed k (insert t c g) t' = passed k g t'.
Proof. intros H. unfold passed. rewrite lookup_insert_ne by exact H. reflexivity. Qed.
Lemma passed_remove_eq k g t : passed k (remove t g) t = false.
Proof. unfold passed. rewrite lookup_remove_eq. reflexivity. Qed.
Lemma passed_remove_ne k g t t' : t' <> t -> passed k (remove t g) t' = passed k g t'.
Proof. intros H. unfold passed. rewrite lookup_remove_ne by exact H. reflexivity. Qed.
Lemma passed_called k v t : passed k (vs_going v) t = Nat.ltb k (called v t).
Proof. unfold passed, called. destruct (lookup t (vs_going v)); reflexivity. Qed.
Lemma rel_passed k v v' s : vs_w v' = vs_w v -> (forall t, passed k (vs_going v') t = passed k (vs_going v) t) -> rel k v s -> rel k v' s.
Proof.
  intros Ew Hp [R1 R2 R3 R4]. constructor; rewrite Ew; [exact R1|rewrite R2; unfold adv_main; rewrite Hp; reflexivity| |exact R4].
  intros i. rewrite R3. destruct (nth_error (ws_tasks (vs_w v)) i); [|reflexivity]. cbn. unfold adv_task. rewrite Hp. reflexivity.
Qed.
Lemma view_seen k o : view k (map VSeen o) = o.
Proof. induction o as [|x o IH]; [reflexivity|]. unfold view in *. cbn [map flat_map app]. f_equal. exact IH. Qed.
Lemma sim_step k v op v' o s : k <= n -> vinv v -> rel k v s -> vstep glob cx wf n v op = Some (v', o) ->
  exists ops1 s1, wexec glob cx wf s ops1 = Some (s1, view k o) /\ rel k v' s1 /\ filter (fun x => negb (plain_next x)) ops1 = others [op].
Proof.
  intros Hk Iv R E. destruct op as [op|t|t]; cbn [vstep] in E.
  - destruct (idle v op) eqn:Hi; [|discriminate E]. destruct (wstep (vs_w v) op) as [[w' o']|] eqn:E1; [|discriminate E]. destruct (hooks o') eqn:Hh; [|discriminate E]. injection E as <- <-.
    destruct (do_step _ _ _ _ _ _ Iv R Hi E1 Hh) as (s1 & H1 & H2). exists [op], s1. cbn [wexec]. rewrite H1, app_nil_r, view_seen. split; [reflexivity|]. split; [exact H2|].
    cbn. destruct (plain_next op); reflexivity.
  - rewrite delivering_ahead in E. destruct (after_of (vs_w v) t) as [[e w1]|] eqn:Ea; [|discriminate E]. destruct (Nat.leb (called v t) n) eqn:El; [|discriminate E]. injection E as <- <-.
    assert (P0 := passed_called k v t).
    unfold view. cbn [flat_map app]. destruct (Nat.eqb (called v t) k) eqn:Ek.
    + apply Nat.eqb_eq in Ek. rewrite Ek, Nat.ltb_irrefl in P0. destruct R as [R1 R2 R3 R4].
      destruct t as [i|].
      * destruct (after_task _ _ _ _ Ea) as (t & p & T1 & T2 & T3). assert (T4 : nth_error (ws_tasks s) i = Some t) by (rewrite R3, T1; cbn; unfold adv_task; rewrite P0; reflexivity).
        assert (A : after_of s (Some i) = Some (e, WState (ws_sh s) (ws_main s) (list_set i (set_phase t p) (ws_tasks s)) (ws_chan s))) by (cbn [after_of]; rewrite T4, T2; reflexivity).
        destruct (deliver_op _ _ _ _ A) as (op & O1 & O2). exists [op], (WState (ws_sh s) (ws_main s) (list_set i (set_phase t p) (ws_tasks s)) (ws_chan s)). cbn [wexec]. rewrite O2. split; [reflexivity|].
        split; [|cbn; rewrite O1; reflexivity]. constructor; cbn [vs_w vs_going ws_sh ws_main ws_tasks ws_chan]; [exact R1| | |exact R4].
        -- rewrite R2. unfold adv_main. rewrite passed_insert_ne by discriminate. reflexivity.
        -- intros i0. destruct (Nat.eq_dec i0 i) as [->|Hn].
           ++ rewrite (list_set_eq i _ _ _ T4), T1. cbn. unfold adv_task. rewrite passed_insert_eq. rewrite Ek. replace (Nat.ltb k (S k)) with true by (symmetry; apply Nat.ltb_lt; lia). rewrite T2. reflexivity.
           ++ rewrite list_set_ne by exact Hn. rewrite R3. destruct (nth_error (ws_tasks (vs_w v)) i0); [|reflexivity]. cbn. unfold adv_task. rewrite passed_insert_ne by (intros [= C]; exact (Hn C)). reflexivity.
      * destruct (after_main _ _ _ Ea) as [M1 M2]. assert (M3 : ws_main s = ws_main (vs_w v)) by (rewrite R2; unfold adv_main; rewrite P0; reflexivity).
        assert (A : after_of s None = Some (e, set_main (ws_main w1) s)) by (cbn [after_of]; rewrite M3, M1; reflexivity).
        destruct (deliver_op _ _ _ _ A) as (op & O1 & O2). exists [op], (set_main (ws_main w1) s). cbn [wexec]. rewrite O2. split; [reflexivity|]. split; [|cbn; rewrite O1; reflexivity].
        constructor; cbn [vs_w vs_going ws_sh ws_main ws_tasks ws_chan set_main]; [exact R1| | |].
        -- unfold adv_main. rewrite passed_insert_eq. rewrite Ek. replace (Nat.ltb k (S k)) with true by (symmetry; apply Nat.ltb_lt; lia). rewrite M1. reflexivity.
        -- intros i. rewrite R3. destruct (nth_error (ws_tasks (vs_w v)) i); [|reflexivity]. cbn. unfold adv_task. rewrite passed_insert_ne by discriminate. reflexivity.
        -- left. destruct R4 as [R4|[r R4]]; [exact R4|]. rewrite M3 in R4. rewrite R4 in M1. discriminate M1.
    + exists [], s. split; [reflexivity|]. split; [|reflexivity]. eapply rel_passed; [| |exact R]; [reflexivity|]. intros t'. cbn [vs_going]. destruct (eq_dec t' t) as [->|Hn]; [rewrite passed_insert_eq|rewrite passed_insert_ne by exact Hn; reflexivity].
      rewrite P0. apply Nat.eqb_neq in Ek. destruct (Nat.ltb_spec k (S (called v t))), (Nat.ltb_spec k (called v t)); try reflexivity; lia.
  - rewrite delivering_ahead in E. destruct (after_of (vs_w v) t) as [[e w1]|] eqn:Ea; [|discriminate E]. destruct (Nat.eqb (called v t) (S n)) eqn:El; [|discriminate E]. apply Nat.eqb_eq in El. injection E as <- <-.
    assert (P0 := passed_called k v t). rewrite El in P0. replace (Nat.ltb k (S n)) with true in P0 by (symmetry; apply Nat.ltb_lt; lia).
    exists [], s. split; [reflexivity|]. split; [|reflexivity]. destruct R as [R1 R2 R3 R4]. destruct t as [i|].
    + destruct (after_task _ _ _ _ Ea) as (t & p & T1 & T2 & ->). constructor; cbn [vs_w vs_going ws_sh ws_main ws_tasks ws_chan]; [exact R1| | |exact R4].
      * rewrite R2. unfold adv_main. rewrite passed_remove_ne by discriminate. reflexivity.
      * intros i0. rewrite R3. destruct (Nat.eq_dec i0 i) as [->|Hn].
        -- rewrite (list_set_eq i _ _ _ T1), T1. cbn. unfold adv_task. rewrite passed_remove_eq, P0, T2. reflexivity.
        -- rewrite list_set_ne by exact Hn. destruct (nth_error (ws_tasks (vs_w v)) i0); [|reflexivity]. cbn. unfold adv_task. rewrite passed_remove_ne by (intros [= C]; exact (Hn C)). reflexivity.
    + destruct (after_main _ _ _ Ea) as [M1 M2]. rewrite M2. constructor; cbn [vs_w vs_going ws_sh ws_main ws_tasks ws_chan set_main]; [exact R1| | |exact R4].
      * rewrite R2. unfold adv_main. rewrite passed_remove_eq, P0, M1. reflexivity.
      * intros i. rewrite R3. destruct (nth_error (ws_tasks (vs_w v)) i); [|reflexivity]. cbn. unfold adv_task. rewrite passed_remove_ne by discriminate. reflexivity.
Qed.

Lemma vinv_run ops v tr : vrun glob cx wf n ops v tr -> vinv v.
Proof. induction 1 as [sh|ops v tr op v' o R IH E]; [intros t c C; discriminate C|]. eapply vinv_step; eassumption. Qed.
Lemma view_app k a b : view k (a ++ b) = view k a ++ view k b.
Proof. apply flat_map_app. Qed.
Lemma others_app a b : others (a ++ b) = others a ++ others b.
Proof. apply flat_map_app. Qed.
Lemma sim_run k ops v tr : k <= n -> vrun glob cx wf n ops v tr -> exists ops1 s, wrun glob cx wf ops1 s (view k tr) /\ rel k v s /\ filter (fun x => negb (plain_next x)) ops1 = others ops.
Proof.
  intros Hk. induction 1 as [sh|ops v tr op v' o R IH E].
  - exists [], (winit sh). split; [constructor|]. split; [|reflexivity]. constructor; try reflexivity; [|left; reflexivity]. intros [|i]; reflexivity.
  - destruct IH as (ops1 & s & R1 & R2 & R3). destruct (sim_step _ _ _ _ _ _ Hk (vinv_run _ _ _ R) R2 E) as (ops2 & s2 & X1 & X2 & X3).
    exists (ops1 ++ ops2), s2. rewrite view_app, filter_app, R3, X3, others_app. split; [eapply wexec_run; eassumption|]. split; [exact X2|reflexivity].
Qed.
Lemma same_nth {A} (l l' : list A) : (forall i, nth_error l i = nth_error l' i) -> l = l'.
Proof.
  revert l'. induction l as [|a l IH]; intros [|b l'] H; [reflexivity|discriminate (H 0)|discriminate (H 0)|]. assert (H0 := H 0). cbn in H0. injection H0 as ->. f_equal. apply IH. intros i. exact (H (S i)).
Qed.
Lemma rel_quiet k v s : rel k v s -> vs_going v = [] -> same_progress s (vs_w v).
Proof.
  intros [R1 R2 R3 R4] Hq. unfold adv_main, adv_task, passed in *. rewrite Hq in *. cbn [lookup] in *. split; [exact R1|]. split; [exact R2|]. split; [|exact R4].
  apply same_nth. intros i. rewrite R3. destruct (nth_error (ws_tasks (vs_w v)) i); reflexivity.
Qed.

(** *** What each receiver gets from each task *)
Lemma got_app k a b : got k (a ++ b) = got k a ++ got k b.
Proof. apply flat_map_app. Qed.
Lemma got_from_app k t a b : got_from k t (a ++ b) = got_from k t a ++ got_from k t b.
Proof. unfold got_from. rewrite got_app, filter_app, map_app. reflexivity. Qed.
Lemma got_from_seen k t o : got_from k t (map VSeen o) = [].
Proof. unfold got_from, got. induction o as [|x o IH]; [reflexivity|exact IH]. Qed.
Lemma got_from_one k t c t0 e : got_from k t [VGot c t0 e] = if Nat.eqb c k then if eqb t0 t then [e] else [] else [].
Proof. unfold got_from, got. cbn [flat_map app]. destruct (Nat.eqb c k); [|reflexivity]. cbn [filter fst app]. destruct (eqb t0 t); reflexivity. Qed.
Definition current (v : vstate) (t : who) (k : nat) : list hook_event := if passed k (vs_going v) t then match after_of (vs_w v) t with Some (e, _) => [e] | None => [] end else [].
Lemma got_inv ops v tr : vrun glob cx wf n ops v tr -> forall t, exists l, forall k, k <= n -> got_from k t tr = l ++ current v t k.
Proof.
  induction 1 as [sh|ops v tr op v' o R IH E]; intros t; [exists []; reflexivity|]. destruct (IH t) as [l Hl]. assert (Iv := vinv_run _ _ _ R).
  assert (Keep : (forall k, passed k (vs_going v') t = passed k (vs_going v) t) -> (forall e s1, after_of (vs_w v) t = Some (e, s1) -> forall k, passed k (vs_going v) t = true -> exists s2, after_of (vs_w v') t = Some (e, s2)) -> (forall k, k <= n -> got_from k t o = []) ->
     exists l, forall k, k <= n -> got_from k t (tr ++ o) = l ++ current v' t k).
  { intros H1 H2 H3. exists l. intros k Hk. rewrite got_from_app, H3, app_nil_r, Hl by exact Hk. f_equal. unfold current. rewrite H1. destruct (passed k (vs_going v) t) eqn:Ep; [|reflexivity].
    destruct (passed_at k v t Iv Ep) as (e & s1 & Ea). rewrite Ea. destruct (H2 e s1 Ea k Ep) as [s2 ->]. reflexivity. }
  destruct op as [op|t0|t0]; cbn [vstep] in E.
  - destruct (idle v op) eqn:Hi; [|discriminate E]. destruct (wstep (vs_w v) op) as [[w' o']|] eqn:E1; [|discriminate E]. destruct (hooks o') eqn:Hh; [|discriminate E]. injection E as <- <-. cbn [vs_w vs_going] in *.
    apply Keep; [reflexivity| |intros k _; apply got_from_seen]. intros e s1 Ea k Ep. eapply others_leave; [exact E1| |exact Ea]. intros C. rewrite (idle_passed _ _ _ k Hi C) in Ep. discriminate Ep.
  - rewrite delivering_ahead in E. destruct (after_of (vs_w v) t0) as [[e w1]|] eqn:Ea; [|discriminate E]. destruct (Nat.leb (called v t0) n) eqn:El; [|discriminate E]. injection E as <- <-. cbn [vs_w vs_going] in *.
    destruct (eqb t0 t) eqn:Et.
    + apply (proj1 (eqb_true _ _)) in Et. subst t0. exists l. intros k Hk. rewrite got_from_app, got_from_one, eqb_refl, Hl by exact Hk. rewrite <- app_assoc. f_equal. unfold current. cbn [vs_w vs_going]. rewrite Ea, passed_insert_eq, passed_called.
      destruct (Nat.eqb_spec (called v t) k) as [->|Hne].
      * rewrite Nat.ltb_irrefl. replace (Nat.ltb k (S k)) with true by (symmetry; apply Nat.ltb_lt; lia). reflexivity.
      * rewrite app_nil_r. destruct (Nat.ltb_spec k (called v t)), (Nat.ltb_spec k (S (called v t))); try reflexivity; lia.
    + apply Keep; [intros k; apply passed_insert_ne; intros ->; rewrite eqb_refl in Et; discriminate Et|eauto|]. intros k _. rewrite got_from_one, Et. destruct (Nat.eqb _ k); reflexivity.
  - rewrite delivering_ahead in E. destruct (after_of (vs_w v) t0) as [[e w1]|] eqn:Ea; [|discriminate E]. destruct (Nat.eqb (called v t0) (S n)) eqn:El; [|discriminate E]. apply Nat.eqb_eq in El. injection E as <- <-. cbn [vs_w vs_going] in *.
    destruct (eqb t0 t) eqn:Et.
    + apply (proj1 (eqb_true _ _)) in Et. subst t0. exists (l ++ [e]). intros k Hk. rewrite app_nil_r, Hl by exact Hk. unfold current. cbn [vs_w vs_going]. rewrite passed_remove_eq, app_nil_r, passed_called, El, Ea.
      replace (Nat.ltb k (S n)) with true by (symmetry; apply Nat.ltb_lt; lia). reflexivity.
    + assert (t0 <> t) by (intros ->; rewrite eqb_refl in Et; discriminate Et). apply Keep; [intros k; apply passed_remove_ne; congruence| |reflexivity].
      intros e1 s1 E1 k _. eapply delivery_leaves; [exact Ea|assumption|exact E1].
Qed.

(** *** Executions of [Workflow_model] are among these *)
Fixpoint vexec (v : vstate) (ops : list vop) : option (vstate * list vobs) :=
  match ops with
  | [] => Some (v, [])
  | op :: ops' => match vstep glob cx wf n v op with None => None | Some (v', o) => match vexec v' ops' with None => None | Some (v2, o2) => Some (v2, o ++ o2) end end
  end.
Lemma vexec_run more : forall ops v tr v' o, vrun glob cx wf n ops v tr -> vexec v more = Some (v', o) -> vrun glob cx wf n (ops ++ more) v' (tr ++ o).
Proof.
  induction more as [|op more IH]; intros ops v tr v' o R E; cbn [vexec] in E; [injection E as <- <-; rewrite !app_nil_r; exact R|].
  destruct (vstep glob cx wf n v op) as [[v1 o1]|] eqn:E1; [|discriminate]. destruct (vexec v1 more) as [[v2 o2]|] eqn:E2; [|discriminate]. injection E as <- <-.
  change (op :: more) with ([op] ++ more). rewrite !app_assoc. eapply IH; [|exact E2]. eapply vrun_step; eassumption.
Qed.
Lemma vexec_app a : forall b v v1 o1 v2 o2, vexec v a = Some (v1, o1) -> vexec v1 b = Some (v2, o2) -> vexec v (a ++ b) = Some (v2, o1 ++ o2).
Proof.
  induction a as [|op a IH]; intros b v v1 o1 v2 o2 E E2; cbn [vexec app] in *; [injection E as <- <-; exact E2|].
  destruct (vstep glob cx wf n v op) as [[v3 o3]|]; [|discriminate]. destruct (vexec v3 a) as [[v4 o4]|] eqn:E4; [|discriminate]. injection E as <- <-. rewrite (IH _ _ _ _ _ _ E4 E2), app_assoc. reflexivity.
Qed.
Lemma insert_twice (t : who) (a b : nat) g : insert t b (insert t a g) = insert t b g.
Proof. induction g as [|[t' c] g IH]; cbn [insert]; [destruct (eq_dec t t); [reflexivity|congruence]|]. destruct (eq_dec t t') as [->|H]; cbn [insert]; [destruct (eq_dec t' t'); [reflexivity|congruence]|]. destruct (eq_dec t t'); [congruence|]. rewrite IH. reflexivity. Qed.
Lemma remove_insert (t : who) (a : nat) g : remove t (insert t a g) = remove t g.
Proof.
  induction g as [|[t' c] g IH]; cbn [insert remove]; [destruct (eq_dec t t); [reflexivity|congruence]|].
  destruct (eq_dec t t') as [->|H]; cbn [remove]; [destruct (eq_dec t' t'); [reflexivity|congruence]|]. destruct (eq_dec t t'); [congruence|]. rewrite IH. reflexivity.
Qed.
(** The rest of one delivery. *)
Lemma finish_calls t e s' : forall m v, after_of (vs_w v) t = Some (e, s') -> called v t + m = S n -> 1 <= m ->
  vexec v (repeat (VCall t) m) = Some (VState (vs_w v) (insert t (S n) (vs_going v)), map (fun k => VGot k t e) (seq (called v t) m)).
Proof.
  induction m as [|m IH]; intros v Ea Hc Hm; [lia|]. cbn [repeat vexec vstep]. rewrite delivering_ahead, Ea. replace (Nat.leb (called v t) n) with true by (symmetry; apply Nat.leb_le; lia).
  set (v1 := VState (vs_w v) (insert t (S (called v t)) (vs_going v))). assert (C : called v1 t = S (called v t)) by (unfold v1, called at 1; cbn [vs_going]; rewrite lookup_insert_eq; reflexivity).
  destruct m as [|m].
  - cbn [repeat vexec seq map app]. unfold v1. replace (S (called v t)) with (S n) by lia. reflexivity.
  - rewrite (IH v1 Ea) by lia. unfold v1 at 1 2. cbn [vs_w vs_going]. rewrite insert_twice, C. reflexivity.
Qed.
Lemma finish_one v t e s' : vinv v -> after_of (vs_w v) t = Some (e, s') -> called v t <= S n ->
  exists more o, vexec v more = Some (VState s' (remove t (vs_going v)), o) /\ Forall (fun x => x = VCall t \/ x = VReturn t) more /\ o = map (fun k => VGot k t e) (seq (called v t) (S n - called v t)).
Proof.
  intros Iv Ea Hc. set (v1 := VState (vs_w v) (insert t (S n) (vs_going v))).
  assert (X : exists more o, vexec v more = Some (if Nat.eqb (called v t) (S n) then v else v1, o) /\ Forall (fun x => x = VCall t \/ x = VReturn t) more /\ o = map (fun k => VGot k t e) (seq (called v t) (S n - called v t))).
  { destruct (Nat.eqb_spec (called v t) (S n)) as [->|Hn].
    - exists [], []. rewrite Nat.sub_diag. auto.
    - eexists _, _. split; [apply (finish_calls t e s' (S n - called v t) v Ea); lia|]. split; [|reflexivity]. apply Forall_forall. intros x Hx. apply repeat_spec in Hx. auto. }
  destruct X as (more & o & X1 & X2 & X3). exists (more ++ [VReturn t]), o. split; [|split; [apply Forall_app; split; [exact X2|constructor; auto]|exact X3]].
  rewrite <- (app_nil_r o). eapply vexec_app; [exact X1|]. cbn [vexec vstep]. rewrite delivering_ahead. destruct (Nat.eqb (called v t) (S n)) eqn:Ec.
  - rewrite Ea, Ec. reflexivity.
  - unfold v1 at 1. cbn [vs_w]. rewrite Ea. unfold called, v1. cbn [vs_going]. rewrite lookup_insert_eq, Nat.eqb_refl, remove_insert. reflexivity.
Qed.
Lemma remove_shorter (t : who) (g : map_ who nat) c : lookup t g = Some c -> length (remove t g) < length g.
Proof.
  assert (L : forall l : map_ who nat, length (remove t l) <= length l) by (induction l as [|[t' c'] l IH]; cbn [remove length]; [lia|]; destruct (eq_dec t t'); cbn [length]; lia).
  induction g as [|[t' c'] g IH]; cbn [lookup remove]; [discriminate|]. destruct (eq_dec t t') as [->|H]; intros E; cbn [length]; [specialize (L g); lia|]. apply IH in E. lia.
Qed.
(** All deliveries under way can be finished. *)
Lemma finish_all : forall m v, length (vs_going v) <= m -> vinv v -> exists more v' o, vexec v more = Some (v', o) /\ vs_going v' = [] /\ Forall (fun x => exists t, x = VCall t \/ x = VReturn t) more.
Proof.
  induction m as [|m IH]; intros v Hm Iv.
  - exists [], v, []. split; [reflexivity|]. split; [destruct (vs_going v); [reflexivity|cbn in Hm; lia]|constructor].
  - destruct (vs_going v) as [|[t c] g] eqn:Eg; [exists [], v, []; auto|]. assert (Hl : lookup t (vs_going v) = Some c) by (rewrite Eg; cbn [lookup]; destruct (eq_dec t t); [reflexivity|congruence]).
    destruct (Iv t c Hl) as [H1 (e & s' & Ea)]. destruct (finish_one v t e s' Iv Ea) as (more & o & X1 & X2 & _); [unfold called; rewrite Hl; lia|].
    destruct (IH (VState s' (remove t (vs_going v)))) as (more2 & v2 & o2 & Y1 & Y2 & Y3).
    + cbn [vs_going]. assert (S := remove_shorter _ _ _ Hl). rewrite Eg in S |- *. cbn [length] in *. lia.
    + intros t' c' Hl'. cbn [vs_going vs_w] in *. destruct (eq_dec t' t) as [->|Hne]; [rewrite lookup_remove_eq in Hl'; discriminate Hl'|]. rewrite lookup_remove_ne in Hl' by exact Hne.
      destruct (Iv _ _ Hl') as [Q (e1 & s1 & Q1)]. split; [exact Q|]. exists e1. eapply delivery_leaves; [exact Ea|congruence|exact Q1].
    + exists (more ++ more2), v2, (o ++ o2). split; [eapply vexec_app; eassumption|]. split; [exact Y2|]. apply Forall_app. split; [|exact Y3]. eapply Forall_impl; [|exact X2]. cbn. eauto.
Qed.
Lemma view_calls k t e : k <= n -> view k (map (fun j => VGot j t e) (seq 0 (S n))) = [(t, OHook e)].
Proof.
  intros Hk. assert (G : forall m a, view k (map (fun j => VGot j t e) (seq a m)) = if Nat.leb a k && Nat.ltb k (a + m) then [(t, OHook e)] else []).
  { induction m as [|m IH]; intros a; unfold view in *; cbn [seq map flat_map]; [destruct (Nat.leb_spec a k), (Nat.ltb_spec k (a + 0)); cbn; try reflexivity; lia|]. rewrite IH.
    destruct (Nat.eqb_spec a k), (Nat.leb_spec (S a) k), (Nat.leb_spec a k), (Nat.ltb_spec k (S a + m)), (Nat.ltb_spec k (a + S m)); cbn; try reflexivity; lia. }
  rewrite G. destruct (Nat.leb_spec 0 k), (Nat.ltb_spec k (0 + S n)); cbn; try reflexivity; lia.
Qed.
(** From a quiet state every way to go on of [Workflow_model]. *)
Lemma realize ops : forall v s' o, vs_going v = [] -> wexec glob cx wf (vs_w v) ops = Some (s', o) ->
  exists more vo, vexec v more = Some (VState s' [], vo) /\ forall k, k <= n -> view k vo = o.
Proof.
  induction ops as [|op ops IH]; intros v s' o Hq E; cbn [wexec] in E.
  - injection E as <- <-. exists [], []. destruct v as [w g]. cbn in *. subst g. auto.
  - destruct (wstep (vs_w v) op) as [[s1 o1]|] eqn:E1; [|discriminate E]. destruct (wexec glob cx wf s1 ops) as [[s2 o2]|] eqn:E2; [|discriminate E]. injection E as <- <-.
    assert (X : exists more vo, vexec v more = Some (VState s1 [], vo) /\ forall k, k <= n -> view k vo = o1).
    { destruct (hooks o1) as [|e0 l0] eqn:Hh.
      - exists [VDo op], (map VSeen o1). assert (Hi : idle v op = true) by (unfold idle; rewrite Hq; destruct (actor op); reflexivity).
        cbn [vexec vstep]. rewrite Hi, E1, Hh, Hq, app_nil_r. split; [reflexivity|intros k _; apply view_seen].
      - destruct (hook_op _ _ _ _ E1) as (t & e & -> & Ea & _); [rewrite Hh; discriminate|].
        assert (C0 : called v t = 0) by (unfold called; rewrite Hq; reflexivity).
        destruct (finish_one v t e s1) as (more & vo & X1 & _ & ->); [intros t' c C; rewrite Hq in C; discriminate C|exact Ea|lia|]. rewrite Hq in X1. eexists _, _. split; [exact X1|]. intros k Hk. rewrite C0, Nat.sub_0_r. apply view_calls, Hk. }
    destruct X as (m1 & vo1 & X1 & X2). destruct (IH (VState s1 []) s2 o2 eq_refl E2) as (m2 & vo2 & Y1 & Y2). exists (m1 ++ m2), (vo1 ++ vo2). split; [eapply vexec_app; eassumption|].
    intros k Hk. rewrite view_app, X2, Y2 by exact Hk. reflexivity.
Qed.
End V.
