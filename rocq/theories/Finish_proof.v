From Verif Require Import Base Types Signals_model Signals_proof Stream_model Stream_spec Stream_proof Cond_model
  Plugins_model Plugins_spec Plugins_proof Exec_model Exec_spec Step_proof Job_proof Workflow_model Workflow_spec Workflow_proof Workflow_inv Workflow_term Workflow_props
  Exact_crash Exact_props Runner_model Local_model Local_spec Local_proof Distant_model Distant_spec Distant_proof System_model System_spec System_proof System_flow System_props Finish_spec.

Section G.
Context {T iop iobs : Type}.
Variable R : rside T iop iobs.
Variable glob : glob_oracle.
Variable cx : ectx.
Variable wf : workflow.
Variables tame inner : iop -> Prop.
Variable gh : github.
Notation sysrun := (sysrun R glob cx wf).
Notation sysexec := (sysexec R glob cx wf).
Notation sysop' := (sysop (iop := iop)).

Fixpoint iexec (me : task) (sh : shared) (p : step_phase) (x : T) (ops : list iop) : option (shared * step_phase * T * list iobs) :=
  match ops with
  | [] => Some (sh, p, x, [])
  | op :: ops' =>
      match rs_step R me sh p x op with
      | None => None
      | Some (sh1, p1, x1, o1) => match iexec me sh1 p1 x1 ops' with None => None | Some (sh2, p2, x2, o2) => Some (sh2, p2, x2, o1 ++ o2) end
      end
  end.

Definition tame_sop (o : step_op) : Prop := match o with OpBefore c => keeps_steps c | _ => True end.
Definition tracks : Prop := forall me sh p x op sh' p' x' o, rs_step R me sh p x op = Some (sh', p', x', o) ->
  (sh' = sh /\ p' = p /\ step_events R o = []) \/ exists sop, step_step cx me sh p sop = Some (sh', p', step_events R o) /\ (tame op -> tame_sop sop).
Definition ends_steps : Prop := forall me st ops sh p x tr, irun R me st ops sh p x tr ->
  exists more sh' p' x' o, Forall inner more /\ iexec me sh p x more = Some (sh', p', x', o) /\ ((exists r, p' = SpDone r) \/ exists w, p' = SpPanic w).
Hypothesis F : faithful R cx.
Hypothesis Tr : tracks.
Hypothesis Fin : ends_steps.
Hypothesis Hin : forall op, inner op -> tame op.

Definition ymain (op : sysop') : bool := match op with YFlow o => is_main o | _ => false end.

Lemma flow_run2 sh0 ops s tr : sysrun sh0 ops s tr -> (forall op, In op ops -> orderly wf tame op) ->
  exists wls, wrun glob cx wf wls (sy_w s) (flow_of R tr) /\ (forall o, In o wls -> well_behaved wf o) /\ length (filter is_main wls) = length (filter ymain ops).
Proof.
  induction 1 as [|ops s tr op s' o Hr IH E]; intros Ho; [exists []; split; [constructor|split; [intros o []|reflexivity]]|].
  destruct IH as (wls & W & L1 & L2); [intros x Hx; apply Ho, in_or_app; left; exact Hx|].
  assert (Hop : orderly wf tame op) by (apply Ho, in_or_app; right; left; reflexivity).
  assert (I := sys_inv R glob cx wf F _ _ _ _ Hr).
  assert (Fa : flow_of R (tr ++ o) = flow_of R tr ++ flow_of R o) by apply flow_app. rewrite Fa. clear Fa. rewrite filter_app, app_length.
  destruct op as [wo|i io|k io]; cbn [sysstep] in E; cbn [filter ymain length].
  - destruct (is_step_op wo) eqn:Hs; [discriminate|]. destruct (wstep glob cx wf (sy_w s) wo) as [[w' wtr]|] eqn:Ew; [|discriminate].
    exists (wls ++ [wo]). split; [|split].
    + assert (K : sy_w s' = w' /\ o = map (fun x => (fst x, inl (snd x))) wtr).
      { destruct (step_over (sy_w s) wo) as [[i p]|]; injection E as <- <-; auto. }
      destruct K as [-> ->]. rewrite flow_inl. eapply wrun_step; eassumption.
    + intros x Hx. apply in_app_iff in Hx as [Hx|[<-|[]]]; auto.
    + rewrite filter_app, app_length, L2. cbn [filter]. destruct (is_main wo); reflexivity.
  - rewrite Nat.add_0_r.
    destruct (nth_error (ws_tasks (sy_w s)) i) as [t|] eqn:Et; [|discriminate]. destruct (nth_error (sy_cur s) i) as [x|] eqn:Ex; [|discriminate].
    destruct (tk_phase t) as [| | | | | | | | | |t0 js rs sp rest| | | |] eqn:Ep; try discriminate E.
    destruct (rs_step R (S i) (ws_sh (sy_w s)) sp x io) as [[[[sh' sp'] x'] out]|] eqn:Es; [|discriminate E]. injection E as <- <-. cbn [sy_w].
    rewrite flow_inr. apply Tr in Es as [(-> & -> & ->)|(sop & Es & Hs)].
    + exists wls. split; [|split; [exact L1|exact L2]]. cbn [map]. rewrite app_nil_r.
      replace (WState _ _ _ _) with (sy_w s); [exact W|]. destruct (sy_w s) as [a b ts d]. cbn in *. f_equal. symmetry. apply list_set_same. rewrite Et. destruct t; cbn in *; subst; reflexivity.
    + exists (wls ++ [WTaskOp i (JStep sop)]). split; [|split].
      * eapply wrun_step; [exact W|]. cbn [wstep]. rewrite Et, Ep. unfold job_step.
        replace (match sp with SpDone _ => _ | _ => _ end) with (Some (sh', JpStepRun t0 js rs sp' rest, step_events R out)); [reflexivity|].
        destruct sp; rewrite Es; reflexivity.
      * intros y Hy. apply in_app_iff in Hy as [Hy|[<-|[]]]; [auto|]. specialize (Hs Hop). destruct sop; exact Hs || exact Logic.I.
      * rewrite filter_app, app_length, L2. cbn [filter is_main length]. lia.
  - rewrite Nat.add_0_r.
    destruct (nth_error (sy_past s) k) as [[i [[sh p] x]]|] eqn:Ek; [|discriminate].
    destruct (rs_step R (S i) sh p x io) as [[[[sh' p'] x'] out]|] eqn:Es; [|discriminate E]. injection E as <- <-. cbn [sy_w].
    destruct (si_past R cx _ _ _ I _ (nth_error_In _ _ Ek)) as (st & r & iops & os & Hp & _). cbn [fst snd] in Hp. subst p.
    destruct (done_silent R cx F _ _ _ _ _ _ _ _ _ Es) as (_ & _ & Hso). rewrite flow_inr, Hso. cbn [map]. rewrite app_nil_r.
    exists wls. auto.
Qed.

Lemma sysexec_app a : forall b s s1 o1 s2 o2, sysexec s a = Some (s1, o1) -> sysexec s1 b = Some (s2, o2) -> sysexec s (a ++ b) = Some (s2, o1 ++ o2).
Proof.
  induction a as [|op a IH]; intros b s s1 o1 s2 o2 E1 E2; cbn [System_model.sysexec app] in *; [injection E1 as <- <-; exact E2|].
  destruct (sysstep R glob cx wf s op) as [[s' o]|]; [|discriminate]. destruct (sysexec s' a) as [[s3 o3]|] eqn:E3; [|discriminate]. injection E1 as <- <-.
  rewrite (IH _ _ _ _ _ _ E3 E2), app_assoc. reflexivity.
Qed.

(** What completing the i-th task leaves alone. *)
Record only (i : nat) (s s' : @system T) : Prop := {
  on_main : ws_main (sy_w s') = ws_main (sy_w s);
  on_chan : ws_chan (sy_w s') = ws_chan (sy_w s);
  on_others : forall k, k <> i -> nth_error (ws_tasks (sy_w s')) k = nth_error (ws_tasks (sy_w s)) k }.
Lemma only_refl i s : only i s s.
Proof. split; reflexivity. Qed.
Lemma only_trans i s s1 s2 : only i s s1 -> only i s1 s2 -> only i s s2.
Proof. intros [A B C] [A' B' C']. split; [congruence|congruence|]. intros k Hk. rewrite C', C; auto. Qed.
Definition same_task (t t' : wtask) : Prop := tk_key t' = tk_key t /\ tk_job t' = tk_job t /\ tk_sent t' = tk_sent t.

(** Actions inside a step. *)
Lemma inner_exec more : forall s i t x t0 js rs sp rest sh' p' x' o, nth_error (ws_tasks (sy_w s)) i = Some t -> nth_error (sy_cur s) i = Some x ->
  tk_phase t = JpStepRun t0 js rs sp rest -> iexec (S i) (ws_sh (sy_w s)) sp x more = Some (sh', p', x', o) ->
  exists s' o', sysexec s (map (YStep i) more) = Some (s', o') /\ only i s s' /\ nth_error (ws_tasks (sy_w s')) i = Some (set_phase t (JpStepRun t0 js rs p' rest)).
Proof.
  induction more as [|op more IH]; intros s i t x t0 js rs sp rest sh' p' x' o Ht Hx Hp E; cbn [iexec] in E.
  - injection E as <- <- <- <-. exists s, []. split; [reflexivity|]. split; [apply only_refl|]. rewrite Ht. destruct t; cbn in *; subst; reflexivity.
  - destruct (rs_step R (S i) (ws_sh (sy_w s)) sp x op) as [[[[sh1 p1] x1] o1]|] eqn:E1; [|discriminate].
    destruct (iexec (S i) sh1 p1 x1 more) as [[[[sh2 p2] x2] o2]|] eqn:E2; [|discriminate]. injection E as <- <- <- <-.
    set (s1 := System (WState sh1 (ws_main (sy_w s)) (list_set i (set_phase t (JpStepRun t0 js rs p1 rest)) (ws_tasks (sy_w s))) (ws_chan (sy_w s))) (list_set i x1 (sy_cur s)) (sy_past s)).
    destruct (IH s1 i (set_phase t (JpStepRun t0 js rs p1 rest)) x1 t0 js rs p1 rest sh2 p2 x2 o2) as (s' & o' & Es & On & Hn).
    { apply (list_set_eq i _ _ _ Ht). } { apply (list_set_eq i _ _ _ Hx). } { reflexivity. } { exact E2. }
    exists s', (map (fun e => (Some i, inr e)) o1 ++ o'). split; [|split].
    + cbn [map System_model.sysexec sysstep]. rewrite Ht, Hx, Hp, E1. fold s1. rewrite Es. reflexivity.
    + eapply only_trans; [|exact On]. split; cbn; [reflexivity|reflexivity|]. intros k Hk. apply list_set_ne, Hk.
    + rewrite Hn. destruct t; reflexivity.
Qed.

(** One action of a job outside its steps. *)
Lemma flow_op s i t op sh' p' o : nth_error (ws_tasks (sy_w s)) i = Some t -> (forall sop, op <> JStep sop) ->
  job_step glob cx (S i) (tk_job t) (ws_sh (sy_w s)) (tk_phase t) op = Some (sh', p', o) ->
  exists s' o', sysstep R glob cx wf s (YFlow (WTaskOp i op)) = Some (s', o') /\ only i s s' /\ nth_error (ws_tasks (sy_w s')) i = Some (set_phase t p').
Proof.
  intros Ht Hop E. cbn [sysstep]. replace (is_step_op (WTaskOp i op)) with false by (destruct op; [reflexivity|reflexivity|exfalso; eapply Hop; reflexivity]).
  cbn [wstep]. rewrite Ht, E. destruct (step_over (sy_w s) (WTaskOp i op)) as [[k p]|]; do 2 eexists; (split; [reflexivity|]);
    (split; [split; cbn; [reflexivity|reflexivity|intros n Hn; apply list_set_ne, Hn]|cbn; apply (list_set_eq i _ _ _ Ht)]).
Qed.

Definition jrank (n : nat) (p : job_phase) : nat :=
  match p with
  | JpCheck => 4 * n + 10 | JpFetch _ _ => 4 * n + 9 | JpSkip => 1 | JpStart => 4 * n + 8 | JpRegister _ => 4 * n + 7 | JpRunEvent _ => 4 * n + 6 | JpInProgress _ => 4 * n + 5
  | JpSteps _ _ _ rest => 4 * length rest + 4 | JpStepFetch _ _ _ _ rest _ _ => 4 * length rest + 7 | JpStepSkip _ _ _ _ rest => 4 * length rest + 5
  | JpStepRun _ _ _ _ rest => 4 * length rest + 6 | JpEndState _ => 3 | JpUnregister _ => 2 | JpCompleted _ => 1 | JpReturned _ => 0
  end.

(** From any phase the job goes on by itself, unless it has returned or is inside a step. *)
Lemma job_moves me j sh p : (exists r, p = JpReturned r) \/ (exists t0 js rs sp rest, p = JpStepRun t0 js rs sp rest /\ forall r, sp <> SpDone r) \/
  exists op sh' p' o, job_step glob cx me j sh p op = Some (sh', p', o) /\ (op = JNext \/ op = JGithub gh) /\ jrank (length (jb_steps j)) p' < jrank (length (jb_steps j)) p.
Proof.
  destruct p as [|c ev| | |t0|t0|t0|t0 js rs [|st rest]|t0 js rs st rest c ev|t0 js rs st rest|t0 js rs sp rest|r|r|r|r];
    try (left; eexists; reflexivity); try (right; right; exists JNext; do 3 eexists; split; [reflexivity|]; split; [auto|cbn; lia]).
  - right; right. exists JNext. cbn [job_step]. destruct (jb_on j) as [c|]; [destruct (is_match_first _ _ _ _) as [b|ev]|]; do 3 eexists; (split; [reflexivity|]); (split; [auto|]); [destruct b| |]; cbn; lia.
  - right; right. exists (JGithub gh). cbn [job_step]. destruct (is_match_second _ _ _ _) as [ca b]. do 3 eexists. split; [reflexivity|]. split; [auto|]. destruct b; cbn; lia.
  - right; right. exists JNext. cbn [job_step]. destruct (forced_skip js st); [|destruct (st_on st) as [c|]; [destruct (is_match_first _ _ _ _) as [b|ev]|]]; do 3 eexists; (split; [reflexivity|]); (split; [auto|]); try (destruct b); cbn [jrank length]; lia.
  - right; right. exists (JGithub gh). cbn [job_step]. destruct (is_match_second _ _ _ _) as [ca b]. do 3 eexists. split; [reflexivity|]. split; [auto|]. destruct b; cbn [jrank]; lia.
  - destruct sp; try (right; left; do 5 eexists; split; [reflexivity|discriminate]). right; right. exists JNext. do 3 eexists. split; [reflexivity|]. split; [auto|cbn [jrank]; lia].
Qed.

Definition quiet_op (op : sysop') : Prop := goes_on gh inner op /\ ymain op = false.
Lemma goes_orderly op : goes_on gh inner op -> orderly wf tame op.
Proof. destruct op as [[|g|i [|g|sop]|i|e]|i o|k o]; cbn; try tauto. apply Hin. Qed.
Lemma quiet_count more : Forall quiet_op more -> filter ymain more = [].
Proof. induction 1 as [|op more [_ H] _ IH]; [reflexivity|]. cbn [filter]. rewrite H. exact IH. Qed.
Lemma quiet_goes more : Forall quiet_op more -> Forall (goes_on gh inner) more.
Proof. intros H. eapply Forall_impl; [|exact H]. intros op [H1 _]. exact H1. Qed.

Definition job_ends (i : nat) (t : wtask) (s : @system T) : Prop :=
  exists more s' o t', Forall quiet_op more /\ sysexec s more = Some (s', o) /\ only i s s' /\ nth_error (ws_tasks (sy_w s')) i = Some t' /\ same_task t t' /\
    (finished t' \/ crashed t') /\ (signed_off (tk_phase t) -> finished t') /\ Forall (fun op => by_job i op = true) more.
Lemma ends_after i t s a s1 o1 t1 : Forall quiet_op a -> Forall (fun op => by_job i op = true) a -> sysexec s a = Some (s1, o1) -> only i s s1 -> same_task t t1 -> (signed_off (tk_phase t) -> signed_off (tk_phase t1)) ->
  job_ends i t1 s1 -> job_ends i t s.
Proof.
  intros Qa Ba Ea On (K1 & K2 & K3) Hso (more & s' & o & t' & Qm & Em & On' & Ht' & (K4 & K5 & K6) & Hf & Hs & Bm).
  exists (a ++ more), s', (o1 ++ o), t'. split; [apply Forall_app; auto|]. split; [eapply sysexec_app; eassumption|]. split; [eapply only_trans; eassumption|].
  split; [exact Ht'|]. split; [repeat split; congruence|]. split; [auto|]. split; [auto|]. apply Forall_app; auto.
Qed.
Lemma sysexec_one s op s' o : sysstep R glob cx wf s op = Some (s', o) -> sysexec s [op] = Some (s', o).
Proof. intros E. cbn [System_model.sysexec]. rewrite E, app_nil_r. reflexivity. Qed.
Lemma job_op_quiet i op : op = JNext \/ op = JGithub gh -> quiet_op (YFlow (WTaskOp i op)).
Proof. intros [-> | ->]; split; cbn; auto. Qed.

Lemma finish_job n : forall sh0 ops s tr i t, sysrun sh0 ops s tr -> nth_error (ws_tasks (sy_w s)) i = Some t -> jrank (length (jb_steps (tk_job t))) (tk_phase t) <= n -> job_ends i t s.
Proof.
  induction n as [n IH] using (well_founded_induction Wf_nat.lt_wf). intros sh0 ops s tr i t Hr Ht Hn.
  destruct (job_moves (S i) (tk_job t) (ws_sh (sy_w s)) (tk_phase t)) as [(r & Hp)|[(t0 & js & rs & sp & rest & Hp & Hnd)|(op & sh' & p' & o & E & Hop & Hlt)]].
  - exists [], s, [], t. split; [constructor|]. split; [reflexivity|]. split; [apply only_refl|]. split; [exact Ht|]. split; [repeat split|].
    assert (finished t) by (exists r; exact Hp). auto.
  - destruct (sys_inv R glob cx wf F _ _ _ _ Hr) as [I1 _ _ I4 _].
    destruct (nth_error (sy_cur s) i) as [x|] eqn:Ex; [|apply nth_error_None in Ex; assert (i < length (ws_tasks (sy_w s))) by (apply nth_error_Some; congruence); lia].
    assert (G := I4 i t x Ht Ex). rewrite Hp in G. destruct G as (st & _ & _ & trs & _ & _ & _ & _ & (iops & os & Hi & _)).
    destruct (Fin _ _ _ _ _ _ _ Hi) as (more & sh' & p' & x' & o & Hm & Ei & Hd).
    destruct (inner_exec more s i t x t0 js rs sp rest sh' p' x' o Ht Ex Hp Ei) as (s1 & o1 & E1 & On1 & Ht1).
    assert (Qm : Forall quiet_op (map (YStep i) more)) by (apply Forall_forall; intros op Hop; apply in_map_iff in Hop as (io & <- & Hio); split; [exact (proj1 (Forall_forall _ _) Hm io Hio)|reflexivity]).
    assert (Bm : Forall (fun op => by_job i op = true) (map (@YStep iop i) more)) by (apply Forall_forall; intros op Hop; apply in_map_iff in Hop as (io & <- & Hio); cbn; apply Nat.eqb_refl).
    assert (Nso : ~ signed_off (tk_phase t)) by (rewrite Hp; intros (r & [C|C]); discriminate C).
    destruct Hd as [[r ->]|[w ->]].
    + assert (Hr1 : sysrun sh0 (ops ++ map (YStep i) more) s1 (tr ++ o1)) by (eapply sysexec_run; eassumption).
      destruct (flow_op s1 i _ JNext _ _ _ Ht1 ltac:(discriminate) eq_refl) as (s2 & o2 & E2 & On2 & Ht2).
      assert (Hr2 := sysrun_step R glob cx wf _ _ _ _ _ _ _ Hr1 E2).
      apply (ends_after i t s _ s1 o1 (set_phase t (JpStepRun t0 js rs (SpDone r) rest))) with (1 := Qm) (2 := Bm) (3 := E1) (4 := On1); [repeat split|intros C; destruct (Nso C)|].
      apply (ends_after i (set_phase t (JpStepRun t0 js rs (SpDone r) rest)) s1 [YFlow (WTaskOp i JNext)] s2 o2 (set_phase t (JpSteps t0 (job_state_after js r) (rs ++ [r]) rest)));
        [constructor; [apply (job_op_quiet i JNext); auto|constructor]|constructor; [apply Nat.eqb_refl|constructor]|apply sysexec_one, E2|exact On2|repeat split|intros (r' & [C|C]); discriminate C|].
      eapply (IH (4 * length rest + 4)); [rewrite Hp in Hn; cbn [jrank] in Hn; lia|exact Hr2|exact Ht2|reflexivity].
    + exists (map (YStep i) more), s1, o1, (set_phase t (JpStepRun t0 js rs (SpPanic w) rest)). split; [exact Qm|]. split; [exact E1|]. split; [exact On1|]. split; [exact Ht1|].
      split; [repeat split|]. split; [right; do 5 eexists; reflexivity|]. split; [intros C; destruct (Nso C)|exact Bm].
  - assert (Hns : forall sop, op <> JStep sop) by (intros sop ->; destruct Hop; discriminate).
    destruct (flow_op s i t op _ _ _ Ht Hns E) as (s2 & o2 & E2 & On2 & Ht2).
    assert (Hr2 := sysrun_step R glob cx wf _ _ _ _ _ _ _ Hr E2).
    apply (ends_after i t s [YFlow (WTaskOp i op)] s2 o2 (set_phase t p')); [constructor; [apply (job_op_quiet i op Hop)|constructor]|constructor; [apply Nat.eqb_refl|constructor]|apply sysexec_one, E2|exact On2|repeat split| |].
    + intros C. eapply signed_off_step; [exact C|exact E].
    + eapply (IH (jrank (length (jb_steps (tk_job t))) p')); [lia|exact Hr2|exact Ht2|reflexivity].
Qed.

(** While the workflow's task waits, some job that was started has not been heard of. *)
Lemma unheard wls w tr t0 ws wa rs : NoDup (keys (wf_jobs wf)) -> acyclic wf -> wf_jobs wf <> [] -> wrun glob cx wf wls w tr -> ws_main w = WpLoop t0 ws wa rs -> ws_chan w = [] ->
  exists k, In k (started tr) /\ ~ In k (map fst (received tr)).
Proof.
  intros Hnd [level Hl] Hne W Em Ec. destruct (winv glob cx wf Hnd _ _ _ W) as [M _].
  destruct (existsb (fun k => negb (memb k (map fst (received tr)))) (started tr)) eqn:Ex.
  { apply existsb_exists in Ex as (k & Hk & Hn). exists k. split; [exact Hk|]. apply negb_true_iff, memb_false in Hn. exact Hn. }
  exfalso.
  assert (Sub : forall k, In k (started tr) -> In k (map fst (received tr))).
  { intros k Hk. destruct (memb k (map fst (received tr))) eqn:Eb; [apply memb_true, Eb|]. exfalso.
    assert (existsb (fun k => negb (memb k (map fst (received tr)))) (started tr) = true) by (apply existsb_exists; exists k; rewrite Eb; auto). congruence. }
  clear Ex. rewrite Em in M. cbn in M. destruct M as (chk & recs & (_ & Hlr & _ & -> & _ & Hlen) & Hm).
  assert (Hrc : received tr = recs) by (unfold received; rewrite Hm, received_wmid by exact Hlr; reflexivity). rewrite Hrc in *.
  assert (Hst : started tr = independent wf ++ started_in (reactions wf [] recs)).
  { unfold started. rewrite Hm. unfold wmid, whead. destruct (lets_run_quiet _ _ Hlr) as [_ Hq]. rewrite !started_in_app, Hq, started_spawns. reflexivity. }
  assert (All : forall n k, level k < n -> In k (keys (wf_jobs wf)) -> In k (map fst recs)).
  { induction n as [|n IHn]; intros k Hlk Hk; [lia|].
    destruct (in_dec string_dec k (map fst recs)) as [|Hni]; [assumption|]. exfalso.
    unfold keys in Hk. apply in_map_iff in Hk as ([k' j] & Hkk & Hj). cbn in Hkk. subst k'.
    destruct (jb_depends_on j) as [|d0 ds] eqn:Ed.
    - apply Hni, Sub. rewrite Hst. apply in_or_app. left. apply independent_in. eauto.
    - assert (Hd : forall d, In d (jb_depends_on j) -> In d (map fst recs)).
      { intros d Hd. destruct (Hl k d) as [Hdk Hdl]; [exists j; auto|]. apply IHn; [lia|exact Hdk]. }
      destruct recs as [|x recs' _] using rev_ind; [apply (Hd d0); rewrite Ed; left; reflexivity|].
      apply Hni, Sub. rewrite Hst. apply in_or_app. right. destruct x as [kx rx]. rewrite reactions_app, started_in_app. apply in_or_app. right. cbn [reactions].
      change (OReceive kx rx :: ?x) with ([OReceive kx rx] ++ x). rewrite !started_in_app, started_spawns. apply in_or_app. right. apply in_or_app. left.
      apply eligible_in. exists j. cbn [app]. rewrite map_app in *. split; [exact Hj|]. split; [rewrite Ed; discriminate|]. split; [exact Hd|exact Hni]. }
  apply (Hlen Hne). replace (length (results_of recs)) with (length (keys (results_of recs))) by (unfold keys; apply map_length).
  replace (length (wf_jobs wf)) with (length (keys (wf_jobs wf))) by (unfold keys; apply map_length).
  apply Nat.le_antisymm.
  - apply NoDup_incl_length; [apply results_nodup|]. intros k Hk. apply (proj1 (results_keys _ _)) in Hk. rewrite <- Hrc in Hk.
    apply (received_started glob cx wf Hnd _ _ _ _ W) in Hk. destruct (started_is_job glob cx wf Hnd _ _ _ _ W Hk) as (j & Hj & _). apply (in_map fst _ _ Hj).
  - apply NoDup_incl_length; [exact Hnd|]. intros k Hk. apply results_keys. eapply All; [apply Nat.lt_succ_diag_r|exact Hk].
Qed.

Hypothesis Hnd : NoDup (keys (wf_jobs wf)).
Hypothesis Hne : wf_jobs wf <> [].
Hypothesis Hid : distinct_ids wf.
Hypothesis Hown : forall k j, In (k, j) (wf_jobs wf) -> owns_steps j.

Lemma exec_orderly ops more : (forall op, In op ops -> orderly wf tame op) -> Forall (goes_on gh inner) more -> forall op, In op (ops ++ more) -> orderly wf tame op.
Proof. intros H1 H2 op Hop. apply in_app_iff in Hop as [Hop|Hop]; [auto|]. apply goes_orderly. exact (proj1 (Forall_forall _ _) H2 op Hop). Qed.

(** The tasks of a job that was not heard of have not sent. *)
Lemma unheard_unsent wls w tr k i t : wrun glob cx wf wls w tr -> is_done (ws_main w) = false -> ws_chan w = [] -> ~ In k (map fst (received tr)) ->
  nth_error (ws_tasks w) i = Some t -> tk_key t = k -> tk_sent t = false.
Proof.
  intros W Hm Hc Hk Ht Ek. destruct (tk_sent t) eqn:Es; [|reflexivity]. exfalso. destruct (winv glob cx wf Hnd _ _ _ W) as [_ [_ _ _ (order & _ & T5 & T6)]].
  assert (Hi := T6 Hm i t Ht Es). rewrite Hc, app_nil_r in T5. apply (Forall2_in_l _ _ _ i T5) in Hi as (x & Hx & t' & Ht' & Hk' & _). rewrite Ht in Ht'. injection Ht' as <-.
  apply Hk. rewrite <- Ek, Hk'. apply in_map, Hx.
Qed.

(** One task of it can be completed. *)
Lemma finish_unheard sh0 ops s tr t0 ws wa rs : sysrun sh0 ops s tr -> (forall op, In op ops -> orderly wf tame op) -> ws_main (sy_w s) = WpLoop t0 ws wa rs -> ws_chan (sy_w s) = [] ->
  forall k, In k (started (flow_of R tr)) -> ~ In k (map fst (received (flow_of R tr))) -> exists more s' o i t', Forall quiet_op more /\ sysexec s more = Some (s', o) /\ ws_main (sy_w s') = WpLoop t0 ws wa rs /\ ws_chan (sy_w s') = [] /\
    nth_error (ws_tasks (sy_w s')) i = Some t' /\ finished t' /\ tk_sent t' = false.
Proof.
  intros Hr Ho Em Ec k Hk Hnk. destruct (flow_run2 _ _ _ _ Hr Ho) as (wls & W & Wb & _).
  assert (Hnm : is_done (ws_main (sy_w s)) = false) by (rewrite Em; reflexivity).
  destruct (winv glob cx wf Hnd _ _ _ W) as [_ [T1 _ _ _]]. rewrite <- T1 in Hk. apply in_map_iff in Hk as (t & Ek & Ht). apply In_nth_error in Ht as (i & Ht).
  assert (Hu := unheard_unsent _ _ _ _ _ _ W Hnm Ec Hnk Ht Ek).
  destruct (finish_job _ _ _ _ _ _ _ Hr Ht (Nat.le_refl _)) as (more & s1 & o1 & t1 & Q1 & E1 & [On1 On2 On3] & Ht1 & (K1 & K2 & K3) & [Hf|Hc] & _).
  { exists more, s1, o1, i, t1. split; [exact Q1|]. split; [exact E1|]. split; [congruence|]. split; [congruence|]. split; [exact Ht1|]. split; [exact Hf|congruence]. }
  assert (Hr1 : sysrun sh0 (ops ++ more) s1 (tr ++ o1)) by (eapply sysexec_run; eassumption).
  assert (Ho1 := exec_orderly _ _ Ho (quiet_goes _ Q1)). destruct (flow_run2 _ _ _ _ Hr1 Ho1) as (wls1 & W1 & Wb1 & _).
  destruct (C92_crash_needs_a_finished_twin glob cx wf _ _ _ Hnd W1 Hid Hown Wb1 i t1 Ht1 Hc) as (i2 & t2 & Hni & Ht2 & Ek2 & Hso).
  assert (Ht2' : nth_error (ws_tasks (sy_w s)) i2 = Some t2) by (rewrite <- On3; assumption).
  assert (Hu2 : tk_sent t2 = false) by (eapply (unheard_unsent _ _ _ k); [exact W|exact Hnm|exact Ec|exact Hnk|exact Ht2'|congruence]).
  destruct (finish_job _ _ _ _ _ _ _ Hr1 Ht2 (Nat.le_refl _)) as (more2 & s2 & o2 & t3 & Q2 & E2 & [On4 On5 On6] & Ht3 & (K4 & K5 & K6) & _ & Hfin & _).
  exists (more ++ more2), s2, (o1 ++ o2), i2, t3. split; [apply Forall_app; auto|]. split; [eapply sysexec_app; eassumption|]. split; [congruence|]. split; [congruence|].
  split; [exact Ht3|]. split; [auto|congruence].
Qed.

(** Nothing is left to do for the workflow's task except to wait for jobs it has not started. *)
Definition at_rest (w : wstate) (tr : trace) : Prop :=
  (exists t0 ws wa rs, ws_main w = WpLoop t0 ws wa rs) /\ ws_chan w = [] /\ forall k, In k (started tr) -> In k (map fst (received tr)).
Definition settles (tr : list (who * (obs + iobs))) (s : @system T) : Prop :=
  exists more s' o, Forall (goes_on gh inner) more /\ sysexec s more = Some (s', o) /\ ((exists r, ws_main (sy_w s') = WpDone r) \/ at_rest (sy_w s') (flow_of R (tr ++ o))).
Lemma settles_after tr s a s1 o1 : Forall (goes_on gh inner) a -> sysexec s a = Some (s1, o1) -> settles (tr ++ o1) s1 -> settles tr s.
Proof.
  intros Ha Ea (more & s' & o & Hm & Em & Hd). exists (a ++ more), s', (o1 ++ o). split; [apply Forall_app; auto|]. split; [eapply sysexec_app; eassumption|]. rewrite app_assoc. exact Hd.
Qed.
Lemma main_sys s w' o : main_step glob cx wf (sy_w s) = Some (w', o) -> exists s', sysstep R glob cx wf s (YFlow WMain) = Some (s', map (fun x => (fst x, inl (snd x))) o) /\ sy_w s' = w'.
Proof. intros E. cbn [sysstep is_step_op wstep step_over]. rewrite E. eexists. split; reflexivity. Qed.

Definition mains (ops : list sysop') : nat := length (filter ymain ops).
Definition limit : nat := let n := length (wf_jobs wf) in n + 8 + receive_bound n n n * (n + 2).
Lemma mains_le sh0 ops s tr : sysrun sh0 ops s tr -> (forall op, In op ops -> orderly wf tame op) -> mains ops <= limit.
Proof.
  intros Hr Ho. destruct (flow_run2 _ _ _ _ Hr Ho) as (wls & W & _ & Hc). unfold mains. rewrite <- Hc. exact (proj2 (C35_bounded glob cx wf _ _ _ Hnd W)).
Qed.

Lemma settle n : forall sh0 ops s tr, sysrun sh0 ops s tr -> (forall op, In op ops -> orderly wf tame op) -> limit - mains ops <= n -> settles tr s.
Proof.
  induction n as [n IH] using (well_founded_induction Wf_nat.lt_wf). intros sh0 ops s tr Hr Ho Hn.
  (* once the workflow's task can go on *)
  assert (Go : forall a s1 o1, Forall (goes_on gh inner) a -> sysexec s a = Some (s1, o1) -> main_step glob cx wf (sy_w s1) <> None -> settles tr s).
  { intros a s1 o1 Ha Ea Hm. destruct (main_step glob cx wf (sy_w s1)) as [[w' o']|] eqn:Es; [|congruence]. destruct (main_sys _ _ _ Es) as (s2 & E2 & _).
    assert (Hr1 : sysrun sh0 (ops ++ a) s1 (tr ++ o1)) by (eapply sysexec_run; eassumption).
    assert (Hr2 := sysrun_step R glob cx wf _ _ _ _ _ _ _ Hr1 E2).
    assert (Ho2 : forall op, In op ((ops ++ a) ++ [YFlow WMain]) -> orderly wf tame op) by (apply exec_orderly; [apply exec_orderly; assumption|constructor; [exact Logic.I|constructor]]).
    assert (L := mains_le _ _ _ _ Hr2 Ho2).
    assert (C : mains ((ops ++ a) ++ [YFlow WMain]) >= S (mains ops)).
    { unfold mains. rewrite !filter_app, !app_length. cbn [filter ymain is_main length]. lia. }
    eapply settles_after; [exact Ha|exact Ea|]. eapply (settles_after _ _ [YFlow WMain]); [constructor; [exact Logic.I|constructor]|apply sysexec_one, E2|].
    eapply (IH (limit - mains ((ops ++ a) ++ [YFlow WMain]))); [lia|exact Hr2|exact Ho2|lia]. }
  destruct (flow_run2 _ _ _ _ Hr Ho) as (wls & W & _ & _).
  destruct (main_step glob cx wf (sy_w s)) as [[w' o']|] eqn:Es; [eapply (Go []); [constructor|reflexivity|congruence]|].
  destruct (ws_main (sy_w s)) as [|c ev| | |t0|t0|t0 w wa rest|t0 w wa rs|t0 w wa rs todo|t0 w rs|r|r|r] eqn:Em; unfold main_step in Es; rewrite Em in Es; try discriminate Es.
  - destruct (wf_on wf); [destruct (is_match_first _ _ _ _)|]; discriminate Es.
  - (* GitHub *)
    assert (E : exists s1 o1, sysstep R glob cx wf s (YFlow (WGithub gh)) = Some (s1, o1) /\ (ws_main (sy_w s1) = WpStart \/ ws_main (sy_w s1) = WpSkip)).
    { cbn [sysstep is_step_op wstep step_over]. rewrite Em. destruct (is_match_second _ _ _ _) as [ca b]. do 2 eexists. split; [reflexivity|]. cbn. destruct b; auto. }
    destruct E as (s1 & o1 & E & Hp). eapply (Go [YFlow (WGithub gh)]); [constructor; [reflexivity|constructor]|apply sysexec_one, E|].
    unfold main_step. destruct Hp as [-> | ->]; discriminate.
  - destruct rest as [|[k j] rest]; [discriminate|]. destruct (has_deps j); discriminate Es.
  - (* waiting *)
    destruct (ws_chan (sy_w s)) as [|[k r] ch] eqn:Ec; [|discriminate]. clear Es.
    destruct (existsb (fun k => negb (memb k (map fst (received (flow_of R tr))))) (started (flow_of R tr))) eqn:Ex.
    2:{ exists [], s, []. split; [constructor|]. split; [reflexivity|]. right. rewrite app_nil_r. split; [rewrite Em; eauto|]. split; [exact Ec|].
        intros k Hk. destruct (memb k (map fst (received (flow_of R tr)))) eqn:Eb; [apply memb_true, Eb|]. exfalso.
        assert (existsb (fun k => negb (memb k (map fst (received (flow_of R tr))))) (started (flow_of R tr)) = true) by (apply existsb_exists; exists k; rewrite Eb; auto). congruence. }
    apply existsb_exists in Ex as (k1 & Hk1 & Hn1). apply negb_true_iff, memb_false in Hn1.
    destruct (finish_unheard _ _ _ _ _ _ _ _ Hr Ho Em Ec _ Hk1 Hn1) as (more & s1 & o1 & i & [key j p sent] & Q1 & E1 & Em1 & Ec1 & Ht1 & (r & Hf) & Hs). cbn in Hf, Hs. subst p sent.
    assert (E : exists s2 o2, sysstep R glob cx wf s1 (YFlow (WSend i)) = Some (s2, o2) /\ ws_main (sy_w s2) = WpLoop t0 w wa rs /\ ws_chan (sy_w s2) = [(key, r)]).
    { cbn [sysstep is_step_op wstep step_over]. rewrite Ht1, Em1, Ec1. cbn [length Nat.ltb Nat.leb channel_capacity]. do 2 eexists. split; [reflexivity|]. auto. }
    destruct E as (s2 & o2 & E2 & Em2 & Ec2). eapply (Go (more ++ [YFlow (WSend i)])).
    + apply Forall_app. split; [apply quiet_goes, Q1|constructor; [exact Logic.I|constructor]].
    + eapply sysexec_app; [exact E1|apply sysexec_one, E2].
    + unfold main_step. rewrite Em2, Ec2. discriminate.
  - destruct todo as [|[k j] todo]; [discriminate|]. destruct (ready rs j); discriminate Es.
  - exists [], s, []. split; [constructor|]. split; [reflexivity|]. left. eauto.
Qed.
Lemma always_settles sh0 ops s tr : sysrun sh0 ops s tr -> (forall op, In op ops -> orderly wf tame op) -> settles tr s.
Proof. intros Hr Ho. eapply settle; [exact Hr|exact Ho|reflexivity]. Qed.

(** Without cycles it is done then. *)
Definition completes (s : @system T) : Prop :=
  exists more s' o r, Forall (goes_on gh inner) more /\ sysexec s more = Some (s', o) /\ ws_main (sy_w s') = WpDone r.
Hypothesis Hac : acyclic wf.
Lemma always_completes sh0 ops s tr : sysrun sh0 ops s tr -> (forall op, In op ops -> orderly wf tame op) -> completes s.
Proof.
  intros Hr Ho. destruct (always_settles _ _ _ _ Hr Ho) as (more & s' & o & Hm & E & [[r Hd]|((t0 & ws & wa & rs & Em) & Ec & Hs)]); [exists more, s', o, r; auto|].
  exfalso. assert (Hr1 : sysrun sh0 (ops ++ more) s' (tr ++ o)) by (eapply sysexec_run; eassumption). destruct (flow_run2 _ _ _ _ Hr1 (exec_orderly _ _ Ho Hm)) as (wls & W & _).
  destruct (unheard _ _ _ _ _ _ _ Hnd Hac Hne W Em Ec) as (k & Hk & Hn). apply Hn, Hs, Hk.
Qed.
End G.
