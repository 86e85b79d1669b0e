From Verif Require Import Base Types Signals_model Signals_proof Stream_model Stream_spec Stream_proof Cond_model
  Plugins_model Plugins_spec Plugins_proof Exec_model Exec_spec Step_proof Job_proof Workflow_model Workflow_spec Workflow_proof Workflow_inv Workflow_term Workflow_props
  Exact_crash Exact_props Runner_model Local_model Local_spec Local_proof Distant_model Distant_spec Distant_proof System_model System_spec System_proof System_flow System_props Finish_spec Finish_proof Pace_spec.

(** How much a step still has to do before it is done, apart from what its runner has to do. *)
Definition unread (str : stream_state) : nat := length (ss_logs str) - ss_index str.
Definition prank (p : step_phase) : nat :=
  match p with
  | SpBefore _ => 13 | SpStarted _ => 12 | SpRunEvent _ _ => 11 | SpQueue _ _ => 10 | SpGetSignal _ _ => 9 | SpCall _ _ _ => 8
  | SpCalling _ _ _ _ str => 7 + 4 * unread str | SpInProgress _ _ _ _ str => 6 + 4 * unread str | SpEnter _ _ _ _ str => 5 + 4 * unread str
  | SpLoop _ _ _ _ str _ => 5 + 4 * unread str | SpGotLog _ _ _ _ str _ => 7 + 4 * unread str | SpDeliver _ _ _ _ str _ => 6 + 4 * unread str
  | SpBroken _ _ _ _ _ => 4 | SpEnded _ _ _ _ => 3 | SpTerminal _ => 2 | SpComplete _ => 1 | SpDone _ | SpPanic _ => 0
  end.
Fixpoint total (l : list nat) : nat := match l with [] => 0 | a :: r => a + total r end.
Lemma total_app a b : total (a ++ b) = total a + total b.
Proof. induction a; cbn; lia. Qed.
Lemma total_set {A} (f : A -> nat) l : forall i x y, nth_error l i = Some x -> total (map f (list_set i y l)) + f x = total (map f l) + f y.
Proof.
  induction l as [|a l IH]; intros [|i] x y H; try discriminate H; cbn [nth_error] in H.
  - injection H as ->. cbn [list_set map total]. lia.
  - cbn [list_set map total]. specialize (IH i x y H). lia.
Qed.

(** The engine's part of a step. *)
Definition rop_cost (o : runner_op) : nat := match o with RLog _ | RError _ => 6 | _ => 1 end.
Lemma poll_unread me str : match stream_poll me str with
  | (str', PItem _, _) => unread str = S (unread str')
  | (str', _, _) => unread str' = unread str
  end.
Proof.
  unfold stream_poll. destruct (nth_error (ss_logs str) (ss_index str)) eqn:E.
  - unfold unread. cbn [ss_logs ss_index]. assert (ss_index str < length (ss_logs str)) by (apply nth_error_Some; congruence). lia.
  - destruct (ss_result str); reflexivity.
Qed.
Lemma runner_unread o sg str : 4 * unread (snd (runner_step o sg str)) < 4 * unread str + rop_cost o.
Proof.
  destruct o as [m|m|c r|c| |so]; cbn [runner_step runner_stream_op snd stream_step rop_cost]; try lia.
  - unfold stream_log, unread. cbn [fst ss_logs ss_index]. rewrite app_length. cbn [length]. lia.
  - unfold stream_error, unread. cbn [fst ss_logs ss_index]. rewrite app_length. cbn [length]. lia.
  - unfold stream_end_check. destruct (ss_result str); cbn [fst]; unfold unread; cbn [ss_logs ss_index]; lia.
  - unfold stream_end_commit. destruct (lookup c (ss_enders str)); cbn [fst]; unfold unread; cbn [ss_logs ss_index]; lia.
  - cbn [fst]. lia.
Qed.
Lemma step_prank cx me sh p op sh' p' o : step_step cx me sh p op = Some (sh', p', o) ->
  match op with
  | OpRunner ro => prank p' < prank p + rop_cost ro
  | _ => match engine_kind op p' with Move => prank p' < prank p | _ => prank p' <= prank p end
  end.
Proof.
  intros E. destruct op as [|c|b| | | |ro].
  7: { destruct p; try discriminate E; cbn [step_step] in E; assert (U := runner_unread ro sg str); destruct (runner_step ro sg str) as [sg' str']; cbn [snd] in U; injection E as <- <- <-; cbn [prank]; try lia. destruct ro; cbn; lia. }
  all: destruct p; try discriminate E; cbn [step_step] in E.
  all: try (injection E as <- <- <-; cbn [engine_kind waits prank]; lia).
  - destruct (lookup _ _); injection E as <- <- <-; cbn; lia.
  - injection E as <- <- <-. cbn. lia.
  - destruct (ss_result str); injection E as <- <- <-; cbn; lia.
  - destruct b; injection E as <- <- <-; cbn [engine_kind waits prank]; lia.
  - destruct (_ <=? _)%N; [|discriminate E]. injection E as <- <- <-. cbn [engine_kind prank]. lia.
  - destruct (sm_step _ _) as [sm' out]; destruct out; try discriminate E; match type of E with match ?o with _ => _ end = _ => destruct o as [| |[]] end; try discriminate E; injection E as <- <- <-; cbn [engine_kind prank]; lia.
  - assert (U := poll_unread me str). destruct (stream_poll me str) as [[str' [l| |]] w]; injection E as <- <- <-; cbn [engine_kind waits prank]; lia.
Qed.

Section G.
Context {T iop iobs : Type}.
Variable R : rside T iop iobs.
Variable glob : glob_oracle.
Variable cx : ectx.
Variable wf : workflow.
Variable ikind : T -> iop -> step_phase -> T -> kind.
Notation sysrun := (sysrun R glob cx wf).
Notation sysexec := (sysexec R glob cx wf).
Notation sysstep := (sysstep R glob cx wf).
Notation sysop' := (sysop (iop := iop)).
Notation kinds := (kinds R glob cx wf ikind).
Notation kind_of := (kind_of ikind).

(** A measure of what the runner still has to do, and how much a printed line adds. *)
Variable rx : T -> nat.
Variable lc : nat.
Definition paced : Prop := forall me sh p x op sh' p' x' o, rs_step R me sh p x op = Some (sh', p', x', o) ->
  match ikind x op p' x' with
  | Move => prank p' + rx x' < prank p + rx x
  | Idle => prank p' + rx x' <= prank p + rx x
  | Printed => prank p' + rx x' <= prank p + rx x + lc
  end.
Variable K : nat.
Hypothesis F : faithful R cx.
Hypothesis Pc : paced.
Hypothesis Hk : rx (rs_init R) <= K.
Hypothesis Hnd : NoDup (keys (wf_jobs wf)).

Definition W : nat := 17 + K.
Definition jr (n : nat) (p : job_phase) : nat :=
  match p with
  | JpCheck => W * n + 10 | JpFetch _ _ => W * n + 9 | JpSkip => 1 | JpStart => W * n + 8 | JpRegister _ => W * n + 7 | JpRunEvent _ => W * n + 6 | JpInProgress _ => W * n + 5
  | JpSteps _ _ _ rest => W * length rest + 4 | JpStepFetch _ _ _ _ rest _ _ => W * length rest + W + 3 | JpStepSkip _ _ _ _ rest => W * length rest + 5
  | JpStepRun _ _ _ p rest => W * length rest + 5 + K + prank p | JpEndState _ => 3 | JpUnregister _ => 2 | JpCompleted _ => 1 | JpReturned _ => 0
  end.
Definition tr_ (t : wtask) : nat := jr (length (jb_steps (tk_job t))) (tk_phase t) + if tk_sent t then 0 else 1.
Definition pr (e : nat * (shared * step_phase * T)) : nat := prank (snd (fst (snd e))) + rx (snd (snd e)).
Definition wr (p : wphase) : nat := match p with WpFetch _ _ => 1 | _ => 0 end.
Definition rest_ (s : @system T) : nat := wr (ws_main (sy_w s)) + total (map tr_ (ws_tasks (sy_w s))) + total (map rx (sy_cur s)) + total (map pr (sy_past s)).

Lemma job_pace me j sh p op sh' p' o : job_step glob cx me j sh p op = Some (sh', p', o) -> (forall so, op <> JStep so) ->
  jr (length (jb_steps j)) p' + (match p with JpStepRun _ _ _ _ _ => K | _ => 0 end) < jr (length (jb_steps j)) p.
Proof.
  intros E Hs. destruct op as [|g|so]; [| |destruct (Hs so eq_refl)]; destruct p as [|c ev| | |t0|t0|t0|t0 js rs [|st rest]|t0 js rs st rest c ev|t0 js rs st rest|t0 js rs sp rest|r|r|r|r]; try discriminate E; cbn [job_step] in E.
  all: try (injection E as <- <- <-; cbn [jr length]; unfold W; lia).
  - destruct (jb_on j); [destruct (is_match_first _ _ _ _) as [b|]|]; injection E as <- <- <-; try destruct b; cbn [jr]; lia.
  - destruct (forced_skip js st); [injection E as <- <- <-; cbn [jr length]; unfold W; nia|].
    destruct (st_on st); [destruct (is_match_first _ _ _ _) as [b|]|]; injection E as <- <- <-; try destruct b; cbn [jr prank length]; unfold W; nia.
  - destruct sp; try discriminate E. injection E as <- <- <-. cbn [jr prank]. lia.
  - destruct (is_match_second _ _ _ _) as [ca b]. injection E as <- <- <-. destruct b; cbn [jr]; lia.
  - destruct (is_match_second _ _ _ _) as [ca b]. injection E as <- <- <-. destruct b; cbn [jr prank]; unfold W; lia.
  - destruct sp; discriminate E.
Qed.

Lemma flow_count sh0 ops s tr : sysrun sh0 ops s tr -> exists wls, wrun glob cx wf wls (sy_w s) (flow_of R tr) /\ length (filter is_main wls) = length (filter ymain ops).
Proof.
  induction 1 as [|ops s tr op s' o Hr IH E]; [exists []; split; [constructor|reflexivity]|].
  destruct IH as (wls & Wr & L2).
  assert (I := sys_inv R glob cx wf F _ _ _ _ Hr).
  assert (Fa : flow_of R (tr ++ o) = flow_of R tr ++ flow_of R o) by apply flow_app. rewrite Fa. clear Fa. rewrite filter_app, app_length.
  destruct op as [wo|i io|k io]; cbn [System_model.sysstep] in E; cbn [filter ymain length].
  - destruct (is_step_op wo) eqn:Hs; [discriminate|]. destruct (wstep glob cx wf (sy_w s) wo) as [[w' wtr]|] eqn:Ew; [|discriminate].
    exists (wls ++ [wo]). split.
    + assert (Kk : sy_w s' = w' /\ o = map (fun x => (fst x, inl (snd x))) wtr).
      { destruct (step_over (sy_w s) wo) as [[i p]|]; injection E as <- <-; auto. }
      destruct Kk as [-> ->]. rewrite flow_inl. eapply wrun_step; eassumption.
    + rewrite filter_app, app_length, L2. cbn [filter]. destruct (is_main wo); reflexivity.
  - rewrite Nat.add_0_r.
    destruct (nth_error (ws_tasks (sy_w s)) i) as [t|] eqn:Et; [|discriminate]. destruct (nth_error (sy_cur s) i) as [x|] eqn:Ex; [|discriminate].
    destruct (tk_phase t) as [| | | | | | | | | |t0 js rs sp rest| | | |] eqn:Ep; try discriminate E.
    destruct (rs_step R (S i) (ws_sh (sy_w s)) sp x io) as [[[[sh' sp'] x'] out]|] eqn:Es; [|discriminate E]. injection E as <- <-. cbn [sy_w].
    rewrite flow_inr. apply F in Es as [(-> & -> & ->)|(sop & Es)].
    + exists wls. split; [|exact L2]. cbn [map]. rewrite app_nil_r.
      replace (WState _ _ _ _) with (sy_w s); [exact Wr|]. destruct (sy_w s) as [a b ts d]. cbn in *. f_equal. symmetry. apply list_set_same. rewrite Et. destruct t; cbn in *; subst; reflexivity.
    + exists (wls ++ [WTaskOp i (JStep sop)]). split.
      * eapply wrun_step; [exact Wr|]. cbn [wstep]. rewrite Et, Ep. unfold job_step.
        replace (match sp with SpDone _ => _ | _ => _ end) with (Some (sh', JpStepRun t0 js rs sp' rest, step_events R out)); [reflexivity|].
        destruct sp; rewrite Es; reflexivity.
      * rewrite filter_app, app_length, L2. cbn [filter is_main length]. lia.
  - rewrite Nat.add_0_r.
    destruct (nth_error (sy_past s) k) as [[i [[sh p] x]]|] eqn:Ek; [|discriminate].
    destruct (rs_step R (S i) sh p x io) as [[[[sh' p'] x'] out]|] eqn:Es; [|discriminate E]. injection E as <- <-. cbn [sy_w].
    destruct (si_past R cx _ _ _ I _ (nth_error_In _ _ Ek)) as (st & r & iops & os & Hp & _). cbn [fst snd] in Hp. subst p.
    destruct (done_silent R cx F _ _ _ _ _ _ _ _ _ Es) as (_ & _ & Hso). rewrite flow_inr, Hso. cbn [map]. rewrite app_nil_r.
    exists wls. auto.
Qed.

(** What spawning one more task can cost. *)
Definition C : nat := W * most_steps wf + 11 + K.
Lemma most_steps_le k j : In (k, j) (wf_jobs wf) -> length (jb_steps j) <= most_steps wf.
Proof.
  unfold most_steps. clear Hnd. induction (wf_jobs wf) as [|kj l IH]; intros H; [destruct H|]. cbn [fold_right]. destruct H as [->|H]; [cbn [snd]; lia|]. specialize (IH H). lia.
Qed.
Lemma main_pace w w' o : main_step glob cx wf w = Some (w', o) ->
  (ws_tasks w' = ws_tasks w /\ wr (ws_main w') <= 1) \/ exists kj, ws_tasks w' = ws_tasks w ++ [new_task kj] /\ wr (ws_main w') = 0.
Proof.
  intros E. unfold main_step in E. destruct (ws_main w) as [|c ev| | |t0|t0|t0 ws wa [|[k j] rest]|t0 ws wa rs|t0 ws wa rs [|[k j] todo]|t0 ws rs|r|r|r]; try discriminate E;
    try (injection E as <- <-; left; split; [reflexivity|cbn; lia]).
  - left. destruct (wf_on wf); [destruct (is_match_first _ _ _ _) as [b|]|]; injection E as <- <-; split; try reflexivity; try destruct b; cbn; lia.
  - destruct (has_deps j); [injection E as <- <-; left; split; [reflexivity|cbn; lia]|]. unfold spawn in E. injection E as <- <-. right. exists (k, j). split; reflexivity.
  - destruct (ws_chan w) as [|[k r] ch]; [discriminate E|]. injection E as <- <-. left. split; [reflexivity|]. cbn [ws_main]. destruct (Nat.eqb _ _); cbn; lia.
  - destruct (ready rs j); [|injection E as <- <-; left; split; [reflexivity|cbn; lia]]. unfold spawn in E. injection E as <- <-. right. exists (k, j). split; reflexivity.
Qed.
Lemma pad_total n (l : list T) : length l <= n -> total (map rx (pad R n l)) <= total (map rx l) + (n - length l) * K.
Proof.
  intros _. unfold pad. rewrite map_app, total_app. assert (H : total (map rx (repeat (rs_init R) (n - length l))) <= (n - length l) * K).
  { induction (n - length l) as [|m IH]; [cbn; lia|]. cbn [repeat map total Nat.mul]. lia. } lia.
Qed.
Definition ymain_kind (op : sysop') (k : kind) : Prop := ymain op = true -> k = Move.
Lemma sys_pace sh0 ops s tr op s' o : sysrun sh0 ops s tr -> sysstep s op = Some (s', o) ->
  match kind_of s op s' with
  | Move => if ymain op then rest_ s' <= rest_ s + C else rest_ s' < rest_ s
  | Idle => ymain op = false /\ rest_ s' <= rest_ s
  | Printed => ymain op = false /\ rest_ s' <= rest_ s + lc
  end.
Proof.
  intros Hr E. assert (I := sys_inv R glob cx wf F _ _ _ _ Hr). assert (Hr' := sysrun_step R glob cx wf _ _ _ _ _ _ _ Hr E).
  destruct (flow_count _ _ _ _ Hr') as (wls & Wr & _). destruct (winv glob cx wf Hnd _ _ _ Wr) as [_ [_ Tj _ _]]. clear Wr Hr'.
  assert (Hl := si_len R cx _ _ _ I).
  destruct op as [wo|i io|k io].
  - cbn [System_model.sysstep] in E. destruct (is_step_op wo) eqn:Hs; [discriminate|]. destruct (wstep glob cx wf (sy_w s) wo) as [[w' wtr]|] eqn:Ew; [|discriminate].
    destruct wo as [|g|i jo|i|e]; cbn [Pace_spec.kind_of ymain is_main] in *.
    + cbn [step_over] in E. injection E as <- <-. cbn [wstep] in Ew. unfold rest_. cbn [sy_w sy_cur sy_past] in *. rewrite app_nil_r.
      assert (Kk : total (map tr_ (ws_tasks w')) + total (map rx (pad R (length (ws_tasks w')) (sy_cur s))) + wr (ws_main w') <= total (map tr_ (ws_tasks (sy_w s))) + total (map rx (sy_cur s)) + C); [|lia].
      destruct (main_pace _ _ _ Ew) as [[Ht Hw]|(kj & Ht & Hw)]; rewrite Ht in *.
      * rewrite (pad_eq R) by exact Hl. unfold C. lia.
      * rewrite app_length. cbn [length]. assert (Pt := pad_total (length (ws_tasks (sy_w s)) + 1) (sy_cur s) ltac:(lia)).
        replace (length (ws_tasks (sy_w s)) + 1 - length (sy_cur s)) with 1 in Pt by lia.
        rewrite map_app, total_app. cbn [map total]. assert (Hj := Tj (new_task kj) ltac:(apply in_or_app; right; left; reflexivity)). apply most_steps_le in Hj.
        unfold tr_ at 2. cbn [new_task tk_job tk_phase tk_sent jr] in *. assert (W * length (jb_steps (snd kj)) <= W * most_steps wf) by (apply Nat.mul_le_mono_l, Hj). unfold C. lia.
    + cbn [step_over] in E. injection E as <- <-. cbn [wstep] in Ew. destruct (ws_main (sy_w s)) eqn:Em; try discriminate Ew. destruct (is_match_second _ _ _ _) as [ca b]. injection Ew as <- <-.
      unfold rest_. cbn [sy_w sy_cur sy_past ws_tasks ws_main]. rewrite app_nil_r, (pad_eq R) by exact Hl. rewrite Em. destruct b; cbn; lia.
    + cbn [wstep] in Ew. destruct (nth_error (ws_tasks (sy_w s)) i) as [t|] eqn:Et; [|discriminate]. destruct (job_step _ _ _ _ _ _ _) as [[[sh' p'] jo']|] eqn:Ej; [|discriminate]. injection Ew as <- <-.
      assert (J := job_pace _ _ _ _ _ _ _ _ Ej ltac:(intros so ->; discriminate Hs)).
      assert (Tt := total_set tr_ _ i t (WTask (tk_key t) (tk_job t) p' (tk_sent t)) Et). unfold tr_ at 2 4 in Tt. cbn [tk_job tk_phase tk_sent] in Tt.
      destruct (step_over (sy_w s) (WTaskOp i jo)) as [[i' p]|] eqn:So.
      * cbn [step_over] in So. destruct jo; try discriminate So. rewrite Et in So. destruct (tk_phase t) as [| | | | | | | | | |t0 js rs sp rest| | | |] eqn:Ep; try discriminate So. destruct sp; try discriminate So. injection So as <- <-.
        destruct (nth_error (sy_cur s) i) as [x|] eqn:Ex; [|apply nth_error_None in Ex; assert (i < length (ws_tasks (sy_w s))) by (apply nth_error_Some; congruence); lia].
        injection E as <- <-. unfold rest_. cbn [sy_w sy_cur sy_past ws_tasks ws_main]. rewrite (pad_eq R) by (rewrite !list_set_length; exact Hl). rewrite map_app, total_app. cbn [map total pr prank fst snd].
        assert (Tx := total_set rx _ i x (rs_init R) Ex). unfold pr at 2. cbn [prank fst snd]. lia.
      * injection E as <- <-. unfold rest_. cbn [sy_w sy_cur sy_past ws_tasks ws_main]. rewrite app_nil_r, (pad_eq R) by (rewrite !list_set_length; exact Hl). lia.
    + cbn [step_over] in E. injection E as <- <-. cbn [wstep] in Ew. destruct (nth_error (ws_tasks (sy_w s)) i) as [[key j [| | | | | | | | | | | | | |r] [|]]|] eqn:Et; try discriminate Ew.
      assert (Tt := total_set tr_ _ i _ (WTask key j (JpReturned r) true) Et). unfold tr_ at 2 4 in Tt. cbn [tk_job tk_phase tk_sent jr] in Tt.
      assert (Kk : ws_main w' = ws_main (sy_w s) /\ ws_tasks w' = list_set i (WTask key j (JpReturned r) true) (ws_tasks (sy_w s))).
      { destruct (ws_main (sy_w s)) eqn:Em; try (destruct (Nat.ltb _ _); [|discriminate Ew]); injection Ew as <- <-; split; try reflexivity; cbn; exact Em || (symmetry; exact Em). }
      destruct Kk as [K1 K2]. unfold rest_. cbn [sy_w sy_cur sy_past]. rewrite K1, K2, app_nil_r, (pad_eq R) by (rewrite !list_set_length; exact Hl). lia.
    + cbn [step_over] in E. injection E as <- <-. cbn [wstep] in Ew. injection Ew as <- <-. split; [reflexivity|]. unfold rest_. cbn [sy_w sy_cur sy_past ws_tasks ws_main]. rewrite app_nil_r, (pad_eq R) by exact Hl. lia.
  - cbn [System_model.sysstep] in E. destruct (nth_error (ws_tasks (sy_w s)) i) as [t|] eqn:Et; [|discriminate]. destruct (nth_error (sy_cur s) i) as [x|] eqn:Ex; [|discriminate].
    destruct (tk_phase t) as [| | | | | | | | | |t0 js rs sp rest| | | |] eqn:Ep; try discriminate E.
    destruct (rs_step R (S i) (ws_sh (sy_w s)) sp x io) as [[[[sh' sp'] x'] out]|] eqn:Es; [|discriminate E]. injection E as <- <-.
    assert (P := Pc _ _ _ _ _ _ _ _ _ Es). cbn [Pace_spec.kind_of sy_w sy_cur ws_tasks ymain]. rewrite Ex, (list_set_eq i _ _ _ Et), (list_set_eq i _ _ _ Ex). cbn [set_phase tk_phase].
    assert (Tt := total_set tr_ _ i t (set_phase t (JpStepRun t0 js rs sp' rest)) Et). unfold tr_ at 2 4 in Tt. cbn [set_phase tk_job tk_phase tk_sent] in Tt. rewrite Ep in Tt. cbn [jr] in Tt.
    assert (Tx := total_set rx _ i x x' Ex). unfold rest_. cbn [sy_w sy_cur sy_past ws_tasks ws_main set_phase] in *.
    destruct (ikind x io sp' x'); try (split; [reflexivity|]); lia.
  - cbn [System_model.sysstep] in E. destruct (nth_error (sy_past s) k) as [[i [[sh p] x]]|] eqn:Ek; [|discriminate].
    destruct (rs_step R (S i) sh p x io) as [[[[sh' p'] x'] out]|] eqn:Es; [|discriminate E]. injection E as <- <-.
    assert (P := Pc _ _ _ _ _ _ _ _ _ Es). cbn [Pace_spec.kind_of sy_past ymain]. rewrite Ek, (list_set_eq k _ _ _ Ek).
    assert (Tt := total_set pr _ k _ (i, (sh', p', x')) Ek). unfold pr at 2 4 in Tt. cbn [fst snd] in Tt. unfold rest_. cbn [sy_w sy_cur sy_past] in *.
    destruct (ikind x io p' x'); try (split; [reflexivity|]); lia.
Qed.

Lemma run_exec sh0 ops s tr : sysrun sh0 ops s tr -> sysexec (start sh0) ops = Some (s, tr).
Proof.
  induction 1 as [|ops s tr op s' o Hr IH E]; [reflexivity|]. eapply (sysexec_app R glob cx wf); [exact IH|]. apply sysexec_one, E.
Qed.
Lemma kinds_app a : forall b s s1 o, sysexec s a = Some (s1, o) -> kinds s (a ++ b) = kinds s a ++ kinds s1 b.
Proof.
  induction a as [|op a IH]; intros b s s1 o E; cbn [System_model.sysexec] in E; [injection E as <- <-; reflexivity|]. cbn [app Pace_spec.kinds].
  destruct (sysstep s op) as [[s' o1]|]; [|discriminate]. destruct (sysexec s' a) as [[s2 o2]|] eqn:E2; [|discriminate]. injection E as <- <-. cbn [app]. rewrite (IH _ _ _ _ E2). reflexivity.
Qed.
Notation moves := (moves R glob cx wf ikind).
Notation lines := (lines R glob cx wf ikind).
Lemma mains_bound sh0 ops s tr : sysrun sh0 ops s tr -> length (filter ymain ops) <= limit wf.
Proof. intros Hr. destruct (flow_count _ _ _ _ Hr) as (wls & Wr & Hc). rewrite <- Hc. exact (proj2 (C35_bounded glob cx wf _ _ _ Hnd Wr)). Qed.
Lemma budget sh0 ops s tr : sysrun sh0 ops s tr ->
  moves (start sh0) ops + (limit wf - length (filter ymain ops)) * (C + 1) + rest_ s <= limit wf * (C + 1) + lc * lines (start sh0) ops.
Proof.
  induction 1 as [|ops s tr op s' o Hr IH E]; [cbn [filter length]; unfold Pace_spec.moves, Pace_spec.lines, rest_; cbn; lia|].
  assert (P := sys_pace _ _ _ _ _ _ _ Hr E). assert (M := mains_bound _ _ _ _ (sysrun_step R glob cx wf _ _ _ _ _ _ _ Hr E)).
  unfold Pace_spec.moves, Pace_spec.lines in *. rewrite (kinds_app _ [op] _ _ _ (run_exec _ _ _ _ Hr)). cbn [Pace_spec.kinds]. rewrite E. rewrite !filter_app, !app_length in *. cbn [filter] in *.
  destruct (kind_of s op s') eqn:Ek; cbn [is_move is_printed length].
  - destruct (ymain op); cbn [length] in *; [|lia].
    set (a := length (filter ymain ops)) in *. replace (limit wf - a) with (S (limit wf - (a + 1))) in IH by lia. cbn [Nat.mul] in IH. lia.
  - destruct P as [-> P]. cbn [length] in *. rewrite !Nat.add_0_r in *. lia.
  - destruct P as [-> P]. cbn [length] in *. rewrite !Nat.add_0_r in *. lia.
Qed.
Lemma bounded sh0 ops s tr : sysrun sh0 ops s tr -> moves (start sh0) ops <= work_bound K wf + lc * lines (start sh0) ops.
Proof.
  intros Hr. assert (B := budget _ _ _ _ Hr).
  assert (Eq : work_bound K wf = limit wf * (C + 1)) by (unfold work_bound, limit, C, W; f_equal; lia). lia.
Qed.
End G.

Section L.
Context {T iop iobs : Type}.
Variable R : rside T iop iobs.
Variable glob : glob_oracle.
Variable cx : ectx.
Variable wf : workflow.
Variable ikind : T -> iop -> step_phase -> T -> kind.
Variable fair ok : sysop (iop := iop) -> Prop.
Variables bnd lc : nat.
Notation sysrun := (sysrun R glob cx wf).
Notation sysexec := (sysexec R glob cx wf).
Notation sysstep := (sysstep R glob cx wf).
Notation kinds := (kinds R glob cx wf ikind).
Notation kind_of := (kind_of ikind).
Notation can_move := (can_move R glob cx wf ikind).
Notation moves := (moves R glob cx wf ikind).
Notation lines := (lines R glob cx wf ikind).
Hypothesis Bound : forall sh0 ops s tr, sysrun sh0 ops s tr -> moves (start sh0) ops <= bnd + lc * lines (start sh0) ops.
Hypothesis Comp : forall sh0 ops s tr, sysrun sh0 ops s tr -> (forall op, In op ops -> ok op) ->
  exists more s' o r, Forall fair more /\ sysexec s more = Some (s', o) /\ ws_main (sy_w s') = WpDone r.
Hypothesis Quiet : forall (s : @system T) op s', fair op -> kind_of s op s' <> Printed.

Lemma idle_main s op s' o : sysstep s op = Some (s', o) -> kind_of s op s' <> Move -> ws_main (sy_w s') = ws_main (sy_w s).
Proof.
  intros E Hk. destruct op as [wo|i io|k io]; cbn [System_model.sysstep] in E.
  - destruct wo; try (destruct (Hk eq_refl)). cbn in E. injection E as <- _. reflexivity.
  - destruct (nth_error (ws_tasks (sy_w s)) i) as [t|]; [|discriminate]. destruct (nth_error (sy_cur s) i) as [x|]; [|discriminate]. destruct (tk_phase t); try discriminate E.
    destruct (rs_step _ _ _ _ _ _) as [[[[sh' sp'] x'] out]|]; [|discriminate E]. injection E as <- _. reflexivity.
  - destruct (nth_error (sy_past s) k) as [[i [[sh p] x]]|]; [|discriminate]. destruct (rs_step _ _ _ _ _ _) as [[[[sh' sp'] x'] out]|]; [|discriminate E]. injection E as <- _. reflexivity.
Qed.
Lemma some_move more : forall s s' o r, Forall fair more -> sysexec s more = Some (s', o) -> ws_main (sy_w s') = WpDone r -> (exists r, ws_main (sy_w s) = WpDone r) \/ can_move fair s.
Proof.
  induction more as [|op more IH]; intros s s' o r Hf E Hd; cbn [System_model.sysexec] in E; [injection E as <- _; eauto|].
  destruct (sysstep s op) as [[s1 o1]|] eqn:E1; [|discriminate]. destruct (sysexec s1 more) as [[s2 o2]|] eqn:E2; [|discriminate]. injection E as <- <-. inv Hf.
  assert (D : kind_of s op s1 = Move \/ kind_of s op s1 = Idle) by (specialize (Quiet s op s1 H1); destruct (kind_of s op s1); auto; congruence).
  destruct D as [D|D]; [right; exists [], op, s, [], s1, o1; split; [repeat constructor; assumption|]; split; [reflexivity|]; split; [intros k []|]; auto|].
  destruct (IH _ _ _ _ H2 E2 Hd) as [[r' Hr]|(look & op' & s3 & o3 & s4 & o4 & F & X & Hk & Y & M)].
  - left. exists r'. rewrite <- Hr. symmetry. eapply idle_main; [exact E1|congruence].
  - right. exists (op :: look), op', s3, (o1 ++ o3), s4, o4. split; [constructor; assumption|]. split; [cbn [System_model.sysexec]; rewrite E1, X; reflexivity|].
    split; [|auto]. intros k Hin. cbn [Pace_spec.kinds] in Hin. rewrite E1 in Hin. destruct Hin as [<-|Hin]; [exact D|apply Hk, Hin].
Qed.
Lemma never_stuck sh0 ops s tr : sysrun sh0 ops s tr -> (forall op, In op ops -> ok op) -> (exists r, ws_main (sy_w s) = WpDone r) \/ can_move fair s.
Proof. intros Hr Ho. destruct (Comp _ _ _ _ Hr Ho) as (more & s' & o & r & Hf & E & Hd). eapply some_move; eassumption. Qed.

Lemma done_stays s op s' o r : sysstep s op = Some (s', o) -> ws_main (sy_w s) = WpDone r -> ws_main (sy_w s') = WpDone r.
Proof.
  intros E Hd. destruct op as [wo|i io|k io].
  - cbn [System_model.sysstep] in E. destruct (is_step_op wo); [discriminate|]. destruct (wstep glob cx wf (sy_w s) wo) as [[w' wtr]|] eqn:Ew; [|discriminate].
    assert (Kk : sy_w s' = w') by (destruct (step_over (sy_w s) wo) as [[i p]|]; injection E as <- _; reflexivity). rewrite Kk. clear E Kk.
    destruct wo as [|g|i jo|i|e]; cbn [wstep] in Ew.
    + unfold main_step in Ew. rewrite Hd in Ew. discriminate.
    + rewrite Hd in Ew. discriminate.
    + destruct (nth_error (ws_tasks (sy_w s)) i) as [t|]; [|discriminate]. destruct (job_step _ _ _ _ _ _ _) as [[[sh' p'] jo']|]; [|discriminate]. injection Ew as <- <-. exact Hd.
    + destruct (nth_error (ws_tasks (sy_w s)) i) as [[key j [| | | | | | | | | | | | | |r'] [|]]|]; try discriminate Ew. rewrite Hd in Ew. injection Ew as <- <-. exact Hd.
    + injection Ew as <- <-. exact Hd.
  - rewrite <- Hd. cbn [System_model.sysstep] in E. destruct (nth_error (ws_tasks (sy_w s)) i) as [t|]; [|discriminate]. destruct (nth_error (sy_cur s) i) as [x|]; [|discriminate]. destruct (tk_phase t); try discriminate E.
    destruct (rs_step _ _ _ _ _ _) as [[[[sh' sp'] x'] out]|]; [|discriminate E]. injection E as <- _. reflexivity.
  - rewrite <- Hd. cbn [System_model.sysstep] in E. destruct (nth_error (sy_past s) k) as [[i [[sh p] x]]|]; [|discriminate]. destruct (rs_step _ _ _ _ _ _) as [[[[sh' sp'] x'] out]|]; [|discriminate E]. injection E as <- _. reflexivity.
Qed.

Variable sh0 : shared.
Variable st : nat -> @system T.
Variable act : nat -> option (sysop (iop := iop)).
Hypothesis Ex : execution R glob cx wf sh0 st act.
Hypothesis Ok : forall n op, act n = Some op -> ok op.
Hypothesis Fair : not_abandoned R glob cx wf ikind fair st act.
Hypothesis Fin : prints_finitely ikind st act.

Fixpoint upto (n : nat) : list (sysop (iop := iop)) := match n with 0 => [] | S m => upto m ++ match act m with Some op => [op] | None => [] end end.
Lemma upto_run n : exists tr, sysrun sh0 (upto n) (st n) tr.
Proof.
  destruct Ex as [E0 En]. induction n as [|n [tr IH]]; [exists []; rewrite E0; constructor|]. specialize (En n). cbn [upto]. destruct (act n) as [op|].
  - destruct En as [o E]. exists (tr ++ o). eapply sysrun_step; eassumption.
  - exists tr. rewrite En, app_nil_r. exact IH.
Qed.
Lemma upto_ok n op : In op (upto n) -> ok op.
Proof.
  induction n as [|n IH]; cbn [upto]; [intros []|]. rewrite in_app_iff. intros [H|H]; [auto|]. destruct (act n) as [op'|] eqn:E; [|destruct H]. destruct H as [<-|[]]. eapply Ok, E.
Qed.
Lemma upto_kinds n : kinds (start sh0) (upto (S n)) = kinds (start sh0) (upto n) ++ match act n with Some op => [kind_of (st n) op (st (S n))] | None => [] end.
Proof.
  destruct (upto_run n) as [tr Hr]. cbn [upto]. rewrite (kinds_app R glob cx wf ikind _ _ _ _ _ (run_exec R glob cx wf _ _ _ _ Hr)). f_equal.
  destruct Ex as [_ En]. specialize (En n). destruct (act n) as [op|]; [|reflexivity]. destruct En as [o E]. cbn [Pace_spec.kinds]. rewrite E. reflexivity.
Qed.
Lemma moves_step n : moves (start sh0) (upto (S n)) = moves (start sh0) (upto n) + match act n with Some op => if is_move (kind_of (st n) op (st (S n))) then 1 else 0 | None => 0 end.
Proof. unfold Pace_spec.moves. rewrite upto_kinds, filter_app, app_length. f_equal. destruct (act n) as [op|]; [|reflexivity]. cbn [filter]. destruct (is_move _); reflexivity. Qed.
Lemma lines_step n : lines (start sh0) (upto (S n)) = lines (start sh0) (upto n) + match act n with Some op => if is_printed (kind_of (st n) op (st (S n))) then 1 else 0 | None => 0 end.
Proof. unfold Pace_spec.lines. rewrite upto_kinds, filter_app, app_length. f_equal. destruct (act n) as [op|]; [|reflexivity]. cbn [filter]. destruct (is_printed _); reflexivity. Qed.
Lemma moves_mono n m : n <= m -> moves (start sh0) (upto n) <= moves (start sh0) (upto m).
Proof. induction 1 as [|m _ IH]; [lia|]. rewrite moves_step. lia. Qed.
Lemma inevitable : exists n r, forall m, n <= m -> ws_main (sy_w (st m)) = WpDone r.
Proof.
  destruct Fin as [N HN].
  assert (HL : forall n, N <= n -> lines (start sh0) (upto n) = lines (start sh0) (upto N)).
  { induction 1 as [|n Hn IH]; [reflexivity|]. rewrite lines_step. destruct (act n) as [op|] eqn:E; [|lia]. specialize (HN n op Hn E). destruct (kind_of (st n) op (st (S n))); cbn; congruence || lia. }
  assert (D : forall n r, ws_main (sy_w (st n)) = WpDone r -> forall m, n <= m -> ws_main (sy_w (st m)) = WpDone r).
  { intros n r H. induction 1 as [|m Hm IH]; [exact H|]. destruct Ex as [_ En]. specialize (En m). destruct (act m) as [op|]; [|rewrite En; exact IH]. destruct En as [o E]. eapply done_stays; eassumption. }
  assert (Go : forall k n, N <= n -> bnd + lc * lines (start sh0) (upto N) - moves (start sh0) (upto n) <= k -> exists n r, ws_main (sy_w (st n)) = WpDone r).
  { induction k as [k IH] using (well_founded_induction Wf_nat.lt_wf). intros n Hn Hle.
    destruct (upto_run n) as [tr Hr]. destruct (never_stuck _ _ _ _ Hr (upto_ok n)) as [[r Hd]|Hc]; [eauto|].
    destruct (Fair n Hc) as (m & op & Hm & Ha & Hk).
    assert (M1 := moves_mono _ _ Hm). assert (M2 := moves_step m). rewrite Ha, Hk in M2. cbn [is_move] in M2.
    destruct (upto_run (S m)) as [tr' Hr']. assert (B := Bound _ _ _ _ Hr'). rewrite (HL (S m)) in B by lia.
    eapply (IH (bnd + lc * lines (start sh0) (upto N) - moves (start sh0) (upto (S m)))) with (n := S m); lia. }
  destruct (Go _ N (Nat.le_refl _) (Nat.le_refl _)) as (n & r & Hd). exists n, r. apply D, Hd.
Qed.
End L.
