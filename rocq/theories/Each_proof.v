From Verif Require Import Base Types Signals_model Signals_proof Stream_model Cond_model Plugins_model Exec_model Exec_spec Step_proof Job_proof Reg_proof Exact_crash Workflow_model Workflow_spec Workflow_proof Workflow_inv Workflow_term
  Runner_model Remote_model Local_model Local_spec Distant_model Worker_model System_model System_spec System_proof System_flow System_inst Finish_spec Finish_proof Chain_model Pace_spec Pace_proof Fleet_model Fleet_spec Fleet_proof Fleet_iso Fleet_main Live_spec Live_proof Each_spec.
From Verif Require Import Exact_props.

(** ** One job within a run *)
Section G.
Context {T iop iobs : Type}.
Variable R : rside T iop iobs.
Variable glob : glob_oracle.
Variable cx : ectx.
Variable wf : workflow.
Variable ikind : T -> iop -> step_phase -> T -> kind.
Variable rx : T -> nat.
Variable lc K : nat.
Hypothesis F : faithful R cx.
Hypothesis Pc : paced R ikind rx lc.
Hypothesis Hk : rx (rs_init R) <= K.
Notation sysrun := (sysrun R glob cx wf).
Notation sysexec := (sysexec R glob cx wf).
Notation sysstep := (sysstep R glob cx wf).

(** What the i-th job still has to do. *)
Definition left_ (t : wtask) (x : T) : nat := jr K (length (jb_steps (tk_job t))) (tk_phase t) + rx x.
Lemma pad_nth n (l : list T) i x : nth_error l i = Some x -> nth_error (pad R n l) i = Some x.
Proof. intros H. unfold pad. rewrite nth_error_app1; [exact H|]. apply nth_error_Some. congruence. Qed.
Lemma task_pace sh0 ops s tr op s' o i t x : sysrun sh0 ops s tr -> sysstep s op = Some (s', o) -> nth_error (ws_tasks (sy_w s)) i = Some t -> nth_error (sy_cur s) i = Some x ->
  exists t' x', nth_error (ws_tasks (sy_w s')) i = Some t' /\ nth_error (sy_cur s') i = Some x' /\ tk_key t' = tk_key t /\ tk_job t' = tk_job t /\
    if by_job i op then match kind_of ikind s op s' with Move => left_ t' x' < left_ t x | Idle => left_ t' x' <= left_ t x | Printed => left_ t' x' <= left_ t x + lc end
    else x' = x /\ tk_phase t' = tk_phase t.
Proof.
  intros Hr E Ht Hx. assert (I := sys_inv R glob cx wf F _ _ _ _ Hr). assert (Hl := si_len R cx _ _ _ I).
  destruct op as [wo|i0 io|k io].
  - cbn [System_model.sysstep] in E. destruct (is_step_op wo) eqn:Hs; [discriminate|]. destruct (wstep glob cx wf (sy_w s) wo) as [[w' wtr]|] eqn:Ew; [|discriminate].
    destruct wo as [|g|i0 jo|i0|e]; cbn [by_job].
    + cbn [step_over] in E. injection E as <- <-. cbn [wstep] in Ew. cbn [sy_w sy_cur].
      exists t, x. split; [|split; [apply pad_nth, Hx|auto]]. destruct (main_pace R glob cx wf rx K Hk _ _ _ Ew) as [[Hw _]|(kj & Hw & _)]; rewrite Hw; [exact Ht|]. rewrite nth_error_app1; [exact Ht|]. apply nth_error_Some. congruence.
    + cbn [step_over] in E. injection E as <- <-. cbn [wstep] in Ew. destruct (ws_main (sy_w s)) eqn:Em; try discriminate Ew. destruct (is_match_second _ _ _ _) as [ca b]. injection Ew as <- <-.
      exists t, x. split; [exact Ht|]. split; [apply pad_nth, Hx|auto].
    + cbn [wstep] in Ew. destruct (nth_error (ws_tasks (sy_w s)) i0) as [t0|] eqn:Et; [|discriminate]. destruct (job_step _ _ _ _ _ _ _) as [[[sh' p'] jo']|] eqn:Ej; [|discriminate]. injection Ew as <- <-.
      assert (J := job_pace R glob cx rx K Hk _ _ _ _ _ _ _ _ Ej ltac:(intros so ->; discriminate Hs)).
      destruct (Nat.eqb i0 i) eqn:Ei.
      * apply Nat.eqb_eq in Ei as ->. rewrite Ht in Et. injection Et as <-. exists (WTask (tk_key t) (tk_job t) p' (tk_sent t)). cbn [kind_of].
        destruct (step_over (sy_w s) (WTaskOp i jo)) as [[i' p]|] eqn:So.
        -- cbn [step_over] in So. destruct jo; try discriminate So. rewrite Ht in So. destruct (tk_phase t) as [| | | | | | | | | |t0 js rs sp rest| | | |] eqn:Ep; try discriminate So. destruct sp; try discriminate So. injection So as <- <-.
           injection E as <- <-. exists (rs_init R). cbn [sy_w sy_cur ws_tasks]. split; [apply (list_set_eq i _ _ _ Ht)|]. split; [apply pad_nth, (list_set_eq i _ _ _ Hx)|]. split; [reflexivity|]. split; [reflexivity|].
           unfold left_. cbn [tk_job tk_phase] in *. rewrite Ep in *. lia.
        -- injection E as <- <-. exists x. cbn [sy_w sy_cur ws_tasks]. split; [apply (list_set_eq i _ _ _ Ht)|]. split; [apply pad_nth, Hx|]. split; [reflexivity|]. split; [reflexivity|].
           unfold left_. cbn [tk_job tk_phase] in *. lia.
      * apply Nat.eqb_neq in Ei. assert (Kk : ws_tasks (sy_w s') = list_set i0 (WTask (tk_key t0) (tk_job t0) p' (tk_sent t0)) (ws_tasks (sy_w s)) /\ nth_error (sy_cur s') i = Some x).
        { destruct (step_over (sy_w s) (WTaskOp i0 jo)) as [[i' p]|] eqn:So; injection E as <- <-; (split; [reflexivity|]); cbn [sy_cur].
          - assert (i' = i0) as ->. { cbn [step_over] in So. destruct jo; try discriminate So. rewrite Et in So. destruct (tk_phase t0) as [| | | | | | | | | |? ? ? sp ?| | | |]; try discriminate So. destruct sp; congruence. }
            apply pad_nth. rewrite list_set_ne; auto.
          - apply pad_nth, Hx. }
        destruct Kk as [K1 K2]. exists t, x. rewrite K1, list_set_ne by auto. repeat (split; [first [exact Ht|exact K2|reflexivity]|]). split; reflexivity.
    + cbn [step_over] in E. injection E as <- <-. cbn [wstep] in Ew. destruct (nth_error (ws_tasks (sy_w s)) i0) as [[key j [| | | | | | | | | | | | | |r] [|]]|] eqn:Et; try discriminate Ew.
      assert (Kk : ws_tasks w' = list_set i0 (WTask key j (JpReturned r) true) (ws_tasks (sy_w s))).
      { destruct (ws_main (sy_w s)) eqn:Em; try (destruct (Nat.ltb _ _); [|discriminate Ew]); injection Ew as <- <-; reflexivity. }
      cbn [sy_w sy_cur]. rewrite Kk. destruct (Nat.eq_dec i i0) as [->|Hne].
      * rewrite Ht in Et. injection Et as ->. eexists; exists x. split; [apply (list_set_eq i0 _ _ _ Ht)|]. split; [apply pad_nth, Hx|]. auto.
      * exists t, x. rewrite list_set_ne by auto. split; [exact Ht|]. split; [apply pad_nth, Hx|]. auto.
    + cbn [step_over] in E. injection E as <- <-. cbn [wstep] in Ew. injection Ew as <- <-. exists t, x. split; [exact Ht|]. split; [apply pad_nth, Hx|]. auto.
  - cbn [System_model.sysstep] in E. destruct (nth_error (ws_tasks (sy_w s)) i0) as [t1|] eqn:Et; [|discriminate]. destruct (nth_error (sy_cur s) i0) as [x1|] eqn:Ex; [|discriminate].
    destruct (tk_phase t1) as [| | | | | | | | | |t0 js rs sp rest| | | |] eqn:Ep; try discriminate E.
    destruct (rs_step R (S i0) (ws_sh (sy_w s)) sp x1 io) as [[[[sh' sp'] x'] out]|] eqn:Es; [|discriminate E]. injection E as <- <-.
    cbn [sy_w sy_cur ws_tasks by_job]. destruct (Nat.eqb i0 i) eqn:Ei.
    + apply Nat.eqb_eq in Ei as ->. rewrite Ht in Et. injection Et as <-. rewrite Hx in Ex. injection Ex as <-. exists (set_phase t (JpStepRun t0 js rs sp' rest)), x'.
      split; [apply (list_set_eq i _ _ _ Ht)|]. split; [apply (list_set_eq i _ _ _ Hx)|]. split; [reflexivity|]. split; [reflexivity|].
      assert (P := Pc _ _ _ _ _ _ _ _ _ Es). cbn [kind_of sy_w sy_cur ws_tasks]. rewrite Hx, (list_set_eq i _ _ _ Ht), (list_set_eq i _ _ _ Hx). cbn [set_phase tk_phase]. unfold left_. cbn [set_phase tk_job tk_phase]. rewrite Ep. cbn [jr].
      destruct (ikind x io sp' x'); lia.
    + apply Nat.eqb_neq in Ei. exists t, x. rewrite !list_set_ne by auto. repeat (split; [first [exact Ht|exact Hx|reflexivity]|]). split; reflexivity.
  - cbn [System_model.sysstep] in E. destruct (nth_error (sy_past s) k) as [[i0 [[sh p] y]]|] eqn:Ek; [|discriminate].
    destruct (rs_step R (S i0) sh p y io) as [[[[sh' p'] x'] out]|] eqn:Es; [|discriminate E]. injection E as <- <-. cbn [by_job]. exists t, x. repeat (split; [first [exact Ht|exact Hx|reflexivity]|]). split; reflexivity.
Qed.
(** Where a job's task has ended it stays. *)
Definition ended (t : wtask) : Prop := finished t \/ crashed t.
Lemma ended_stays sh0 ops s tr op s' o i t : sysrun sh0 ops s tr -> sysstep s op = Some (s', o) -> nth_error (ws_tasks (sy_w s)) i = Some t -> ended t ->
  exists t', nth_error (ws_tasks (sy_w s')) i = Some t' /\ tk_key t' = tk_key t /\ tk_phase t' = tk_phase t.
Proof.
  intros Hr E Ht He. assert (I := sys_inv R glob cx wf F _ _ _ _ Hr). assert (Hl := si_len R cx _ _ _ I).
  destruct (nth_error (sy_cur s) i) as [x|] eqn:Hx; [|apply nth_error_None in Hx; assert (i < length (ws_tasks (sy_w s))) by (apply nth_error_Some; congruence); lia].
  destruct (task_pace _ _ _ _ _ _ _ _ _ _ Hr E Ht Hx) as (t' & x' & Ht' & Hx' & Ek & _ & Hp). exists t'. split; [exact Ht'|]. split; [exact Ek|].
  destruct (by_job i op) eqn:Hb; [clear Hp|exact (proj2 Hp)]. destruct op as [wo|i0 io|k io]; cbn [by_job] in Hb; [|apply Nat.eqb_eq in Hb as ->|discriminate Hb].
  - destruct wo as [|g|i0 jo|i0|e]; try discriminate Hb. apply Nat.eqb_eq in Hb as ->. cbn [System_model.sysstep] in E. destruct (is_step_op _) eqn:Hs; [discriminate|]. cbn [wstep] in E. rewrite Ht in E. exfalso.
    destruct He as [[r Hp]|(t0 & js & rs & why & rest & Hp)]; rewrite Hp in E; destruct jo; cbn in Hs, E; discriminate.
  - cbn [System_model.sysstep] in E. rewrite Ht, Hx in E. destruct He as [[r Hp]|(t0 & js & rs & why & rest & Hp)]; rewrite Hp in E; [discriminate|].
    destruct (rs_step _ _ _ _ _ _) as [[[[sh' p'] x1] out]|] eqn:Es; [|discriminate]. injection E as <- _. cbn [sy_w ws_tasks] in Ht'. rewrite (list_set_eq i _ _ _ Ht) in Ht'. injection Ht' as <-. cbn [set_phase tk_phase].
    apply F in Es as [(_ & -> & _)|(sop & Es)]; [auto|destruct sop; discriminate Es].
Qed.

(** Until then it can go on by itself. *)
Variable inner : iop -> Prop.
Variable gh : github.
Hypothesis Fin : ends_steps R inner.
Hypothesis Quiet : forall (s : @system T) op s', goes_on gh inner op -> kind_of ikind s op s' <> Printed.
Hypothesis Cr : forall me sh p x op sh' w x' o, rs_step R me sh p x op = Some (sh', SpPanic w, x', o) -> (exists w', p = SpPanic w') \/ ikind x op (SpPanic w) x' = Move.
Notation mine i := (fun op => goes_on gh inner op /\ by_job i op = true).
Lemma idle_ended s op s' o i t t' : sysstep s op = Some (s', o) -> by_job i op = true -> kind_of ikind s op s' <> Move -> nth_error (ws_tasks (sy_w s)) i = Some t -> nth_error (ws_tasks (sy_w s')) i = Some t' -> ended t' -> ended t.
Proof.
  intros E Hb Hm Ht Ht' He. destruct op as [wo|i0 io|k io]; cbn [by_job] in Hb; [|apply Nat.eqb_eq in Hb as ->|discriminate Hb].
  - destruct wo as [|g|i0 jo|i0|e]; try discriminate Hb. destruct (Hm eq_refl).
  - cbn [System_model.sysstep] in E. rewrite Ht in E. destruct (nth_error (sy_cur s) i) as [x|] eqn:Hx; [|discriminate]. destruct (tk_phase t) as [| | | | | | | | | |t0 js rs sp rest| | | |] eqn:Ep; try discriminate E.
    destruct (rs_step _ _ _ _ _ _) as [[[[sh' p'] x1] out]|] eqn:Es; [|discriminate]. injection E as <- _. cbn [sy_w ws_tasks] in Ht'. rewrite (list_set_eq i _ _ _ Ht) in Ht'. injection Ht' as <-.
    destruct He as [[r Hp]|(t1 & js1 & rs1 & why & rest1 & Hp)]; cbn [set_phase tk_phase] in Hp; [discriminate|]. injection Hp as -> -> -> -> ->.
    destruct (Cr _ _ _ _ _ _ _ _ _ Es) as [[w' ->]|Mv]; [right; exists t1, js1, rs1, w', rest1; exact Ep|]. exfalso. apply Hm. cbn [kind_of sy_w sy_cur ws_tasks]. rewrite Hx, (list_set_eq i _ _ _ Ht), (list_set_eq i _ _ _ Hx). exact Mv.
Qed.
Lemma job_some_move more : forall sh0 ops s tr s' o i t t', sysrun sh0 ops s tr -> Forall (mine i) more -> sysexec s more = Some (s', o) -> nth_error (ws_tasks (sy_w s)) i = Some t -> nth_error (ws_tasks (sy_w s')) i = Some t' -> ended t' ->
  ended t \/ can_move R glob cx wf ikind (mine i) s.
Proof.
  induction more as [|op more IH]; intros sh0 ops s tr s' o i t t' Hr Hf E Ht Ht' He; cbn [System_model.sysexec] in E; [injection E as <- _; left; congruence|].
  destruct (sysstep s op) as [[s1 o1]|] eqn:E1; [|discriminate]. destruct (sysexec s1 more) as [[s2 o2]|] eqn:E2; [|discriminate]. injection E as <- <-. apply Forall_cons_iff in Hf as [[Hg Hb] Hf].
  assert (I := sys_inv R glob cx wf F _ _ _ _ Hr). assert (Hl := si_len R cx _ _ _ I).
  destruct (nth_error (sy_cur s) i) as [x|] eqn:Hx; [|apply nth_error_None in Hx; assert (i < length (ws_tasks (sy_w s))) by (apply nth_error_Some; congruence); lia].
  destruct (task_pace _ _ _ _ _ _ _ _ _ _ Hr E1 Ht Hx) as (t1 & _ & Ht1 & _).
  assert (D : kind_of ikind s op s1 = Move \/ kind_of ikind s op s1 = Idle) by (specialize (Quiet s op s1 Hg); destruct (kind_of ikind s op s1); auto; congruence).
  destruct D as [D|D]; [right; exists [], op, s, [], s1, o1; split; [repeat constructor; assumption|]; split; [reflexivity|]; split; [intros k []|]; auto|].
  destruct (IH _ _ _ _ _ _ i t1 t' (sysrun_step R glob cx wf _ _ _ _ _ _ _ Hr E1) Hf E2 Ht1 Ht' He) as [He1|(look & op' & s3 & o3 & s4 & o4 & Hfa & X & Hkd & Y & M)].
  - left. eapply idle_ended; [exact E1|exact Hb|congruence|exact Ht|exact Ht1|exact He1].
  - right. exists (op :: look), op', s3, (o1 ++ o3), s4, o4. split; [constructor; [split; assumption|assumption]|]. split; [cbn [System_model.sysexec]; rewrite E1, X; reflexivity|].
    split; [|auto]. intros k Hin. cbn [kinds] in Hin. rewrite E1 in Hin. destruct Hin as [<-|Hin]; [exact D|apply Hkd, Hin].
Qed.
Lemma job_not_stuck sh0 ops s tr i t : sysrun sh0 ops s tr -> nth_error (ws_tasks (sy_w s)) i = Some t -> ended t \/ can_move R glob cx wf ikind (mine i) s.
Proof.
  intros Hr Ht. destruct (finish_job R glob cx wf inner gh F Fin _ _ _ _ _ _ _ Hr Ht (Nat.le_refl _)) as (more & s' & o & t' & Q & E & _ & Ht' & _ & He & _ & B).
  eapply job_some_move; [exact Hr| |exact E|exact Ht|exact Ht'|exact He]. apply Forall_forall. intros op Hop. rewrite Forall_forall in Q, B. split; [apply Q, Hop|apply B, Hop].
Qed.
End G.

(** ** One job of one of several runs *)
Section V.
Context {T iop iobs : Type}.
Variable R : ectx -> rside T iop iobs.
Variable glob : glob_oracle.
Variables tame inner : iop -> Prop.
Variable gh : github.
Variable ikind : T -> iop -> step_phase -> T -> kind.
Variable rx : T -> nat.
Variables lc K : nat.
Hypothesis F : forall cx, faithful (R cx) cx.
Hypothesis Pc : forall cx, paced (R cx) ikind rx lc.
Hypothesis Hk : forall cx, rx (rs_init (R cx)) <= K.
Hypothesis Fin : forall cx, ends_steps (R cx) inner.
Hypothesis Quiet : forall (s : @system T) op s', goes_on gh inner op -> kind_of ikind s op s' <> Printed.
Hypothesis Cr : forall cx me sh p x op sh' w x' o, rs_step (R cx) me sh p x op = Some (sh', SpPanic w, x', o) -> (exists w', p = SpPanic w') \/ ikind x op (SpPanic w) x' = Move.
Hypothesis Tr : forall cx, tracks (R cx) cx tame.
Hypothesis Hin : forall op, inner op -> tame op.
Variable now : time.
Variable stf : nat -> @fleet T.
Variable act : nat -> option (fop (iop := iop)).
Hypothesis Ex : fleet_execution R glob stf act now.
Hypothesis Nam : forall n, named (stf n).

Lemma one_step n k cx wf s : run_at (stf n) k cx wf s -> exists s', run_at (stf (S n)) k cx wf s' /\
  ((exists x o, act n = Some (FRunOp k x) /\ sysstep (R cx) glob cx wf s x = Some (s', o)) \/
   ((forall x, act n <> Some (FRunOp k x)) /\ ws_tasks (sy_w s') = ws_tasks (sy_w s) /\ sy_cur s' = sy_cur s)).
Proof using F Ex Nam.
  intros Hat. assert (Hx := Ex). destruct Hx as [_ En]. specialize (En n). destruct (act n) as [op|] eqn:Ea.
  - destruct En as [o E]. destruct (history_run R glob now stf act Ex n) as [tr Hh]. destruct (projection R glob F _ _ _ _ Hh (Nam n) k cx wf s Hat) as (sh0 & ops & G & _).
    destruct (step_proj R glob F _ _ _ _ _ _ _ _ _ _ _ _ _ _ Hh (Nam n) E Hat G) as (more & s' & tr' & Hat' & Hs' & [(x & -> & -> & o' & Ex')|(Ne & es & -> & Fo)]).
    + exists s'. split; [exact Hat'|]. left. exists x, o'. auto.
    + exists s'. split; [exact Hat'|]. right. split; [intros x C; injection C as C; exact (Ne x C)|].
      destruct Hat as (r1 & ca1 & A1 & A2 & A3 & A4). destruct Hat' as (r2 & ca2 & B1 & B2 & B3 & B4).
      assert (fr_sys r2 = fr_sys r1) as Er; [|rewrite A4, B4; cbn [settle sy_w sy_cur ws_tasks]; rewrite Er; auto].
      destruct op as [cx0|c wf0|k0 op0|d|c j|c]; cbn [Fleet_model.fstep] in E; try (injection E as E _; rewrite <- E in B1; cbn [fl_runs] in B1; congruence).
      * destruct (nth_error (fl_ctx (stf n)) c) as [[cx0 ca0]|]; [|discriminate]. injection E as E _; rewrite <- E in B1; cbn [fl_runs] in B1. rewrite nth_error_app1 in B1 by (apply nth_error_Some; congruence). congruence.
      * destruct (nth_error (fl_runs (stf n)) k0) as [r0|] eqn:Ek0; [|discriminate]. destruct (nth_error (fl_ctx (stf n)) (fr_ctx r0)) as [[cx0 ca0]|] eqn:Ec0; [|discriminate].
        destruct (is_env op0) eqn:Henv; [discriminate|]. destruct (sysstep _ _ _ _ _ _) as [[s1 o']|] eqn:Es; [|discriminate]. injection E as E _; rewrite <- E in B1; cbn [fl_runs] in B1. rewrite list_set_ne in B1; [congruence|]. intros ->. exact (Ne op0 eq_refl).
  - exists s. rewrite En. split; [exact Hat|]. right. split; [discriminate|]. auto.
Qed.

Variables (k n0 : nat) (cx : ectx) (wf : workflow) (i : nat).
Lemma at_run n s : run_at (stf n) k cx wf s -> exists sh0 ops tr, sysrun (R cx) glob cx wf sh0 ops s tr.
Proof using F Ex Nam. intros Hat. destruct (history_run R glob now stf act Ex n) as [tr Hh]. destruct (projection R glob F _ _ _ _ Hh (Nam n) k cx wf s Hat) as (sh0 & ops & G & _). eauto. Qed.
(** Where the job is at time [n] and how much it still has to do. *)
Definition job_at (n : nat) (t : wtask) (l : nat) : Prop :=
  exists s x, run_at (stf n) k cx wf s /\ nth_error (ws_tasks (sy_w s)) i = Some t /\ nth_error (sy_cur s) i = Some x /\ left_ rx K t x = l.
Lemma job_at_step n t l : job_at n t l -> exists t' l', job_at (S n) t' l' /\ tk_key t' = tk_key t /\
  (l' <= l \/ exists op, by_job i op = true /\ acts ikind stf act k cx wf n op Printed) /\
  (forall op, by_job i op = true -> acts ikind stf act k cx wf n op Move -> l' < l) /\ (ended t -> tk_phase t' = tk_phase t).
Proof using F Pc Hk Ex Nam.
  clear Tr Quiet Fin Cr. intros (s & x & Hat & Ht & Hx & Hl). destruct (one_step _ _ _ _ _ Hat) as (s' & Hat' & [(op & o & Ea & E)|(Ne & E1 & E2)]).
  - destruct (at_run _ _ Hat) as (sh0 & ops & tr & Hr). destruct (task_pace (R cx) glob cx wf ikind rx lc K (F cx) (Pc cx) (Hk cx) _ _ _ _ _ _ _ _ _ _ Hr E Ht Hx) as (t' & x' & Ht' & Hx' & Ek & Ej & Hp).
    exists t', (left_ rx K t' x'). split; [exists s', x'; auto|]. split; [exact Ek|]. split; [|split].
    + destruct (by_job i op) eqn:Hb; [|destruct Hp as [-> Hp]; left; rewrite <- Hl; unfold left_; rewrite Ej, Hp; lia].
      destruct (kind_of ikind s op s') eqn:Hd; [left; lia|left; lia|]. right. exists op. split; [exact Hb|]. exists s, s'. auto.
    + intros op' Hb (a & b & Ea' & Ha & Hb' & Hd). rewrite Ea in Ea'. injection Ea' as <-. rewrite (run_at_unique _ _ _ _ _ _ Ha Hat), (run_at_unique _ _ _ _ _ _ Hb' Hat') in Hd. rewrite Hb, Hd in Hp. lia.
    + intros He. destruct (ended_stays (R cx) glob cx wf ikind rx lc K (F cx) (Pc cx) (Hk cx) _ _ _ _ _ _ _ _ _ Hr E Ht He) as (t2 & Ht2 & _ & Hph). congruence.
  - exists t, l. split; [exists s', x; rewrite E1, E2; auto|]. split; [reflexivity|]. split; [left; lia|]. split; [|auto]. intros op _ (a & b & Ea & _). destruct (Ne _ Ea).
Qed.
Lemma job_at_later n m : n <= m -> forall t l, job_at n t l -> exists t' l', job_at m t' l' /\ tk_key t' = tk_key t /\
  (l' <= l \/ exists p op, n <= p /\ by_job i op = true /\ acts ikind stf act k cx wf p op Printed) /\ (ended t -> tk_phase t' = tk_phase t).
Proof using F Pc Hk Ex Nam.
  clear Tr Quiet Fin Cr. induction 1 as [|m Hm IH]; intros t l H; [exists t, l; auto|]. destruct (IH _ _ H) as (t1 & l1 & H1 & E1 & L1 & P1). destruct (job_at_step _ _ _ H1) as (t2 & l2 & H2 & E2 & L2 & _ & P2).
  exists t2, l2. split; [exact H2|]. split; [congruence|]. split.
  - destruct L1 as [L1|L1]; [|auto]. destruct L2 as [L2|(op & Hb & Ha)]; [left; lia|]. right. exists m, op. auto.
  - intros He. specialize (P1 He). rewrite P2; [exact P1|]. destruct He as [[r He]|(a & b & c & d & e & He)]; [left; exists r|right; exists a, b, c, d, e]; congruence.
Qed.

Hypothesis Al : forall n, alone (history act n) (stf n) k.
Hypothesis Ok : forall n op, act n = Some (FRunOp k op) -> orderly wf tame op.
Hypothesis Hid : distinct_ids wf.
Hypothesis Hown : forall key j, In (key, j) (wf_jobs wf) -> owns_steps j.
Hypothesis Fair : job_kept_going R glob ikind stf act (goes_on gh inner) k cx wf i.
Hypothesis Silent : job_falls_silent ikind stf act k cx wf i.
Lemma each t0 : task_at stf n0 k cx wf i t0 -> job_ends_at_last stf k cx wf i.
Proof.
  intros (s0 & Hat0 & Ht0). destruct Silent as [N HN].
  assert (Hx0 : exists x, nth_error (sy_cur s0) i = Some x).
  { destruct (at_run _ _ Hat0) as (sh0 & ops & tr & Hr). assert (I := sys_inv (R cx) glob cx wf (F cx) _ _ _ _ Hr). assert (Hl := si_len (R cx) cx _ _ _ I).
    destruct (nth_error (sy_cur s0) i) as [x|] eqn:Hx; [eauto|]. apply nth_error_None in Hx. assert (i < length (ws_tasks (sy_w s0))) by (apply nth_error_Some; congruence). lia. }
  destruct Hx0 as [x0 Hx0]. destruct (job_at_later n0 (Nat.max n0 N) ltac:(lia) t0 (left_ rx K t0 x0)) as (t1 & l1 & H1 & _); [exists s0, x0; auto|].
  assert (Go : forall l n t, N <= n -> job_at n t l -> exists n t l, job_at n t l /\ ended t).
  { induction l as [l IH] using (well_founded_induction Wf_nat.lt_wf). intros n t Hn Hj. assert (Hj' := Hj). destruct Hj' as (s & x & Hat & Ht & Hx & _). destruct (at_run _ _ Hat) as (sh0 & ops & tr & Hr).
    destruct (job_not_stuck (R cx) glob cx wf ikind rx lc K (F cx) (Pc cx) (Hk cx) inner gh (Fin cx) Quiet (Cr cx) _ _ _ _ _ _ Hr Ht) as [He|Hc]; [eauto 6|].
    destruct (Fair n s Hat Hc) as (m & op & Hm & Hb & Ha). destruct (job_at_later n m Hm _ _ Hj) as (t2 & l2 & H2 & _ & [L2|(p & op' & Hp & Hb' & Hpr)] & _); [|destruct (HN p op' ltac:(lia) Hb' Hpr)].
    destruct (job_at_step _ _ _ H2) as (t3 & l3 & H3 & _ & _ & L3 & _). specialize (L3 op Hb Ha). eapply (IH l3); [lia| |exact H3]. lia. }
  destruct (Go l1 (Nat.max n0 N) t1 ltac:(lia) H1) as (n & t & l & Hj & He). clear Go. destruct He as [[r Hp]|Hc].
  - left. exists n, r. intros m Hm. destruct (job_at_later n m Hm _ _ Hj) as (t2 & l2 & (s & x & Hat & Ht & _) & _ & _ & P2). exists t2. split; [exists s; auto|]. rewrite P2; [exact Hp|]. left. exists r. exact Hp.
  - right. exists n. intros m Hm. destruct (job_at_later n m Hm _ _ Hj) as (t2 & l2 & (s & x & Hat & Ht & _) & _ & _ & P2).
    assert (Hc2 : crashed t2). { specialize (P2 (or_intror Hc)). destruct Hc as (a & b & c & d & e & Hc). exists a, b, c, d, e. congruence. }
    destruct (history_run R glob now stf act Ex m) as [tr Hh]. destruct (run_orderly R glob tame F _ _ _ _ _ _ _ _ Hh (Nam m) (Al m) Hat) as (sh0 & ops & G1 & _ & _ & _ & G5).
    { intros op Hop. apply history_in in Hop as (q & _ & Hq). eapply Ok, Hq. }
    destruct (flow_run2 (R cx) glob cx wf tame inner (F cx) (Tr cx) Hin _ _ _ _ G1 G5) as (wls & W & Wb & _).
    assert (Hnd : NoDup (keys (wf_jobs wf))) by (assert (Hat' := Hat); destruct Hat' as (r & ca & Hr & _ & <- & _); exact (Nam _ k r Hr)).
    destruct (C92_crash_needs_a_finished_twin glob cx wf _ _ _ Hnd W Hid Hown Wb i t2 Ht Hc2) as (i2 & t3 & Hni & Ht3 & Ek3 & Hso).
    exists t2, i2, t3. split; [exists s; auto|]. split; [exact Hc2|]. split; [exact Hni|]. split; [exists s; auto|]. auto.
Qed.
End V.
