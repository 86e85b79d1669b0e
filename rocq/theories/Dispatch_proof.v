From Coq Require Import Sorting.Permutation.
From Verif Require Import Base Types Signals_model Signals_proof Stream_model Cond_model Plugins_model Exec_model Workflow_model Workflow_proof Runner_model Sched_model Sched_spec Sched_proof
  Remote_model Remote_spec Remote_proof Distant_model System_model System_spec System_proof System_inst Fleet_model Fleet_spec Dispatch_model Dispatch_spec.

(** *** Orders *)
Lemma remove_one_perm x : forall l l', remove_one x l = Some l' -> Permutation l (x :: l').
Proof.
  induction l as [|y l IH]; intros l' E; [discriminate|]. cbn [remove_one] in E. destruct (eqb y x) eqn:Ey.
  - apply (proj1 (eqb_true _ _)) in Ey. injection E as <-. rewrite Ey. reflexivity.
  - destruct (remove_one x l) as [r|]; [|discriminate]. injection E as <-. rewrite (IH r eq_refl). apply perm_swap.
Qed.
Lemma remove_one_in x : forall l, In x l -> exists l', remove_one x l = Some l'.
Proof.
  induction l as [|y l IH]; intros H; [destruct H|]. cbn [remove_one]. destruct (eqb y x) eqn:Ey; [eauto|]. destruct H as [->|H]; [rewrite eqb_refl in Ey; discriminate|].
  destruct (IH H) as [l' ->]. cbn. eauto.
Qed.
Lemma reordered_spec : forall a b, reordered a b = true <-> Permutation a b.
Proof.
  induction a as [|x a IH]; intros b; cbn [reordered].
  - destruct b; split; try reflexivity; try discriminate. intros H. apply Permutation_nil in H. discriminate.
  - destruct (remove_one x b) as [b'|] eqn:E.
    + assert (P := remove_one_perm _ _ _ E). rewrite IH. split; intros H; [rewrite P; constructor; exact H|].
      rewrite P in H. apply Permutation_cons_inv in H. exact H.
    + split; [discriminate|]. intros H. destruct (remove_one_in x b) as [b' E']; [eapply Permutation_in; [exact H|left; reflexivity]|]. congruence.
Qed.

(** *** Wanting a runner, within a run *)
Definition want (s : @system (option dtask)) (i : nat) : option step :=
  match nth_error (ws_tasks (sy_w s)) i, nth_error (sy_cur s) i with
  | Some t, Some None => match tk_phase t with JpStepRun _ _ _ (SpCalling st _ _ _ _) _ => Some st | _ => None end
  | _, _ => None
  end.
Definition given (i : nat) (st : step) (e : sysobs (iobs := obs)) : Prop := exists rc, e = (Some i, inr (ORun rc)) /\ rx_command rc = command_of_step st.
Definition no_run (i : nat) (o : list (sysobs (iobs := obs))) : Prop := forall rc, ~ In (Some i, inr (ORun rc)) o.

Lemma want_settle now sm ca s i : want (settle now sm ca s) i = want s i.
Proof. reflexivity. Qed.

Definition calling (p : job_phase) : option step := match p with JpStepRun _ _ _ (SpCalling st _ _ _ _) _ => Some st | _ => None end.
Lemma want_calling s i : want s i = match nth_error (ws_tasks (sy_w s)) i, nth_error (sy_cur s) i with Some t, Some None => calling (tk_phase t) | _, _ => None end.
Proof. reflexivity. Qed.

Lemma job_calling glob cx me j sh p op sh' p' o : job_step glob cx me j sh p op = Some (sh', p', o) -> (forall sop, op <> JStep sop) -> calling p' = None /\ calling p = None.
Proof.
  intros E Hn.
  destruct p; cbn [job_step] in E; destruct op as [| gh|sop]; try (destruct (Hn sop eq_refl)); try discriminate E;
    repeat (match type of E with context [match ?x with _ => _ end] => destruct x end; try discriminate E);
    injection E as <- <- <-; split; reflexivity.
Qed.

(** *** A step has a runner's side only from the call of the runner on. *)
Definition late_step (sp : step_phase) : bool := match sp with SpBefore _ | SpStarted _ | SpRunEvent _ _ | SpQueue _ _ | SpGetSignal _ _ | SpCall _ _ _ => false | _ => true end.
Definition late (p : job_phase) : bool := match p with JpStepRun _ _ _ sp _ => late_step sp | _ => false end.
Definition tidy (s : @system (option dtask)) : Prop :=
  length (sy_cur s) = length (ws_tasks (sy_w s)) /\
  (forall i t, nth_error (ws_tasks (sy_w s)) i = Some t -> late (tk_phase t) = false -> nth_error (sy_cur s) i = Some None) /\
  (forall e, In e (sy_past s) -> exists r, snd (fst (snd e)) = SpDone r).

Lemma job_late glob cx me j sh p op sh' p' o : job_step glob cx me j sh p op = Some (sh', p', o) -> (forall sop, op <> JStep sop) ->
  late p' = false /\ (late p = false \/ exists t0 js rs r rest, p = JpStepRun t0 js rs (SpDone r) rest /\ op = JNext).
Proof.
  intros E Hn.
  destruct p; cbn [job_step] in E; destruct op as [| gh|sop]; try (destruct (Hn sop eq_refl)); try discriminate E;
    repeat (match type of E with context [match ?x with _ => _ end] => destruct x end; try discriminate E);
    injection E as <- <- <-; (split; [reflexivity|]); first [left; reflexivity|right; eauto 8].
Qed.
Lemma step_late cx me sh sp op sh' sp' o : step_step cx me sh sp op = Some (sh', sp', o) -> late_step sp = true -> late_step sp' = true.
Proof.
  intros E L. destruct sp; try discriminate L; destruct op as [|c|b| | | |ro]; try discriminate E; cbn [step_step] in E;
    repeat (match type of E with context [match ?x with _ => _ end] => destruct x end; try discriminate E);
    injection E as <- <- <-; reflexivity.
Qed.
(** What an action on the step with the client does. *)
Inductive inner (cx : ectx) (me : task) (sh : shared) (sp : step_phase) (x : option dtask) (op : dop) (sh' : shared) (sp' : step_phase) (x' : option dtask) (o : list obs) : Prop :=
| in_pick clients pick : op = DPick clients pick -> x = None -> x' <> None -> (exists st t0 a sg str, sp = SpCalling st t0 a sg str) -> sp' = sp -> o = [] -> inner cx me sh sp x op sh' sp' x' o
| in_engine sop : step_step cx me sh sp sop = Some (sh', sp', o) -> (x = None <-> x' = None) -> (sop <> OpAnswer true \/ x <> None) -> sop <> OpAnswer false -> (forall ro, sop = OpRunner ro -> x <> None) ->
    (forall clients pick, op <> DPick clients pick) -> inner cx me sh sp x op sh' sp' x' o
| in_other : sp' = sp -> o = [] -> (x = None <-> x' = None) -> x <> None -> (forall clients pick, op <> DPick clients pick) -> inner cx me sh sp x op sh' sp' x' o.
Lemma at_engine_inner cx me cl0 sh sp t ro sh0 x' op : (forall clients pick, op <> DPick clients pick) -> x' <> None -> cl0 = cl0 :> nat ->
  sh0 = sh -> inner cx me sh sp (Some t) op sh0 (at_engine cx me (DState sh sp (Some t)) ro) x' [].
Proof.
  intros Hp Hx _ ->. destruct (at_engine_faithful cx me sh sp (Some t) ro) as [->|(sh' & E & ->)].
  - eapply in_other; auto; [split; [discriminate|intros ->; contradiction]|discriminate].
  - eapply in_engine; [exact E|split; [discriminate|intros ->; contradiction]|left; discriminate|discriminate|discriminate|exact Hp].
Qed.
Lemma distant_inner cx cl me sh sp x op sh' sp' x' o : rs_step (distant cx cl) me sh sp x op = Some (sh', sp', x', o) -> inner cx me sh sp x op sh' sp' x' o.
Proof.
  intros E. apply distant_step in E as [E Hw]. destruct op as [eo|clients pick|i| |e]; cbn [dstep] in E.
  - assert (K : dengine cx me (DState sh sp x) eo = Some (DState sh' sp' x', o) /\ (eo <> OpAnswer true \/ x <> None) /\ eo <> OpAnswer false /\ forall ro, eo <> OpRunner ro).
    { destruct eo as [|c|[]| | | |ro]; try discriminate E; try (split; [exact E|]; split; [left; discriminate|]; split; [discriminate|intros ro; discriminate]).
      cbn [ds_task] in E. destruct x as [[[rm|] sg [|pd pds]]|]; try discriminate E; (split; [exact E|]; split; [right; discriminate|]; split; [discriminate|intros ro; discriminate]). }
    destruct K as (K & Ha & Hb & Hc). assert (K2 := dengine_faithful _ _ _ _ _ _ _ _ K). cbn [ds_sh ds_step] in K2.
    unfold dengine in K. cbn [ds_sh ds_step ds_task] in K. rewrite K2 in K. injection K as Hx.
    eapply in_engine; [exact K2| |exact Ha|exact Hb|intros ro C; destruct (Hc ro C)|intros; discriminate]. rewrite <- Hx. destruct x; cbn; split; intros; congruence.
  - cbn [ds_step ds_task ds_sh] in E. destruct sp; try discriminate E. destruct x; [discriminate E|].
    destruct (client_start clients pick) as [[effs|?]|]; try discriminate E; injection E as <- <- <- <-;
      (eapply in_pick; [reflexivity|reflexivity|discriminate|eauto 8|reflexivity|reflexivity]).
  - cbn [ds_task ds_sh ds_step] in E. destruct x as [[[rm|] sg pend]|]; try discriminate E. destruct (_ && _); [discriminate E|]. destruct (remote_step rm i) as [r'|]; [|discriminate E].
    assert (Keep : forall t, Some (DState sh sp (Some t), @nil obs) = Some (DState sh' sp' x', o) -> inner cx me sh sp (Some (DTask (Some rm) sg pend)) (DRemote i) sh' sp' x' o).
    { intros t [= <- <- <- <-]. eapply in_other; [reflexivity|reflexivity|split; discriminate|discriminate|intros; discriminate]. }
    destruct i; try (eapply Keep; exact E).
    destruct (sig_poll (cl me) sg) as [sg' [g'|]]; [|discriminate E]. destruct (eqb _ _); [|discriminate E]. injection E as <- <- <- <-.
    eapply (at_engine_inner cx me 0); [intros; discriminate|discriminate|reflexivity|reflexivity].
  - cbn [ds_task ds_sh] in E. destruct x as [[rm sg [|ro rest]]|]; try discriminate E. injection E as <- <- <- <-.
    eapply (at_engine_inner cx me 0); [intros; discriminate|discriminate|reflexivity|reflexivity].
  - destruct (Hw e eq_refl).
Qed.

Section S.
Variables (cx : ectx) (cl : task -> task) (glob : glob_oracle) (wf : workflow).
Notation D := (distant cx cl).

Lemma job_op_split op : is_step_op op = false -> forall i jo, op = WTaskOp i jo -> forall sop, jo <> JStep sop.
Proof. intros H i jo -> sop ->. discriminate H. Qed.
(** The flow of the jobs, outside the steps: what becomes of the tasks. *)
Lemma flow_tasks w op w' tr : wstep glob cx wf w op = Some (w', tr) -> is_step_op op = false ->
  (ws_tasks w' = ws_tasks w /\ step_over w op = None) \/ (exists kj, ws_tasks w' = ws_tasks w ++ [new_task kj] /\ step_over w op = None) \/
  (exists i t t', nth_error (ws_tasks w) i = Some t /\ ws_tasks w' = list_set i t' (ws_tasks w) /\ calling (tk_phase t) = None /\ late (tk_phase t') = false /\
     ((late (tk_phase t) = false /\ step_over w op = None) \/ exists p, step_over w op = Some (i, p))).
Proof.
  intros E Hs. destruct op as [|gh|i jo|i|e]; cbn [wstep] in E.
  - destruct (main_tasks _ _ _ _ _ _ E) as [[-> _]|(kj & -> & _)]; [left; auto|right; left; eauto].
  - left. destruct (ws_main w); try discriminate E. destruct (is_match_second _ _ _ _) as [cache' b]. injection E as <- <-. auto.
  - right. right. destruct (nth_error (ws_tasks w) i) as [t|] eqn:Ei; [|discriminate E].
    destruct (job_step glob cx (S i) (tk_job t) (ws_sh w) (tk_phase t) jo) as [[[sh' p'] out]|] eqn:Ej; [|discriminate E]. injection E as <- <-.
    assert (Hn := job_op_split _ Hs i jo eq_refl). destruct (job_calling _ _ _ _ _ _ _ _ _ _ Ej Hn) as [_ C]. destruct (job_late _ _ _ _ _ _ _ _ _ _ Ej Hn) as [L1 L2].
    exists i, t, (WTask (tk_key t) (tk_job t) p' (tk_sent t)). split; [exact Ei|]. split; [reflexivity|]. split; [exact C|]. split; [exact L1|].
    destruct L2 as [L2|(t0 & js & rs & r & rest & Hp & ->)].
    + left. split; [exact L2|]. cbn [step_over]. rewrite Ei. destruct jo; try reflexivity. destruct (tk_phase t); try reflexivity. destruct p; try reflexivity. discriminate L2.
    + right. exists (SpDone r). cbn [step_over]. rewrite Ei, Hp. reflexivity.
  - right. right. destruct (nth_error (ws_tasks w) i) as [[key j p sent]|] eqn:Ei; [|discriminate]. destruct p as [| | | | | | | | | | | | | |r]; try discriminate.
    destruct sent; [discriminate|]. exists i, (WTask key j (JpReturned r) false), (WTask key j (JpReturned r) true).
    assert (K : ws_tasks w' = list_set i (WTask key j (JpReturned r) true) (ws_tasks w)) by (destruct (ws_main w); try (destruct (Nat.ltb _ _); [|discriminate E]); injection E as <- <-; reflexivity).
    repeat split; auto.
  - left. injection E as <- <-. auto.
Qed.

Lemma nth_pad n (l : list (option dtask)) i : i < length l -> nth_error (pad D n l) i = nth_error l i.
Proof. intros H. unfold pad. apply nth_error_app1, H. Qed.
Lemma nth_pad_new n (l : list (option dtask)) i : length l <= i -> i < n -> nth_error (pad D n l) i = Some None.
Proof.
  intros H1 H2. unfold pad. rewrite nth_error_app2 by exact H1. change (rs_init D) with (@None dtask).
  assert (G : forall m j, j < m -> nth_error (repeat (@None dtask) m) j = Some None) by (induction m as [|m IH]; intros [|j] H; cbn; try lia; [reflexivity|apply IH; lia]). apply G. lia.
Qed.
Lemma done_still me sh r x op sh' p' x' o : rs_step D me sh (SpDone r) x op = Some (sh', p', x', o) -> p' = SpDone r /\ o = [].
Proof.
  intros E. apply distant_inner in E. destruct E as [clients pick _ _ _ (st & t0' & a & sg & str & C) _ _|sop Est _ _ _ _ _| -> -> _ _ _]; [discriminate C| |auto].
  destruct sop; discriminate Est.
Qed.
Lemma past_done s op s' o : (forall e, In e (sy_past s) -> exists r, snd (fst (snd e)) = SpDone r) -> sysstep D glob cx wf s op = Some (s', o) ->
  forall e, In e (sy_past s') -> exists r, snd (fst (snd e)) = SpDone r.
Proof.
  intros Hp E. destruct op as [wo|i0 io|k io]; cbn [sysstep] in E.
  - destruct (is_step_op wo); [discriminate|]. destruct (wstep glob cx wf (sy_w s) wo) as [[w' tr]|]; [|discriminate].
    destruct (step_over (sy_w s) wo) as [[i p]|] eqn:Eo; injection E as <- <-; cbn [sy_past]; [|rewrite app_nil_r; exact Hp].
    intros e He. apply in_app_iff in He as [He|He]; [auto|]. destruct (nth_error (sy_cur s) i); [|destruct He]. destruct He as [<-|[]]. cbn.
    unfold step_over in Eo. destruct wo as [|gh|i1 jo|i1|e1]; try discriminate Eo; destruct jo; try discriminate Eo. destruct (nth_error (ws_tasks (sy_w s)) i1) as [t|]; [|discriminate].
    destruct (tk_phase t) as [| | | | | | | | | |t0' js' rs' sp' rest'| | | |]; try discriminate Eo; destruct sp'; try discriminate Eo. injection Eo as <- <-. eauto.
  - destruct (nth_error (ws_tasks (sy_w s)) i0) as [t|]; [|discriminate]. destruct (nth_error (sy_cur s) i0) as [x|]; [|discriminate].
    destruct (tk_phase t) as [| | | | | | | | | |t0 js rs sp rest| | | |]; try discriminate E.
    destruct (rs_step D (S i0) (ws_sh (sy_w s)) sp x io) as [[[[sh' sp'] x'] out]|]; [|discriminate E]. injection E as <- <-. exact Hp.
  - destruct (nth_error (sy_past s) k) as [[i0 [[sh p] x]]|] eqn:Ek; [|discriminate]. destruct (rs_step D (S i0) sh p x io) as [[[[sh' p'] x'] out]|] eqn:Es; [|discriminate E]. injection E as <- <-.
    cbn [sy_past]. destruct (Hp _ (nth_error_In _ _ Ek)) as [r Hr]. cbn in Hr. subst p. destruct (done_still _ _ _ _ _ _ _ _ _ Es) as [-> _].
    intros e He. apply In_nth_error in He as [n Hn]. destruct (Nat.eq_dec n k) as [->|Hne].
    + rewrite (list_set_eq _ _ _ _ Ek) in Hn. injection Hn as <-. cbn. eauto.
    + rewrite list_set_ne in Hn by exact Hne. eapply Hp, nth_error_In, Hn.
Qed.
Lemma sys_cases s op s' o : tidy s -> sysstep D glob cx wf s op = Some (s', o) -> tidy s' /\
  forall i, (want s' i = want s i /\ no_run i o /\ forall clients pick, op <> YStep i (DPick clients pick)) \/
    (exists st rc, want s i = None /\ want s' i = Some st /\ o = [(Some i, inr (ORun rc))] /\ rx_command rc = command_of_step st) \/
    (exists clients pick st, op = YStep i (DPick clients pick) /\ want s i = Some st /\ want s' i = None /\ o = []).
Proof.
  intros (Hl & Ht & Hpast) E. assert (HP := past_done _ _ _ _ Hpast E). destruct op as [wo|i0 io|k io]; cbn [sysstep] in E.
  - destruct (is_step_op wo) eqn:Es; [discriminate|]. destruct (wstep glob cx wf (sy_w s) wo) as [[w' tr]|] eqn:Ew; [|discriminate].
    assert (No : forall i, no_run i (map (fun x : who * obs => (fst x, inl (snd x))) tr)) by (intros i rc H; apply in_map_iff in H as (y & Hy & _); discriminate Hy).
    destruct (flow_tasks _ _ _ _ Ew Es) as [[Et Eo]|[(kj & Et & Eo)|(i1 & t & t' & Ei & Et & Hc & Hlt & Hd)]].
    + rewrite Eo in E. injection E as <- <-. unfold tidy. cbn [sy_w sy_cur]. rewrite Et, pad_eq by exact Hl. split; [split; [exact Hl|split; [exact Ht|exact HP]]|]. intros i. left.
      split; [|split; [apply No|intros; discriminate]]. unfold want. cbn [sy_w sy_cur]. rewrite Et. reflexivity.
    + rewrite Eo in E. injection E as <- <-. unfold tidy. cbn [sy_w sy_cur]. rewrite Et, app_length. cbn [length].
      assert (Hn : forall i, nth_error (pad D (length (ws_tasks (sy_w s)) + 1) (sy_cur s)) i = if Nat.eqb i (length (sy_cur s)) then Some None else nth_error (sy_cur s) i).
      { intros i. destruct (Nat.eqb i (length (sy_cur s))) eqn:Ei; [apply Nat.eqb_eq in Ei; subst i; apply nth_pad_new; lia|]. apply Nat.eqb_neq in Ei.
        destruct (Nat.lt_ge_cases i (length (sy_cur s))) as [H|H]; [apply nth_pad, H|]. rewrite (proj2 (nth_error_None (sy_cur s) i) H). apply nth_error_None. rewrite pad_length by lia. lia. }
      split; [split; [rewrite pad_length by lia; reflexivity|split; [|exact HP]]|].
      * intros i t Hi Hlt. rewrite Hn. destruct (Nat.eqb i (length (sy_cur s))) eqn:Ei; [reflexivity|]. apply Nat.eqb_neq in Ei.
        destruct (Nat.lt_ge_cases i (length (sy_cur s))) as [H|H]; [rewrite nth_error_app1 in Hi by lia; eauto|].
        exfalso. assert (i < length (ws_tasks (sy_w s) ++ [new_task kj])) by (apply nth_error_Some; congruence). rewrite app_length in *. cbn [length] in *. lia.
      * intros i. left. split; [|split; [apply No|intros; discriminate]]. unfold want. cbn [sy_w sy_cur]. rewrite Et, Hn.
        destruct (Nat.eqb i (length (sy_cur s))) eqn:Ei.
        -- apply Nat.eqb_eq in Ei. subst i. rewrite Hl, nth_error_app2, Nat.sub_diag by lia. cbn [nth_error new_task]. rewrite (proj2 (nth_error_None (ws_tasks (sy_w s)) _)) by lia. reflexivity.
        -- apply Nat.eqb_neq in Ei. destruct (Nat.lt_ge_cases i (length (sy_cur s))) as [H|H]; [rewrite nth_error_app1 by lia; reflexivity|].
           rewrite (proj2 (nth_error_None (sy_cur s) i) H). destruct (nth_error (_ ++ _) i), (nth_error (ws_tasks (sy_w s)) i); reflexivity.
    + assert (Hi1 : i1 < length (ws_tasks (sy_w s))) by (apply nth_error_Some; congruence).
      assert (K : exists cur, length cur = length (sy_cur s) /\ nth_error cur i1 = Some None /\ (forall i, i <> i1 -> nth_error cur i = nth_error (sy_cur s) i) /\ sy_w s' = w' /\ sy_cur s' = cur /\ o = map (fun x : who * obs => (fst x, inl (snd x))) tr).
      { destruct Hd as [[Hlt0 Eo]|[p Eo]]; rewrite Eo in E; injection E as <- <-; cbn [sy_w sy_cur]; rewrite Et, list_set_length.
        - exists (sy_cur s). split; [reflexivity|]. split; [eauto|]. split; [auto|]. split; [reflexivity|]. split; [apply pad_eq, Hl|reflexivity].
        - exists (list_set i1 None (sy_cur s)). split; [apply list_set_length|].
          split; [destruct (nth_error (sy_cur s) i1) as [c|] eqn:Ec; [eapply list_set_eq; exact Ec|apply nth_error_None in Ec; lia]|].
          split; [intros i Hne; apply list_set_ne; congruence|]. split; [reflexivity|]. split; [|reflexivity]. change (rs_init D) with (@None dtask). apply pad_eq. rewrite list_set_length. exact Hl. }
      destruct K as (cur & K1 & K2 & K3 & K4 & K5 & ->). unfold tidy. rewrite K4, K5, Et, list_set_length. split; [split; [congruence|split; [|exact HP]]|].
      * intros i t1 Hi Hlt1. destruct (Nat.eq_dec i i1) as [->|Hne]; [exact K2|]. rewrite K3 by exact Hne. rewrite list_set_ne in Hi by congruence. eauto.
      * intros i. left. split; [|split; [apply No|intros; discriminate]]. unfold want. rewrite K4, K5, Et. destruct (Nat.eq_dec i i1) as [->|Hne].
        -- rewrite (list_set_eq _ _ _ _ Ei), K2, Ei. destruct (tk_phase t') as [| | | | | | | | | |t0 js rs sp rest| | | |]; destruct (nth_error (sy_cur s) i1) as [[]|]; try reflexivity.
           all: try (destruct (tk_phase t) as [| | | | | | | | | |t0' js' rs' sp' rest'| | | |]; try reflexivity; destruct sp'; try reflexivity; discriminate Hc).
           all: destruct sp; try discriminate Hlt; try reflexivity.
           all: try (destruct (tk_phase t) as [| | | | | | | | | |t0' js' rs' sp' rest'| | | |]; try reflexivity; destruct sp'; try reflexivity; discriminate Hc).
        -- rewrite list_set_ne, K3 by congruence. reflexivity.
  - destruct (nth_error (ws_tasks (sy_w s)) i0) as [t|] eqn:Ei; [|discriminate]. destruct (nth_error (sy_cur s) i0) as [x|] eqn:Ex; [|discriminate].
    destruct (tk_phase t) as [| | | | | | | | | |t0 js rs sp rest| | | |] eqn:Ep; try discriminate E.
    destruct (rs_step D (S i0) (ws_sh (sy_w s)) sp x io) as [[[[sh' sp'] x'] out]|] eqn:Es; [|discriminate E]. injection E as <- <-. apply distant_inner in Es.
    assert (Early : late_step sp = false -> x = None) by (intros L; assert (K := Ht i0 t Ei); rewrite Ep in K; specialize (K L); congruence).
    split.
    + split; cbn [sy_w sy_cur ws_tasks]; [rewrite !list_set_length; exact Hl|split; [|exact HP]]. intros i t1 Hi L. destruct (Nat.eq_dec i i0) as [->|Hne].
      * rewrite (list_set_eq _ _ _ _ Ei) in Hi. injection Hi as <-. cbn [set_phase tk_phase late] in L. rewrite (list_set_eq _ _ _ _ Ex). f_equal.
        destruct Es as [clients pick _ -> Hx' (st & t0' & a & sg & str & ->) -> _|sop Est Hx _ _ _ _| -> _ Hx Hn _]; [discriminate L| |].
        -- apply Hx, Early. destruct (late_step sp) eqn:L0; [|reflexivity]. assert (C := step_late _ _ _ _ _ _ _ _ Est L0). congruence.
        -- destruct (Hn (Early L)).
      * rewrite list_set_ne in Hi by congruence. rewrite list_set_ne by congruence. eauto.
    + intros i. destruct (Nat.eq_dec i i0) as [->|Hne].
      2:{ left. split; [unfold want; cbn [sy_w sy_cur ws_tasks]; rewrite !list_set_ne by congruence; reflexivity|]. split; [|intros; congruence].
          intros rc H. apply in_map_iff in H as (y & Hy & _). congruence. }
      assert (W : want s i0 = match x with None => calling (JpStepRun t0 js rs sp rest) | _ => None end) by (unfold want; rewrite Ei, Ex, Ep; destruct x; reflexivity).
      set (s1 := System _ _ _).
      assert (W1 : want s1 i0 = match x' with None => calling (JpStepRun t0 js rs sp' rest) | _ => None end).
      { unfold want, s1. cbn [sy_w sy_cur ws_tasks]. rewrite (list_set_eq _ _ _ _ Ei), (list_set_eq _ _ _ _ Ex). destruct x'; reflexivity. }
      rewrite W, W1. clear W W1 s1.
      destruct Es as [clients pick -> -> Hx' (st & t0' & a & sg & str & ->) -> ->|sop Est Hx Ha Hb Hr Hp| -> -> Hx Hn Hp].
      * right. right. exists clients, pick, st. split; [reflexivity|]. split; [reflexivity|]. split; [destruct x'; [reflexivity|contradiction]|reflexivity].
      * destruct x as [x|].
        -- destruct x' as [x'|]; [|destruct Hx as [_ Hx]; discriminate (Hx eq_refl)]. left. split; [reflexivity|]. split; [|intros ? ? [= ->]; eapply Hp; reflexivity].
           intros rc H. assert (L : late_step sp = true) by (destruct (late_step sp) eqn:L; [reflexivity|discriminate (Early eq_refl)]).
           apply in_map_iff in H as (y & [= ->] & Hy). revert Est Hy L. clear. intros E Hy L.
           destruct sp; try discriminate L; destruct sop as [|c|b| | | |ro]; try discriminate E; cbn [step_step] in E;
             repeat (match type of E with context [match ?x with _ => _ end] => destruct x end; try discriminate E);
             injection E as <- <- <-; cbn in Hy; intuition discriminate.
        -- destruct x' as [x'|]; [destruct Hx as [Hx _]; discriminate (Hx eq_refl)|]. destruct Ha as [Ha|Ha]; [|contradiction].
           assert (Hro : forall ro, sop <> OpRunner ro) by (intros ro C; exact (Hr ro C eq_refl)). clear Hx Hr Early.
           assert (Kp : forall clients pick, YStep i0 io <> YStep i0 (DPick clients pick)) by (intros ? ? [= ->]; eapply Hp; reflexivity).
           destruct sp; destruct sop as [|c|b| | | |ro]; try discriminate Est; try (destruct (Hro ro eq_refl)); cbn [step_step] in Est;
             try (destruct b; [destruct (Ha eq_refl)|destruct (Hb eq_refl)]);
             repeat (match type of Est with context [match ?x with _ => _ end] => destruct x end; try discriminate Est);
             injection Est as <- <- <-; try (left; split; [reflexivity|]; split; [intros rc H; cbn in H; intuition discriminate|exact Kp]).
           right. left. eexists _, _. split; [reflexivity|]. split; [reflexivity|]. split; reflexivity.
      * destruct x; [|contradiction]. destruct x'; [|destruct Hx as [_ Hx]; discriminate (Hx eq_refl)]. left. split; [reflexivity|]. split; [intros rc []|intros ? ? [= ->]; eapply Hp; reflexivity].
  - destruct (nth_error (sy_past s) k) as [[i0 [[sh p] x]]|] eqn:Ek; [|discriminate]. destruct (rs_step D (S i0) sh p x io) as [[[[sh' p'] x'] out]|] eqn:Es; [|discriminate E]. injection E as <- <-.
    split; [split; [exact Hl|split; [exact Ht|exact HP]]|]. intros i. left. split; [reflexivity|]. split; [|intros; discriminate].
    destruct (Hpast _ (nth_error_In _ _ Ek)) as [r Hr]. cbn in Hr. subst p. destruct (done_still _ _ _ _ _ _ _ _ _ Es) as [_ ->]. intros rc [].
Qed.
End S.

Section F.
Variables (cl : task -> task) (glob : glob_oracle).
Notation fs := (remote_fleet_step cl glob).
Definition ftidy (f : @fleet (option dtask)) : Prop := forall k r, nth_error (fl_runs f) k = Some r -> tidy (fr_sys r) /\ fr_ctx r < length (fl_ctx f).
Definition no_frun (k i : nat) (o : list (nat * sysobs (iobs := obs))) : Prop := forall rc, ~ In (k, (Some i, inr (ORun rc))) o.
Lemma wanting_want f k i : wanting f k i = match nth_error (fl_runs f) k with Some r => want (fr_sys r) i | None => None end.
Proof. reflexivity. Qed.
Lemma tidy_init sh : tidy (System (winit sh) [] []).
Proof. split; [reflexivity|]. split; [intros [|i] t C; discriminate C|intros e []]. Qed.
Lemma tidy_settle now sm ca s : tidy s -> tidy (settle now sm ca s).
Proof. intros (H1 & H2 & H3). split; [exact H1|]. split; [exact H2|exact H3]. Qed.
Lemma nth_pred (c : nat) {A} (l : list A) : c < length l -> exists x, nth_error l c = Some x.
Proof. intros H. destruct (nth_error l c) eqn:E; [eauto|]. apply nth_error_None in E. lia. Qed.

Lemma fleet_cases f op f' o : ftidy f -> fs f op = Some (f', o) -> ftidy f' /\
  forall k i, (wanting f' k i = wanting f k i /\ no_frun k i o /\ forall clients pick, op <> FRunOp k (YStep i (DPick clients pick))) \/
    (exists st rc, wanting f k i = None /\ wanting f' k i = Some st /\ o = [(k, (Some i, inr (ORun rc)))] /\ rx_command rc = command_of_step st) \/
    (exists clients pick st, op = FRunOp k (YStep i (DPick clients pick)) /\ wanting f k i = Some st /\ wanting f' k i = None /\ o = []).
Proof.
  intros Ht E. unfold remote_fleet_step in E. destruct op as [cx|c wf|k0 so|d|c j|c]; cbn [fstep] in E.
  - injection E as <- <-. split.
    + intros k r Hr. cbn [fl_runs fl_ctx] in *. destruct (Ht k r Hr). split; [assumption|]. rewrite app_length. lia.
    + intros k i. left. split; [reflexivity|]. split; [intros rc []|discriminate].
  - destruct (nth_error (fl_ctx f) c) as [[cx ca]|] eqn:Ec; [|discriminate]. injection E as <- <-. split.
    + intros k r Hr. cbn [fl_runs fl_ctx] in *. destruct (Nat.lt_ge_cases k (length (fl_runs f))) as [H|H]; [rewrite nth_error_app1 in Hr by exact H; exact (Ht k r Hr)|].
      rewrite nth_error_app2 in Hr by exact H. destruct (k - length (fl_runs f)) as [|n]; [|destruct n; discriminate Hr]. injection Hr as <-. cbn [fr_sys fr_ctx]. split; [apply tidy_init|].
      apply nth_error_Some. congruence.
    + intros k i. left. split; [|split; [intros rc []|discriminate]]. rewrite !wanting_want. cbn [fl_runs].
      destruct (Nat.lt_ge_cases k (length (fl_runs f))) as [H|H]; [rewrite nth_error_app1 by exact H; reflexivity|].
      rewrite nth_error_app2, (proj2 (nth_error_None (fl_runs f) k) H) by exact H. destruct (k - length (fl_runs f)) as [|n]; [destruct i; reflexivity|destruct n; reflexivity].
  - destruct (nth_error (fl_runs f) k0) as [r|] eqn:Er; [|discriminate]. destruct (nth_error (fl_ctx f) (fr_ctx r)) as [[cx ca]|] eqn:Ec; [|discriminate]. destruct (is_env so); [discriminate|].
    destruct (sysstep (distant cx cl) glob cx (fr_wf r) (settle (fl_now f) (fl_sm f) ca (fr_sys r)) so) as [[s' o']|] eqn:Es; [|discriminate]. injection E as <- <-.
    destruct (Ht k0 r Er) as [Hr Hc]. destruct (sys_cases _ _ _ _ _ _ _ _ (tidy_settle _ _ _ _ Hr) Es) as [Hs' Hcases]. split.
    + intros k r' Hr'. cbn [fl_runs fl_ctx] in *. rewrite list_set_length. destruct (Nat.eq_dec k k0) as [->|Hne].
      * rewrite (list_set_eq _ _ _ _ Er) in Hr'. injection Hr' as <-. cbn [fr_sys fr_ctx]. auto.
      * rewrite list_set_ne in Hr' by exact Hne. exact (Ht k r' Hr').
    + intros k i. rewrite !wanting_want. cbn [fl_runs]. destruct (Nat.eq_dec k k0) as [->|Hne].
      * rewrite (list_set_eq _ _ _ _ Er), Er. cbn [fr_sys]. specialize (Hcases i). rewrite want_settle in Hcases.
        destruct Hcases as [(H1 & H2 & H3)|[(st & rc & H1 & H2 & -> & H4)|(clients & pick & st & -> & H2 & H3 & ->)]].
        -- left. split; [exact H1|]. split; [|intros clients pick [= C]; exact (H3 _ _ C)]. intros rc H. apply in_map_iff in H as (y & [= ->] & Hy). exact (H2 rc Hy).
        -- right. left. exists st, rc. auto.
        -- right. right. exists clients, pick, st. auto.
      * rewrite list_set_ne by exact Hne. left. split; [reflexivity|]. split; [|intros ? ? [= C]; congruence]. intros rc H. apply in_map_iff in H as (y & [= C] & Hy). congruence.
  - injection E as <- <-. split; [exact Ht|]. intros k i. left. split; [reflexivity|]. split; [intros rc []|discriminate].
  - injection E as <- <-. split; [exact Ht|]. intros k i. left. split; [reflexivity|]. split; [intros rc []|discriminate].
  - injection E as <- <-. split; [exact Ht|]. intros k i. left. split; [reflexivity|]. split; [intros rc []|discriminate].
Qed.
Lemma pick_possible f k i st clients pick : ftidy f -> wanting f k i = Some st -> client_start clients pick <> None ->
  exists f', fs f (FRunOp k (YStep i (DPick clients pick))) = Some (f', []).
Proof.
  intros Ht W Hc. rewrite wanting_want in W. destruct (nth_error (fl_runs f) k) as [r|] eqn:Er; [|discriminate]. destruct (Ht k r Er) as [_ Hx].
  destruct (nth_pred _ _ Hx) as [[cx ca] Ec]. unfold remote_fleet_step. cbn [fstep is_env]. rewrite Er, Ec.
  unfold want in W. destruct (nth_error (ws_tasks (sy_w (fr_sys r))) i) as [t|] eqn:Ei; [|discriminate]. destruct (nth_error (sy_cur (fr_sys r)) i) as [[x|]|] eqn:Ex; try discriminate.
  destruct (tk_phase t) as [| | | | | | | | | |t0 js rs sp rest| | | |] eqn:Ep; try discriminate W. destruct sp; try discriminate W.
  cbn [sysstep settle sy_w sy_cur ws_tasks ws_sh]. rewrite Ei, Ex, Ep. cbn [rs_step distant dstep ds_step ds_task].
  destruct (client_start clients pick) as [[effs|m]|]; [| |contradiction]; cbn; eauto.
Qed.
End F.

(** *** The scheduler's machine, one lock section at a time *)
Lemma begin_in st q r : begin_schedule st q = inl (CCommit q r) -> In r (sq_runners q).
Proof.
  unfold begin_schedule. set (found := match lookup _ _ with Some last => _ | None => None end). destruct found as [x|] eqn:Ef.
  - intros [= <-]. unfold found in Ef. destruct (lookup _ _); [|discriminate]. apply find_some in Ef. tauto.
  - destruct (runs_on_host _); [|discriminate]. destruct (pick_host_runner _ _) as [x|] eqn:Ep; [|discriminate]. intros [= <-].
    apply pick_host_spec, first_such_in in Ep. tauto.
Qed.
Lemma begin_cases st q : (begin_schedule st q = inl (CPick q) /\ ~ host_step q) \/ (exists r, begin_schedule st q = inl (CCommit q r) /\ In r (sq_runners q)) \/ begin_schedule st q = inr None.
Proof.
  destruct (begin_schedule st q) as [[q'|q' r]|res] eqn:E.
  - left. revert E. unfold begin_schedule. destruct (match lookup _ _ with Some last => _ | None => None end); [discriminate|]. destruct (runs_on_host _) eqn:Eh; [destruct (pick_host_runner _ _); discriminate|].
    intros [= <-]. apply runs_on_host_false in Eh. auto.
  - right. left. assert (q' = q) as ->.
    { revert E. unfold begin_schedule. destruct (match lookup _ _ with Some last => _ | None => None end); [congruence|]. destruct (runs_on_host _); [destruct (pick_host_runner _ _); congruence|discriminate]. }
    exists r. split; [reflexivity|]. eapply begin_in, E.
  - right. right. revert E. unfold begin_schedule. destruct (match lookup _ _ with Some last => _ | None => None end); [discriminate|]. destruct (runs_on_host _); [destruct (pick_host_runner _ _); congruence|discriminate].
Qed.
Lemma pick_cases st q : (exists r, pick_schedule st q = inl (CCommit q r) /\ In r (sq_runners q)) \/ pick_schedule st q = inr None.
Proof.
  unfold pick_schedule, pick_docker_runner. destruct (min_by_count _ _) as [r|] eqn:E; [|auto]. left. exists r. split; [reflexivity|].
  apply min_by_count_in, filter_In in E. tauto.
Qed.
Definition in_offer (k : call) : Prop := match k with CPick q => ~ host_step q | CCommit q r => In r (sq_runners q) end.
(** The first lock section of a call. *)
Lemma first_section m c q m' o : smach_step m (SBegin c q) = Some (m', o) ->
  lookup c (sm_calls m) = None /\ sm_st m' = sm_st m /\
  ((exists k, sm_calls m' = insert c k (sm_calls m) /\ call_req k = q /\ in_offer k /\ o = [EvCalled c q]) \/
   (sm_calls m' = remove c (sm_calls m) /\ o = [EvCalled c q; EvReturned c q None])).
Proof.
  cbn [smach_step]. destruct (contains_key c (sm_calls m)) eqn:Ec; [discriminate|]. apply contains_key_false, lookup_None in Ec. intros E. split; [exact Ec|].
  destruct (begin_cases (sm_st m) q) as [[B Hh]|[(r & B & Hi)|B]]; rewrite B in E; cbn [continue_call] in E; injection E as <- <-; (split; [reflexivity|]).
  - left. eexists. repeat split; [exact Hh].
  - left. eexists. repeat split; [exact Hi].
  - right. auto.
Qed.
(** The later ones. *)
Lemma next_section m c m' o : smach_step m (SNext c) = Some (m', o) -> exists k, lookup c (sm_calls m) = Some k /\
  ((exists q r, k = CPick q /\ In r (sq_runners q) /\ sm_st m' = sm_st m /\ sm_calls m' = insert c (CCommit q r) (sm_calls m) /\ o = []) \/
   (exists q, k = CPick q /\ sm_st m' = sm_st m /\ sm_calls m' = remove c (sm_calls m) /\ o = [EvReturned c q None]) \/
   (exists q r, k = CCommit q r /\ sm_st m' = commit_schedule (sm_st m) q r /\ sm_calls m' = remove c (sm_calls m) /\ o = [EvScheduled (sq_step q) (runs_on_host (sq_container q)) (rm_id r); EvReturned c q (Some r)])).
Proof.
  cbn [smach_step]. destruct (lookup c (sm_calls m)) as [[q|q r]|] eqn:L; [| |discriminate]; intros E.
  - eexists. split; [reflexivity|]. injection E as E. destruct (pick_cases (sm_st m) q) as [(r & B & Hi)|B]; rewrite B in E; cbn [continue_call] in E; injection E as <- <-; cbn [sm_st sm_calls].
    + left. exists q, r. auto.
    + right. left. exists q. auto.
  - eexists. split; [reflexivity|]. injection E as <- <-. right. right. exists q, r. auto.
Qed.
Lemma next_possible m c k : lookup c (sm_calls m) = Some k -> smach_step m (SNext c) <> None.
Proof. intros L. cbn [smach_step]. rewrite L. destruct k; discriminate. Qed.
Lemma begin_possible m c q : lookup c (sm_calls m) = None -> smach_step m (SBegin c q) <> None.
Proof. intros L. cbn [smach_step]. rewrite (proj2 (contains_key_false _ _) (proj1 (lookup_None _ _) L)). destruct (continue_call _ _ _ _). discriminate. Qed.

(** *** The table of runners *)
Definition coherent (m : map_ string runner_meta) : Prop := forall k r, lookup k m = Some r -> rm_id r = k.
Lemma connect_one a m : connect_all [a] m = m \/ exists r, connect_all [a] m = insert (rm_id r) r m /\ lookup (rm_id r) m = None.
Proof.
  unfold connect_all. cbn [fold_left]. destruct (connect a) as [r|]; [|auto]. destruct (contains_key (rm_id r) m) eqn:E; [auto|]. right. exists r. split; [reflexivity|]. apply lookup_None, contains_key_false, E.
Qed.
Lemma connect_grows a m k r : lookup k m = Some r -> lookup k (connect_all [a] m) = Some r.
Proof.
  intros L. destruct (connect_one a m) as [->|(r' & -> & N)]; [exact L|]. destruct (eq_dec k (rm_id r')) as [->|Hne]; [congruence|]. rewrite lookup_insert_ne; assumption.
Qed.
Lemma connect_coherent a m : coherent m -> coherent (connect_all [a] m).
Proof.
  intros H. destruct (connect_one a m) as [->|(r' & -> & N)]; [exact H|]. intros k r L. destruct (eq_dec k (rm_id r')) as [->|Hne].
  - rewrite lookup_insert_eq in L. injection L as <-. reflexivity.
  - rewrite lookup_insert_ne in L by exact Hne. exact (H k r L).
Qed.
Lemma connect_nodup a m : NoDup (keys m) -> NoDup (keys (connect_all [a] m)).
Proof. intros H. destruct (connect_one a m) as [->|(r' & -> & N)]; [exact H|]. apply NoDup_keys_insert, H. Qed.
Lemma connected_snoc ops op : connected (ops ++ [op]) = match op with PConnect a => connect_all [a] (connected ops) | _ => connected ops end.
Proof.
  unfold connected, tried. rewrite flat_map_app. cbn [flat_map]. rewrite app_nil_r. destruct op; try (rewrite app_nil_r; reflexivity).
  unfold connect_all. rewrite fold_left_app. reflexivity.
Qed.
Lemma connected_ok ops : coherent (connected ops) /\ NoDup (keys (connected ops)).
Proof.
  induction ops as [|op ops IH] using rev_ind; [split; [intros k r C; discriminate C|constructor]|]. rewrite connected_snoc. destruct IH as [H1 H2].
  destruct op; auto. split; [apply connect_coherent, H1|apply connect_nodup, H2].
Qed.
Lemma offered_found (m : map_ string runner_meta) l r : coherent m -> NoDup (keys m) -> Permutation l (map snd m) -> In r l -> lookup (rm_id r) m = Some r.
Proof.
  intros Hc Hn P H. apply (Permutation_in _ P) in H. apply in_map_iff in H as ([k x] & <- & Hk). cbn [snd]. assert (L := In_lookup _ _ _ Hn Hk). rewrite (Hc _ _ L). exact L.
Qed.

(** *** The invariant *)
Lemma sched_app a b : sched_events (a ++ b) = sched_events a ++ sched_events b.
Proof. apply flat_map_app. Qed.
Lemma seen_app a b : run_seen (a ++ b) = run_seen a ++ run_seen b.
Proof. apply flat_map_app. Qed.
Lemma sched_sched o : sched_events (map PSched o) = o.
Proof. induction o as [|e o IH]; [reflexivity|]. cbn. f_equal. exact IH. Qed.
Lemma sched_seen x : sched_events (map (fun y : nat * sysobs (iobs := obs) => PSeen (fst y) (snd y)) x) = [].
Proof. induction x as [|e x IH]; [reflexivity|]. exact IH. Qed.
Lemma seen_sched o : run_seen (map PSched o) = [].
Proof. induction o as [|e o IH]; [reflexivity|]. exact IH. Qed.
Lemma seen_seen x : run_seen (map (fun y : nat * sysobs (iobs := obs) => PSeen (fst y) (snd y)) x) = x.
Proof. induction x as [|[k e] x IH]; [reflexivity|]. cbn. f_equal. exact IH. Qed.
Lemma in_sched e tr : In e (sched_events tr) <-> In (PSched e) tr.
Proof.
  unfold sched_events. rewrite in_flat_map. split.
  - intros (x & Hx & He). destruct x as [k x|x]; [destruct He|]. destruct He as [->|[]]. exact Hx.
  - intros H. exists (PSched e). split; [exact H|left; reflexivity].
Qed.

Lemma asked_for_spec d k i : asked_for d k i = true <-> exists c, pending d c k i.
Proof.
  unfold asked_for, pending, made_for. rewrite existsb_exists. split.
  - intros ([c cl0] & Hx & H). cbn [fst] in H. destruct (nth_error (dp_asked d) c) as [a|] eqn:Ea; [|discriminate]. apply andb_true_iff in H as [H1 H2].
    apply Nat.eqb_eq in H1, H2. exists c. split; [|eauto]. intros L. apply lookup_None in L. apply L. change c with (fst (c, cl0)). unfold keys. apply in_map, Hx.
  - intros (c & L & a & Ea & H1 & H2). destruct (lookup c (sm_calls (dp_sched d))) as [x|] eqn:Ex; [|contradiction]. exists (c, x). split; [apply lookup_In, Ex|].
    cbn [fst]. rewrite Ea, H1, H2, !Nat.eqb_refl. reflexivity.
Qed.
Definition quiet_op (op : sop) : Prop := match op with SBegin _ _ | SNext _ => True | _ => False end.

Record dinv (ops : list pop) (d : dispatch) (tr : list pobs) : Prop := DInv {
  di_tidy : ftidy (dp_fleet d);
  di_sched : exists sops, sched_run sops (dp_sched d) (sched_events tr) /\ Forall quiet_op sops;
  di_clients : dp_clients d = connected ops;
  di_pending : forall c k, lookup c (sm_calls (dp_sched d)) = Some k -> exists a st l, nth_error (dp_asked d) c = Some a /\ wanting (dp_fleet d) (as_run a) (as_job a) = Some st /\
    call_req k = request l st /\ Permutation l (map snd (as_clients a)) /\ in_offer k;
  di_one : forall c c' k i, pending d c k i -> pending d c' k i -> c = c';
  di_called : forall c q, In (PSched (EvCalled c q)) tr -> c < length (dp_asked d);
  di_want : forall k i st, wanting (dp_fleet d) k i = Some st -> (forall c, ~ pending d c k i) ->
    exists rc pre1 pre2, tr = pre1 ++ gives k i rc :: pre2 /\ nothing_new d k i pre2 /\ rx_command rc = command_of_step st;
  di_snap : forall a, In a (dp_asked d) -> coherent (as_clients a) /\ NoDup (keys (as_clients a)) /\ forall k r, lookup k (as_clients a) = Some r -> lookup k (dp_clients d) = Some r
}.

Section P.
Variables (cl : task -> task) (glob : glob_oracle) (now : time).
Notation ps := (pstep cl glob).
Notation run := (dispatch_run cl glob now).
Notation fs := (remote_fleet_step cl glob).

Lemma made_more d d' extra c k i : dp_asked d' = dp_asked d ++ extra -> c < length (dp_asked d) -> made_for d' c k i <-> made_for d c k i.
Proof. intros E H. unfold made_for. rewrite E, nth_error_app1 by exact H. reflexivity. Qed.
Lemma nothing_more d d' extra k i o tr : dp_asked d' = dp_asked d ++ extra -> (forall c q, In (PSched (EvCalled c q)) tr -> c < length (dp_asked d)) ->
  nothing_new d k i tr -> nothing_new d' k i o -> nothing_new d' k i (tr ++ o).
Proof.
  intros E Hc [H1 H2] [H3 H4]. split.
  - intros rc H. apply in_app_iff in H as [H|H]; [exact (H1 rc H)|exact (H3 rc H)].
  - intros c q H. apply in_app_iff in H as [H|H]; [|exact (H4 c q H)]. rewrite (made_more d d' extra) by eauto. exact (H2 c q H).
Qed.
(** The fleet acts, the scheduler and the table are the same (or the table grows). *)
Lemma calm ops d tr op f o d' : dinv ops d tr -> ftidy f ->
  (forall k i, (wanting f k i = wanting (dp_fleet d) k i /\ no_frun k i o) \/
     (exists st rc, wanting (dp_fleet d) k i = None /\ wanting f k i = Some st /\ o = [(k, (Some i, inr (ORun rc)))] /\ rx_command rc = command_of_step st)) ->
  d' = Dispatch f (connected (ops ++ [op])) (dp_sched d) (dp_asked d) ->
  dinv (ops ++ [op]) d' (tr ++ map (fun y => PSeen (fst y) (snd y)) o).
Proof.
  intros I Hf Hw ->. destruct I as [I1 I2 I3 I4 I5 I6 I7 I8].
  assert (Hse : forall c q, ~ In (PSched (EvCalled c q)) (map (fun y : nat * sysobs (iobs := obs) => PSeen (fst y) (snd y)) o)) by (intros c q H; apply in_map_iff in H as (y & Hy & _); discriminate Hy).
  constructor; cbn [dp_fleet dp_sched dp_asked dp_clients].
  - exact Hf.
  - rewrite sched_app, sched_seen, app_nil_r. exact I2.
  - reflexivity.
  - intros c k L. destruct (I4 c k L) as (a & st & l & H1 & H2 & H3). exists a, st, l. split; [exact H1|]. split; [|exact H3].
    destruct (Hw (as_run a) (as_job a)) as [[E _]|(st' & rc & E & _)]; congruence.
  - exact I5.
  - intros c q H. apply in_app_iff in H as [H|H]; [eauto|destruct (Hse c q H)].
  - intros k i st W Np. destruct (Hw k i) as [[E No]|(st' & rc & E1 & E2 & -> & E4)].
    + destruct (I7 k i st) as (rc & p1 & p2 & -> & H1 & H2); [congruence|exact Np|]. exists rc, p1, (p2 ++ map (fun y => PSeen (fst y) (snd y)) o).
      split; [rewrite <- app_assoc; reflexivity|]. split; [|exact H2]. eapply (nothing_more _ _ []); [cbn; rewrite app_nil_r; reflexivity| |exact H1|].
      * intros c q H. eapply I6. apply in_or_app. right. right. exact H.
      * split; [|intros c q H; destruct (Hse c q H)]. intros rc' H. apply in_map_iff in H as ([k0 x] & Hy & Hin). cbn in Hy. unfold gives in Hy. injection Hy as -> ->. exact (No rc' Hin).
    + exists rc, tr, []. split; [reflexivity|]. split; [split; [intros ? []|intros ? ? []]|]. congruence.
  - intros a Ha. destruct (I8 a Ha) as (H1 & H2 & H3). split; [exact H1|]. split; [exact H2|]. intros k r L. apply H3 in L. rewrite I3 in L. rewrite connected_snoc.
    destruct op; try exact L. apply connect_grows, L.
Qed.
(** The scheduler acts for call [c], made for [(k0, i0)]. *)
Lemma busy ops d tr op d' c a extra m sop o : dinv ops d tr -> connected (ops ++ [op]) = connected ops ->
  smach_step (dp_sched d) sop = Some (m, o) -> quiet_op sop ->
  dp_asked d' = dp_asked d ++ extra -> dp_clients d' = dp_clients d -> dp_sched d' = m -> ftidy (dp_fleet d') ->
  nth_error (dp_asked d') c = Some a ->
  (extra = [] /\ lookup c (sm_calls (dp_sched d)) <> None \/ extra = [a] /\ c = length (dp_asked d) /\ (forall c', ~ pending d c' (as_run a) (as_job a)) /\ as_clients a = dp_clients d) ->
  (forall k i, (k, i) <> (as_run a, as_job a) -> wanting (dp_fleet d') k i = wanting (dp_fleet d) k i) ->
  (forall c', c' <> c -> lookup c' (sm_calls m) = lookup c' (sm_calls (dp_sched d))) ->
  (forall k, lookup c (sm_calls m) = Some k -> exists st l, wanting (dp_fleet d') (as_run a) (as_job a) = Some st /\ call_req k = request l st /\ Permutation l (map snd (as_clients a)) /\ in_offer k) ->
  (lookup c (sm_calls m) = None -> wanting (dp_fleet d') (as_run a) (as_job a) = None) ->
  (forall c' q, In (EvCalled c' q) o -> c' = c) ->
  dinv (ops ++ [op]) d' (tr ++ map PSched o).
Proof.
  intros I Hconn Es Hq Ha Hcl Hm Hf Hc Hk Hw Hold Hnew Hdone Hev. destruct I as [I1 I2 I3 I4 I5 I6 I7 I8].
  assert (Hclt : c < length (dp_asked d')) by (apply nth_error_Some; congruence).
  assert (Mine : made_for d' c (as_run a) (as_job a)) by (exists a; auto).
  assert (Ends : forall k i, made_for d' c k i -> k = as_run a /\ i = as_job a) by (intros k i (a' & E & <- & <-); rewrite Hc in E; injection E as <-; auto).
  assert (Lt : forall c', c' <> c -> lookup c' (sm_calls (dp_sched d)) <> None -> c' < length (dp_asked d)).
  { intros c' _ L. destruct (lookup c' (sm_calls (dp_sched d))) as [k|] eqn:E; [|contradiction]. destruct (I4 _ _ E) as (a' & _ & _ & H & _). apply nth_error_Some. congruence. }
  assert (Old : forall c' k i, c' <> c -> pending d' c' k i <-> pending d c' k i).
  { intros c' k i Hne. unfold pending. rewrite Hm, (Hold c' Hne). split; intros [L M]; (split; [exact L|]); apply (made_more d d' extra); auto. }
  assert (Prev : forall c', c' <> c -> ~ pending d c' (as_run a) (as_job a)).
  { intros c' Hne P. destruct Hk as [[-> L]|(-> & _ & N & _)]; [|exact (N c' P)]. apply Hne. eapply I5; [exact P|]. split; [exact L|]. rewrite app_nil_r in Ha. unfold made_for in *. rewrite <- Ha. exact Mine. }
  constructor; rewrite ?Hm.
  - exact Hf.
  - destruct I2 as (sops & R & Q). exists (sops ++ [sop]). split; [|apply Forall_app; split; [exact Q|constructor; [exact Hq|constructor]]].
    rewrite sched_app, sched_sched. eapply sched_run_step; eassumption.
  - congruence.
  - intros c' k L. destruct (Nat.eq_dec c' c) as [->|Hne].
    + destruct (Hnew k L) as (st & l & H). exists a, st, l. split; [exact Hc|exact H].
    + assert (Lo : lookup c' (sm_calls (dp_sched d)) = Some k) by (rewrite <- Hold by exact Hne; exact L). destruct (I4 c' k Lo) as (a' & st & l & H1 & H2 & H3).
      exists a', st, l. split; [rewrite Ha, nth_error_app1; [exact H1|apply nth_error_Some; congruence]|]. split; [|exact H3]. rewrite Hw; [exact H2|].
      intros [= E1 E2]. apply (Prev c' Hne). split; [congruence|]. exists a'. auto.
  - intros c1 c2 k i P1 P2. destruct (Nat.eq_dec c1 c) as [->|N1], (Nat.eq_dec c2 c) as [->|N2]; [reflexivity| | |].
    + exfalso. destruct (Ends k i (proj2 P1)) as [-> ->]. apply Old in P2; [|exact N2]. exact (Prev _ N2 P2).
    + exfalso. destruct (Ends k i (proj2 P2)) as [-> ->]. apply Old in P1; [|exact N1]. exact (Prev _ N1 P1).
    + apply Old in P1; [|exact N1]. apply Old in P2; [|exact N2]. eauto.
  - intros c' q H. apply in_app_iff in H as [H|H]; [rewrite Ha, app_length; assert (K := I6 _ _ H); lia|]. apply in_map_iff in H as (e & [= ->] & He). rewrite (Hev _ _ He). exact Hclt.
  - intros k i st W Np. assert (Hne : (k, i) <> (as_run a, as_job a)).
    { intros [= -> ->]. destruct (lookup c (sm_calls m)) as [x|] eqn:Ex; [|rewrite (Hdone eq_refl) in W; discriminate]. apply (Np c). split; [rewrite Hm; congruence|exact Mine]. }
    destruct (I7 k i st) as (rc & p1 & p2 & -> & H1 & H2).
    + rewrite <- Hw by exact Hne. exact W.
    + intros c' P. destruct (Nat.eq_dec c' c) as [->|N]; [|apply (Np c'), Old; assumption].
      assert (M : made_for d' c k i) by (apply (made_more d d' extra); [exact Ha| |exact (proj2 P)]; destruct (proj2 P) as (a' & E & _); apply nth_error_Some; congruence).
      destruct (Ends k i M) as [-> ->]. exact (Hne eq_refl).
    + exists rc, p1, (p2 ++ map PSched o). split; [rewrite <- app_assoc; reflexivity|]. split; [|exact H2]. eapply (nothing_more _ _ extra); [exact Ha| |exact H1|].
      * intros c' q H. eapply I6. apply in_or_app. right. right. exact H.
      * split; [intros rc' H; apply in_map_iff in H as (y & Hy & _); discriminate Hy|]. intros c' q H M. apply in_map_iff in H as (e & [= ->] & He). rewrite (Hev _ _ He) in M.
        destruct (Ends k i M) as [-> ->]. exact (Hne eq_refl).
  - intros a' Hin. rewrite Ha in Hin. apply in_app_iff in Hin as [Hin|Hin]; [rewrite Hcl; exact (I8 a' Hin)|]. destruct Hk as [[-> _]|(-> & _ & _ & Hs)]; [destruct Hin|].
    destruct Hin as [<-|[]]. rewrite Hs, Hcl, I3. destruct (connected_ok ops). auto.
Qed.
Lemma picked f k i clients r f' x : ftidy f -> fs f (FRunOp k (YStep i (DPick clients r))) = Some (f', x) ->
  x = [] /\ ftidy f' /\ (exists st, wanting f k i = Some st) /\ wanting f' k i = None /\ forall k' i', (k', i') <> (k, i) -> wanting f' k' i' = wanting f k' i'.
Proof.
  intros Ht E. destruct (fleet_cases _ _ _ _ _ _ Ht E) as [Ht' H].
  destruct (H k i) as [(_ & _ & C)|[(st & rc & H1 & _)|(c' & p' & st & Ho & H2 & H3 & ->)]]; [destruct (C _ _ eq_refl)| |].
  - exfalso. clear H Ht' Ht. unfold remote_fleet_step in E. cbn [fstep is_env] in E. rewrite wanting_want in H1. destruct (nth_error (fl_runs f) k) as [rr|]; [|discriminate].
    destruct (nth_error (fl_ctx f) (fr_ctx rr)) as [[cx ca]|]; [|discriminate]. cbn [sysstep settle sy_w sy_cur ws_tasks ws_sh] in E. unfold want in H1.
    destruct (nth_error (ws_tasks (sy_w (fr_sys rr))) i) as [t|]; [|discriminate]. destruct (nth_error (sy_cur (fr_sys rr)) i) as [y|]; [|discriminate].
    destruct (tk_phase t) as [| | | | | | | | | |t0 js rs sp rest| | | |]; try discriminate E. cbn [rs_step distant dstep ds_step ds_task] in E. destruct sp; try discriminate E. destruct y; [discriminate E|discriminate H1].
  - split; [reflexivity|]. split; [exact Ht'|]. split; [eauto|]. split; [exact H3|]. intros k' i' Hne.
    destruct (H k' i') as [(E1 & _)|[(st' & rc & _ & _ & C & _)|(c2 & p2 & st2 & C & _)]]; [exact E1|discriminate C|]. injection C as -> -> _ _. destruct (Hne eq_refl).
Qed.
Lemma answered_none c q : answered [EvCalled c q] = None.
Proof. reflexivity. Qed.
(** What the end of a call, or its going on, does. *)
Inductive went (d d' : dispatch) (asked : list asking) (a : asking) (m : smach) (o : list sev) (out : list pobs) : Prop :=
| went_on : answered o = None -> d' = Dispatch (dp_fleet d) (dp_clients d) m asked -> out = map PSched o -> went d d' asked a m o out
| went_back r f : answered o = Some r -> fs (dp_fleet d) (FRunOp (as_run a) (YStep (as_job a) (DPick (as_clients a) r))) = Some (f, []) -> d' = Dispatch f (dp_clients d) m asked -> out = map PSched o ->
    ftidy f -> (exists st, wanting (dp_fleet d) (as_run a) (as_job a) = Some st) -> wanting f (as_run a) (as_job a) = None ->
    (forall k i, (k, i) <> (as_run a, as_job a) -> wanting f k i = wanting (dp_fleet d) k i) -> went d d' asked a m o out.
Lemma then_went d asked a m o d' out : ftidy (dp_fleet d) -> then_pick cl glob d asked a m o = Some (d', out) -> went d d' asked a m o out.
Proof.
  intros Ht. unfold then_pick. destruct (answered o) as [r|] eqn:Ea.
  - destruct (remote_fleet_step cl glob (dp_fleet d) _) as [[f x]|] eqn:Ef; [|discriminate]. intros [= <- <-]. destruct (picked _ _ _ _ _ _ _ Ht Ef) as (-> & Hf & Hw & Hn & Ho).
    eapply went_back; [exact Ea|exact Ef|reflexivity|apply app_nil_r|assumption..].
  - intros [= <- <-]. eapply went_on; auto.
Qed.

Lemma dinv_step ops d tr op d' out : dinv ops d tr -> ps d op = Some (d', out) -> dinv (ops ++ [op]) d' (tr ++ out).
Proof.
  intros I E. destruct op as [a|fo|k i l|c]; cbn [pstep] in E.
  - injection E as <- <-. change (@nil pobs) with (map (fun y : nat * sysobs (iobs := obs) => PSeen (fst y) (snd y)) []).
    eapply calm; [exact I|exact (di_tidy _ _ _ I)|intros k i; left; split; [reflexivity|intros rc []]|]. rewrite connected_snoc, (di_clients _ _ _ I). reflexivity.
  - destruct (picks_runner fo) eqn:Ep; [discriminate|]. destruct (fs (dp_fleet d) fo) as [[f x]|] eqn:Ef; [|discriminate]. injection E as <- <-.
    destruct (fleet_cases _ _ _ _ _ _ (di_tidy _ _ _ I) Ef) as [Hf Hw]. eapply calm; [exact I|exact Hf| |rewrite connected_snoc, (di_clients _ _ _ I); reflexivity].
    intros k i. destruct (Hw k i) as [(H1 & H2 & _)|[H|(c & p & st & -> & _)]]; [left; auto|right; exact H|discriminate Ep].
  - destruct (wanting (dp_fleet d) k i) as [st|] eqn:W; [|discriminate]. destruct (asked_for d k i) eqn:Eaf; [discriminate|]. cbn [orb] in E.
    destruct (reordered l (map snd (dp_clients d))) eqn:Er; [|discriminate]. cbn [negb] in E. apply reordered_spec in Er.
    set (a := Asking k i (dp_clients d)) in *. destruct (smach_step (dp_sched d) (SBegin (length (dp_asked d)) (request l st))) as [[m o]|] eqn:Es; [|discriminate].
    assert (Np : forall c', ~ pending d c' k i) by (intros c' P; assert (C : asked_for d k i = true) by (apply asked_for_spec; eauto); congruence).
    destruct (first_section _ _ _ _ _ Es) as (Hfree & Hst & Hcase).
    assert (Hev : forall c' q, In (EvCalled c' q) o -> c' = length (dp_asked d)).
    { intros c' q H. destruct Hcase as [(k' & _ & _ & _ & ->)|[_ ->]]; cbn [In] in H; destruct H as [[= -> _]|H]; auto; [destruct H|destruct H as [C|[]]; discriminate C]. }
    assert (Hlast : nth_error (dp_asked d ++ [a]) (length (dp_asked d)) = Some a) by (rewrite nth_error_app2, Nat.sub_diag by lia; reflexivity).
    assert (Hout : forall c', c' <> length (dp_asked d) -> lookup c' (sm_calls m) = lookup c' (sm_calls (dp_sched d))).
    { intros c' Hne. destruct Hcase as [(k' & -> & _)|[-> _]]; [apply lookup_insert_ne, Hne|apply lookup_remove_ne, Hne]. }
    destruct (then_went _ _ _ _ _ _ _ (di_tidy _ _ _ I) E) as [Ho -> ->|r f Ho Ef -> -> Hf Hwant Hnone Hother];
      eapply busy with (c := length (dp_asked d)) (a := a) (extra := [a]); try exact I; try exact Es; try exact Logic.I; try reflexivity; try exact Hlast; try exact Hev; try exact Hout;
      cbn [dp_fleet dp_sched dp_asked dp_clients];
      try (rewrite connected_snoc; reflexivity); try (right; repeat split; auto; fail).
    + exact (di_tidy _ _ _ I).
    + intros k' L. destruct Hcase as [(k2 & E2 & Hq & Hi & _)|[E2 _]]; rewrite E2 in L; [|rewrite lookup_remove_eq in L; discriminate]. rewrite lookup_insert_eq in L. injection L as <-.
      exists st, l. auto.
    + intros L. destruct Hcase as [(k2 & E2 & _)|[_ Eo]]; [rewrite E2, lookup_insert_eq in L; discriminate|rewrite Eo in Ho; discriminate Ho].
    + exact Hf.
    + exact Hother.
    + intros k' L. destruct Hcase as [(k2 & _ & _ & _ & ->)|[E2 _]]; [discriminate Ho|rewrite E2, lookup_remove_eq in L; discriminate].
    + intros _. exact Hnone.
  - destruct (nth_error (dp_asked d) c) as [a|] eqn:Ea; [|discriminate]. destruct (smach_step (dp_sched d) (SNext c)) as [[m o]|] eqn:Es; [|discriminate].
    destruct (next_section _ _ _ _ Es) as (k & L & Hcase).
    assert (Hev : forall c' q, In (EvCalled c' q) o -> c' = c).
    { intros c' q H. destruct Hcase as [(q0 & r & _ & _ & _ & _ & ->)|[(q0 & _ & _ & _ & ->)|(q0 & r & _ & _ & _ & ->)]]; cbn [In] in H; intuition discriminate. }
    assert (Hout : forall c', c' <> c -> lookup c' (sm_calls m) = lookup c' (sm_calls (dp_sched d))).
    { intros c' Hne. destruct Hcase as [(q0 & r & _ & _ & _ & -> & _)|[(q0 & _ & _ & -> & _)|(q0 & r & _ & _ & -> & _)]]; [apply lookup_insert_ne, Hne|apply lookup_remove_ne, Hne..]. }
    destruct (di_pending _ _ _ I c k L) as (a' & st & l & Ea' & W & Hq & P & Hi). rewrite Ea in Ea'. injection Ea' as <-.
    destruct (then_went _ _ _ _ _ _ _ (di_tidy _ _ _ I) E) as [Ho -> ->|r f Ho Ef -> -> Hf Hwant Hnone Hother];
      eapply busy with (c := c) (a := a) (extra := []); try exact I; try exact Es; try exact Logic.I; try reflexivity; try exact Ea; try exact Hev; try exact Hout;
      cbn [dp_fleet dp_sched dp_asked dp_clients];
      try (rewrite connected_snoc; reflexivity); try (symmetry; apply app_nil_r); try (left; split; [reflexivity|congruence]).
    + exact (di_tidy _ _ _ I).
    + intros k' L'. destruct Hcase as [(q0 & r & -> & Hr & _ & E2 & _)|[(q0 & _ & _ & _ & ->)|(q0 & r & _ & _ & _ & ->)]]; [|discriminate Ho..].
      rewrite E2, lookup_insert_eq in L'. injection L' as <-. exists st, l. cbn [call_req in_offer] in *. auto.
    + intros L'. destruct Hcase as [(q0 & r & _ & _ & _ & E2 & _)|[(q0 & _ & _ & _ & ->)|(q0 & r & _ & _ & _ & ->)]]; [|discriminate Ho..]. rewrite E2, lookup_insert_eq in L'. discriminate.
    + exact Hf.
    + exact Hother.
    + intros k' L'. destruct Hcase as [(q0 & r0 & _ & _ & _ & _ & ->)|[(q0 & _ & _ & E2 & _)|(q0 & r0 & _ & _ & E2 & _)]]; [discriminate Ho|rewrite E2, lookup_remove_eq in L'; discriminate..].
    + intros _. exact Hnone.
Qed.
Lemma dinv_run ops d tr : run ops d tr -> dinv ops d tr.
Proof.
  induction 1 as [|ops d tr op d' o R IH E]; [|eapply dinv_step; eassumption]. constructor; cbn.
  - intros [|k] r C; discriminate C.
  - exists []. split; [constructor|constructor].
  - reflexivity.
  - intros c k C. discriminate C.
  - intros c c' k i [C _]. destruct (C eq_refl).
  - intros c q [].
  - intros k i st C. destruct k; discriminate C.
  - intros a [].
Qed.
End P.

Section Q.
Variables (cl : task -> task) (glob : glob_oracle) (now : time).
Notation ps := (pstep cl glob).
Notation run := (dispatch_run cl glob now).
Notation fs := (remote_fleet_step cl glob).

Lemma asked_grows d op d' o : ps d op = Some (d', o) -> exists extra, dp_asked d' = dp_asked d ++ extra.
Proof.
  intros E. assert (T : forall asked a m o1, then_pick cl glob d asked a m o1 = Some (d', o) -> dp_asked d' = asked).
  { unfold then_pick. intros asked a m o1. destruct (answered o1); [destruct (remote_fleet_step _ _ _ _) as [[f x]|]; [|discriminate]|]; intros [= <- <-]; reflexivity. }
  destruct op as [a|fo|k i l|c]; cbn [pstep] in E.
  - injection E as <- <-. exists []. symmetry. apply app_nil_r.
  - destruct (picks_runner fo); [discriminate|]. destruct (fs (dp_fleet d) fo) as [[f x]|]; [|discriminate]. injection E as <- <-. exists []. symmetry. apply app_nil_r.
  - destruct (wanting _ _ _); [|discriminate]. destruct (_ || _); [discriminate|]. destruct (smach_step _ _) as [[m o1]|]; [|discriminate]. apply T in E. eauto.
  - destruct (nth_error _ _); [|discriminate]. destruct (smach_step _ _) as [[m o1]|]; [|discriminate]. apply T in E. exists []. rewrite app_nil_r. exact E.
Qed.
(** The moment at which an event happened. *)
Lemma split_run ops d tr : run ops d tr -> forall pre e post, tr = pre ++ e :: post ->
  exists ops1 d1 tr1 op d2 o1 o2 ops2 extra, run ops1 d1 tr1 /\ ps d1 op = Some (d2, o1 ++ e :: o2) /\ pre = tr1 ++ o1 /\ ops = ops1 ++ op :: ops2 /\ dp_asked d = dp_asked d2 ++ extra.
Proof.
  induction 1 as [|ops d tr op d' o R IH E]; intros pre e post Eq; [destruct pre; discriminate|].
  apply app_eq_app in Eq as (l & [[-> Eq]|[-> Eq]]).
  - destruct l as [|x l].
    + exists ops, d, pre, op, d', [], post, [], []. rewrite app_nil_r in *. cbn in Eq. subst o. repeat split; auto. rewrite app_nil_r. reflexivity.
    + injection Eq as <- ->. destruct (IH pre e l eq_refl) as (ops1 & d1 & tr1 & op1 & d2 & o1 & o2 & ops2 & extra & H1 & H2 & H3 & -> & H5).
      destruct (asked_grows _ _ _ _ E) as [ex Ex]. exists ops1, d1, tr1, op1, d2, o1, o2, (ops2 ++ [op]), (extra ++ ex). rewrite <- app_assoc. rewrite Ex, H5, <- app_assoc. auto.
  - subst o. exists ops, d, tr, op, d', l, post, [], []. rewrite app_nil_r. auto.
Qed.

(** *** The parts *)
Lemma sched_part ops d tr : run ops d tr -> exists sops, sched_run sops (dp_sched d) (sched_events tr) /\ only_asks sops.
Proof. intros R. destruct (di_sched _ _ _ (dinv_run _ _ _ _ _ _ R)) as (sops & H1 & H2). exists sops. split; [exact H1|]. rewrite Forall_forall in H2. intros op Hop. apply H2 in Hop. destruct op; exact Hop. Qed.
Lemma no_done ops d tr : run ops d tr -> no_step_done (sched_events tr) /\ forall j, ~ In (EvJobDone j) (sched_events tr).
Proof.
  intros R. destruct (sched_part _ _ _ R) as (sops & H1 & H2). split; [intros id H; apply (done_reported _ _ _ H1) in H; exact (H2 _ H)|].
  revert H2. induction H1 as [|sops m tr' sop m' o R' IH E]; intros H2 j H; [destruct H|]. apply in_app_iff in H as [H|H]; [eapply IH; [intros x Hx; apply H2, in_or_app; auto|exact H]|].
  assert (Hq : match sop with SBegin _ _ | SNext _ => True | _ => False end) by (apply H2, in_or_app; right; left; reflexivity). destruct sop as [c q|c|id|id]; try contradiction.
  - destruct (first_section _ _ _ _ _ E) as (_ & _ & [(k' & _ & _ & _ & ->)|[_ ->]]); cbn [In] in H; intuition discriminate.
  - destruct (next_section _ _ _ _ E) as (k & _ & [(q0 & r & _ & _ & _ & _ & ->)|[(q0 & _ & _ & _ & ->)|(q0 & r & _ & _ & _ & ->)]]); cbn [In] in H; intuition discriminate.
Qed.
Lemma given_app d a b : given_runners d (a ++ b) = given_runners d a ++ given_runners d b.
Proof. unfold given_runners. rewrite sched_app, flat_map_app. reflexivity. Qed.
Lemma given_more d d' extra tr : dp_asked d' = dp_asked d ++ extra -> (forall c q r, In (EvReturned c q r) (sched_events tr) -> c < length (dp_asked d)) -> given_runners d' tr = given_runners d tr.
Proof.
  intros E H. unfold given_runners. induction (sched_events tr) as [|e l IH]; [reflexivity|]. cbn [flat_map]. rewrite IH by (intros c q r Hc; eapply H; right; exact Hc). f_equal.
  destruct e; try reflexivity. rewrite E, nth_error_app1; [reflexivity|]. eapply H. left. reflexivity.
Qed.
Lemma returned_asked ops d tr : run ops d tr -> forall c q r, In (EvReturned c q r) (sched_events tr) -> exists a, nth_error (dp_asked d) c = Some a.
Proof.
  intros R c q r H. destruct (sched_part _ _ _ R) as (sops & H1 & _). apply in_split in H as (pre & post & E).
  destruct (proj2 (pending_run _ _ _ H1) _ _ _ _ _ E) as (before & mid & mid' & -> & _).
  assert (Hc : In (EvCalled c q) (sched_events tr)) by (rewrite E; apply in_or_app; left; apply in_or_app; right; left; reflexivity).
  apply in_sched in Hc. apply (di_called _ _ _ (dinv_run _ _ _ _ _ _ R)) in Hc. apply nth_pred, Hc.
Qed.
Lemma fleet_part ops d tr : run ops d tr -> exists fops, fleet_run (fun cx => distant cx cl) glob now fops (dp_fleet d) (run_seen tr) /\
  filter (fun op => negb (picks_runner op)) fops = fleet_ops ops /\ taken_runners fops = given_runners d tr.
Proof.
  induction 1 as [|ops d tr op d' o R IH E]; [exists []; repeat split; constructor|]. destruct IH as (fops & F & Ff & Ft).
  assert (R' : run (ops ++ [op]) d' (tr ++ o)) by (eapply dispatch_step; eassumption).
  assert (I := dinv_run _ _ _ _ _ _ R). destruct (asked_grows _ _ _ _ E) as [extra Ex].
  assert (Old : given_runners d' tr = given_runners d tr).
  { eapply given_more; [exact Ex|]. intros c q r H. destruct (returned_asked _ _ _ R _ _ _ H) as [a Ha]. apply nth_error_Some. congruence. }
  rewrite seen_app, given_app, Old. unfold fleet_ops. rewrite flat_map_app. fold (fleet_ops ops).
  assert (Went : forall asked a m o1, went cl glob d d' asked a m o1 o -> (forall r, answered o1 = Some r -> given_runners d' o = [(as_run a, as_job a, as_clients a, r)]) -> (answered o1 = None -> given_runners d' o = []) -> flat_map (fun op => match op with PFleet o => [o] | _ => [] end) [op] = [] ->
     exists fops', fleet_run (fun cx => distant cx cl) glob now fops' (dp_fleet d') (run_seen tr ++ run_seen o) /\ filter (fun op => negb (picks_runner op)) fops' = fleet_ops ops ++ flat_map (fun op => match op with PFleet o => [o] | _ => [] end) [op] /\ taken_runners fops' = given_runners d tr ++ given_runners d' o).
  { intros asked a m o1 W Hs Hn Hop. rewrite Hop. destruct W as [Ho -> ->|r f Ho Ef -> -> Hf Hwant Hnone Hother].
    - exists fops. rewrite seen_sched, !app_nil_r, (Hn Ho), app_nil_r. auto.
    - exists (fops ++ [FRunOp (as_run a) (YStep (as_job a) (DPick (as_clients a) r))]). rewrite seen_sched. split; [eapply fleet_step; [exact F|exact Ef]|].
      rewrite filter_app. cbn [filter picks_runner negb]. split; [rewrite !app_nil_r; exact Ff|]. unfold taken_runners. rewrite flat_map_app. fold (taken_runners fops). rewrite Ft, (Hs r Ho). reflexivity. }
  destruct op as [a|fo|k i l|c]; cbn [pstep] in E.
  - injection E as <- <-. exists fops. cbn [flat_map]. rewrite !app_nil_r. auto.
  - destruct (picks_runner fo) eqn:Ep; [discriminate|]. destruct (fs (dp_fleet d) fo) as [[f x]|] eqn:Ef; [|discriminate]. injection E as <- <-. cbn [dp_fleet flat_map].
    exists (fops ++ [fo]). rewrite seen_seen. split; [eapply fleet_step; [exact F|exact Ef]|]. rewrite filter_app. cbn [filter]. rewrite Ep. cbn [negb app]. split; [rewrite Ff; reflexivity|].
    unfold taken_runners, given_runners at 2. rewrite flat_map_app, sched_seen. fold (taken_runners fops). rewrite Ft. f_equal. cbn [flat_map]. destruct fo as [ | |k [ |i [] | ]| | | ]; try reflexivity; discriminate Ep.
  - destruct (wanting (dp_fleet d) k i) as [st|]; [|discriminate]. destruct (_ || _); [discriminate|].
    destruct (smach_step (dp_sched d) (SBegin (length (dp_asked d)) (request l st))) as [[m o1]|] eqn:Es; [|discriminate].
    destruct (first_section _ _ _ _ _ Es) as (_ & _ & Hcase). assert (W := then_went _ _ _ _ _ _ _ _ _ (di_tidy _ _ _ I) E).
    assert (Ho : o = map PSched o1 /\ dp_asked d' = dp_asked d ++ [Asking k i (dp_clients d)]) by (destruct W as [? -> ->|? ? ? ? -> -> ? ? ? ?]; auto). destruct Ho as [Ho Hasked].
    eapply Went; [exact W| | |reflexivity]; unfold given_runners; rewrite Ho, sched_sched.
    + intros r Hr. destruct Hcase as [(k' & _ & _ & _ & ->)|[_ ->]]; [discriminate Hr|]. cbn [flat_map]. rewrite Hasked, nth_error_app2, Nat.sub_diag by lia. injection Hr as <-. reflexivity.
    + intros Hr. destruct Hcase as [(k' & _ & _ & _ & ->)|[_ ->]]; [reflexivity|discriminate Hr].
  - destruct (nth_error (dp_asked d) c) as [a|] eqn:Ea; [|discriminate]. destruct (smach_step (dp_sched d) (SNext c)) as [[m o1]|] eqn:Es; [|discriminate].
    destruct (next_section _ _ _ _ Es) as (k & L & Hcase). assert (W := then_went _ _ _ _ _ _ _ _ _ (di_tidy _ _ _ I) E).
    assert (Ho : o = map PSched o1 /\ dp_asked d' = dp_asked d) by (destruct W as [? -> ->|? ? ? ? -> -> ? ? ? ?]; auto). destruct Ho as [Ho Hasked].
    eapply Went; [exact W| | |reflexivity]; unfold given_runners; rewrite Ho, sched_sched.
    + intros r Hr. destruct Hcase as [(q0 & r0 & _ & _ & _ & _ & ->)|[(q0 & _ & _ & _ & ->)|(q0 & r0 & _ & _ & _ & ->)]]; [discriminate Hr| |]; cbn [flat_map app]; rewrite Hasked, Ea; injection Hr as <-; reflexivity.
    + intros Hr. destruct Hcase as [(q0 & r0 & _ & _ & _ & _ & ->)|[(q0 & _ & _ & _ & ->)|(q0 & r0 & _ & _ & _ & ->)]]; [reflexivity|discriminate Hr..].
Qed.
End Q.
