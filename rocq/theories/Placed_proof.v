From Coq Require Import Sorting.Permutation.
From Verif Require Import Base Types Signals_model Signals_proof Stream_model Cond_model Plugins_model Exec_model Exec_spec Workflow_model Workflow_spec Workflow_proof Runner_model
  Sched_model Sched_spec Sched_proof Remote_model Distant_model System_model System_spec System_proof System_inst Finish_spec Finish_proof Pace_spec Pace_proof Pace_props System_props
  Fleet_model Fleet_spec Fleet_proof Fleet_main Live_spec Live_proof Dispatch_model Dispatch_spec Dispatch_proof Dispatch_main Placed_spec.

(** *** Sums over association lists *)
Section W.
Context {K V : Type} `{EqDec K}.
Variable f : K -> V -> nat.
Fixpoint weight (m : map_ K V) : nat := match m with [] => 0 | (k, v) :: m' => f k v + weight m' end.
Lemma weight_insert_new k v m : lookup k m = None -> weight (insert k v m) = weight m + f k v.
Proof.
  induction m as [|[k' v'] m IH]; cbn [lookup insert weight]; [lia|]. destruct (eq_dec k k') as [->|Hn]; [discriminate|]. intros L. cbn [weight]. rewrite (IH L). lia.
Qed.
Lemma weight_insert_old k v v0 m : lookup k m = Some v0 -> weight (insert k v m) + f k v0 = weight m + f k v.
Proof.
  induction m as [|[k' v'] m IH]; cbn [lookup insert weight]; [discriminate|]. destruct (eq_dec k k') as [->|Hn]; cbn [weight]; [intros [= ->]; lia|]. intros L. specialize (IH L). lia.
Qed.
Lemma weight_remove k v0 m : NoDup (keys m) -> lookup k m = Some v0 -> weight (remove k m) + f k v0 = weight m.
Proof.
  induction m as [|[k' v'] m IH]; cbn [lookup remove weight keys map fst]; [discriminate|]. intros Hd. inversion Hd as [|? ? Hni Hd']. subst. destruct (eq_dec k k') as [->|Hn]; cbn [weight].
  - intros [= ->]. rewrite remove_not_in by exact Hni. lia.
  - intros L. specialize (IH Hd' L). lia.
Qed.
Lemma weight_ext g m : (forall k v, In (k, v) m -> f k v = g k v) -> weight m = (fix w (m : map_ K V) : nat := match m with [] => 0 | (k, v) :: m' => g k v + w m' end) m.
Proof. induction m as [|[k v] m IH]; intros E; [reflexivity|]. cbn [weight]. rewrite (E k v) by (left; reflexivity). f_equal. apply IH. intros k' v' Hi. apply E. right. exact Hi. Qed.
End W.
Lemma weight_same {K V} `{EqDec K} (f g : K -> V -> nat) m : (forall k v, In (k, v) m -> f k v = g k v) -> weight f m = weight g m.
Proof. intros E. exact (weight_ext f g m E). Qed.

(** *** What is a pick *)
Definition is_pick (op : sysop (iop := dop)) : bool := match op with YStep _ (DPick _ _) | YPast _ (DPick _ _) => true | _ => false end.
Lemma pick_moves s op s' : is_pick op = true -> kind_of distant_kind s op s' = Move.
Proof.
  destruct op as [o|i o|p o]; try discriminate; destruct o; try discriminate; intros _; cbn [kind_of].
  - destruct (nth_error (sy_cur s) i); [|reflexivity]. destruct (nth_error (ws_tasks (sy_w s')) i) as [t|]; [|reflexivity]. destruct (nth_error (sy_cur s') i); [|reflexivity]. destruct (tk_phase t); reflexivity.
  - destruct (nth_error (sy_past s) p) as [[a [[b c] d]]|]; [|reflexivity]. destruct (nth_error (sy_past s') p) as [[a' [[b' c'] d']]|]; reflexivity.
Qed.

Section P.
Variables (cl : task -> task) (glob : glob_oracle).
Notation D cx := (distant cx cl).
Notation ps := (pstep cl glob).

(** A run has not more job tasks, nor more answers of the scheduler, than it has done work. *)
Lemma tasks_step cx wf s op s' o : sysstep (D cx) glob cx wf s op = Some (s', o) ->
  length (ws_tasks (sy_w s')) <= length (ws_tasks (sy_w s)) + (if is_move (kind_of distant_kind s op s') then 1 else 0).
Proof.
  intros E. destruct op as [fo|i fo|p fo]; cbn [sysstep] in E.
  - destruct (is_step_op fo) eqn:Es; [discriminate|]. destruct (wstep glob cx wf (sy_w s) fo) as [[w' tr]|] eqn:Ew; [|discriminate].
    assert (L : length (ws_tasks w') <= length (ws_tasks (sy_w s)) + match fo with WEnv _ => 0 | _ => 1 end).
    { destruct fo as [|g|i jo|i|e]; cbn [wstep] in Ew.
      - apply main_tasks in Ew as [[-> _]|(kj & -> & _)]; [|rewrite app_length; cbn [length]]; lia.
      - repeat (match type of Ew with context [match ?x with _ => _ end] => destruct x end; try discriminate Ew); injection Ew as <- <-; cbn [ws_tasks]; lia.
      - destruct (nth_error _ _) as [t|]; [|discriminate]. destruct (job_step _ _ _ _ _ _ _) as [[[? ?] ?]|]; [|discriminate]. injection Ew as <- <-. cbn [ws_tasks]. rewrite list_set_length. lia.
      - destruct (nth_error _ _) as [[? ? p ?]|]; [|discriminate]. destruct p; try discriminate. repeat (match type of Ew with context [match ?x with _ => _ end] => destruct x end; try discriminate Ew); injection Ew as <- <-; unfold set_task; cbn [ws_tasks]; rewrite ?list_set_length; lia.
      - injection Ew as <- <-. cbn [ws_tasks]. lia. }
    destruct (match step_over (sy_w s) fo with Some _ => _ | None => _ end) as [cur past]. injection E as <- <-. cbn [sy_w kind_of]. destruct fo; cbn [is_move]; exact L.
  - destruct (nth_error (ws_tasks (sy_w s)) i) as [t|]; [|discriminate]. destruct (nth_error (sy_cur s) i); [|discriminate]. destruct (tk_phase t); try discriminate.
    destruct (rs_step _ _ _ _ _ _) as [[[[? ?] ?] ?]|]; [|discriminate]. injection E as <- <-. cbn [sy_w ws_tasks]. rewrite list_set_length. lia.
  - destruct (nth_error (sy_past s) p) as [[? [[? ?] ?]]|]; [|discriminate]. destruct (rs_step _ _ _ _ _ _) as [[[[? ?] ?] ?]|]; [|discriminate]. injection E as <- <-. cbn [sy_w]. lia.
Qed.
Lemma work_done cx wf sh0 ops s tr : sysrun (D cx) glob cx wf sh0 ops s tr ->
  length (ws_tasks (sy_w s)) <= moves (D cx) glob cx wf distant_kind (start sh0) ops /\ length (filter is_pick ops) <= moves (D cx) glob cx wf distant_kind (start sh0) ops.
Proof.
  induction 1 as [|ops s tr op s' o R [I1 I2] E]; [split; cbn; lia|]. destruct (moves_one (fun cx => D cx) glob distant_kind cx wf _ _ _ _ _ _ _ R E) as [-> _].
  assert (L := tasks_step _ _ _ _ _ _ E). split; [lia|]. rewrite filter_app, app_length. cbn [filter]. destruct (is_pick op) eqn:Ep; [rewrite (pick_moves s op s' Ep); cbn [is_move length]|cbn [length]]; lia.
Qed.

(** *** What an action is for the runs *)
Definition taken (d : dispatch) (op : pop) : option (fop (iop := dop)) :=
  match op with
  | PConnect _ => None
  | PFleet o => Some o
  | PAsk k i l =>
      match wanting (dp_fleet d) k i with
      | Some st => match smach_step (dp_sched d) (SBegin (length (dp_asked d)) (request l st)) with
                   | Some (_, o) => option_map (fun r => FRunOp k (YStep i (DPick (dp_clients d) r))) (answered o)
                   | None => None
                   end
      | None => None
      end
  | PLock c =>
      match nth_error (dp_asked d) c, smach_step (dp_sched d) (SNext c) with
      | Some a, Some (_, o) => option_map (fun r => FRunOp (as_run a) (YStep (as_job a) (DPick (as_clients a) r))) (answered o)
      | _, _ => None
      end
  end.
Lemma then_taken d asked a m o d' out : then_pick cl glob d asked a m o = Some (d', out) ->
  dp_sched d' = m /\ dp_asked d' = asked /\
  match option_map (fun r => FRunOp (as_run a) (YStep (as_job a) (DPick (as_clients a) r))) (answered o) with
  | Some f => exists x, remote_fleet_step cl glob (dp_fleet d) f = Some (dp_fleet d', x)
  | None => dp_fleet d' = dp_fleet d
  end.
Proof.
  unfold then_pick. destruct (answered o) as [r|]; cbn [option_map].
  - destruct (remote_fleet_step _ _ _ _) as [[f x]|]; [|discriminate]. intros [= <- <-]. cbn. eauto.
  - intros [= <- <-]. cbn. auto.
Qed.
Lemma taken_step d op d' o : ps d op = Some (d', o) ->
  match taken d op with Some f => exists x, remote_fleet_step cl glob (dp_fleet d) f = Some (dp_fleet d', x) | None => dp_fleet d' = dp_fleet d end.
Proof.
  destruct op as [a|fo|k i l|c]; cbn [pstep taken].
  - intros [= <- <-]. reflexivity.
  - destruct (picks_runner fo); [discriminate|]. destruct (remote_fleet_step _ _ _ _) as [[f x]|]; [|discriminate]. intros [= <- <-]. cbn. eauto.
  - destruct (wanting _ _ _) as [st|]; [|discriminate]. destruct (_ || _); [discriminate|]. destruct (smach_step _ _) as [[m o1]|]; [|discriminate]. intros E. apply then_taken in E as (_ & _ & E). exact E.
  - destruct (nth_error (dp_asked d) c) as [a|]; [|discriminate]. destruct (smach_step _ _) as [[m o1]|]; [|discriminate]. intros E. apply then_taken in E as (_ & _ & E). exact E.
Qed.

(** *** How often a run asks and goes on with its calls *)
Definition mine_call (d : dispatch) (k c : nat) : bool := match nth_error (dp_asked d) c with Some a => Nat.eqb (as_run a) k | None => false end.
Definition serving (d : dispatch) (k : nat) (op : pop) : bool := match op with PAsk k' _ _ => Nat.eqb k' k | PLock c => mine_call d k c | _ => false end.
Definition under_way (d : dispatch) (k : nat) : nat := weight (fun c x => if mine_call d k c then 3 - rank x else 0) (sm_calls (dp_sched d)).
Definition pick_of (k : nat) (f : option (fop (iop := dop))) : nat := match f with Some f => length (filter is_pick (run_ops k [f])) | None => 0 end.
Lemma serving_spec d k op : ps d op <> None -> serving d k op = true <-> schedules d k op.
Proof.
  intros E. destruct op as [a|fo|k' i l|c]; cbn [serving schedules]; unfold schedules.
  - split; [discriminate|]. intros [(i & l & C)|(c & i & C & _)]; discriminate C.
  - split; [discriminate|]. intros [(i & l & C)|(c & i & C & _)]; discriminate C.
  - rewrite Nat.eqb_eq. split; [intros ->; eauto|]. intros [(i' & l' & [= <- <- <-])|(c & i' & C & _)]; [reflexivity|discriminate C].
  - unfold mine_call. split.
    + destruct (nth_error (dp_asked d) c) as [a|] eqn:Ea; [|discriminate]. intros H. apply Nat.eqb_eq in H. right. exists c, (as_job a). split; [reflexivity|]. exists a. auto.
    + intros [(i & l & C)|(c' & i & [= <-] & a & Ea & <- & _)]; [discriminate C|]. rewrite Ea. apply Nat.eqb_refl.
Qed.
Lemma calls_nodup d op d' o : ps d op = Some (d', o) -> NoDup (keys (sm_calls (dp_sched d))) -> NoDup (keys (sm_calls (dp_sched d'))).
Proof.
  intros E N. destruct op as [a|fo|k i l|c]; cbn [pstep] in E.
  - injection E as <- <-. exact N.
  - destruct (picks_runner fo); [discriminate|]. destruct (remote_fleet_step _ _ _ _) as [[f x]|]; [|discriminate]. injection E as <- <-. exact N.
  - destruct (wanting _ _ _) as [st|]; [|discriminate]. destruct (_ || _); [discriminate|]. destruct (smach_step _ _) as [[m o1]|] eqn:Es; [|discriminate]. apply then_taken in E as (-> & _ & _).
    destruct (first_section _ _ _ _ _ Es) as (_ & _ & [(x & -> & _)|[-> _]]); [apply NoDup_keys_insert, N|apply NoDup_keys_remove, N].
  - destruct (nth_error (dp_asked d) c) as [a|]; [|discriminate]. destruct (smach_step _ _) as [[m o1]|] eqn:Es; [|discriminate]. apply then_taken in E as (-> & _ & _).
    destruct (next_section _ _ _ _ Es) as (x & _ & [(q & r & _ & _ & _ & -> & _)|[(q & _ & _ & -> & _)|(q & r & _ & _ & -> & _)]]); [apply NoDup_keys_insert, N|apply NoDup_keys_remove, N..].
Qed.
Lemma run_nodup now ops d tr : dispatch_run cl glob now ops d tr -> NoDup (keys (sm_calls (dp_sched d))).
Proof. induction 1 as [|ops d tr op d' o R IH E]; [constructor|]. eapply calls_nodup; eassumption. Qed.
Lemma call_known now ops d tr c x : dispatch_run cl glob now ops d tr -> lookup c (sm_calls (dp_sched d)) = Some x -> c < length (dp_asked d).
Proof. intros R L. destruct (di_pending _ _ _ (dinv_run _ _ _ _ _ _ R) c x L) as (a & _ & _ & Ha & _). apply nth_error_Some. congruence. Qed.
Lemma served_step now ops d tr k op d' o : dispatch_run cl glob now ops d tr -> ps d op = Some (d', o) ->
  (if serving d k op then 1 else 0) + under_way d k <= under_way d' k + 3 * pick_of k (taken d op).
Proof.
  intros R E. assert (N := run_nodup _ _ _ _ R). destruct op as [a|fo|k' i l|c]; cbn [serving].
  - cbn [pstep] in E. injection E as <- <-. unfold under_way, mine_call. cbn [dp_asked dp_sched]. lia.
  - cbn [pstep] in E. destruct (picks_runner fo); [discriminate|]. destruct (remote_fleet_step _ _ _ _) as [[f x]|]; [|discriminate]. injection E as <- <-. unfold under_way, mine_call. cbn [dp_asked dp_sched]. lia.
  - cbn [pstep] in E. cbn [taken]. destruct (wanting _ _ _) as [st|]; [|discriminate]. destruct (_ || _); [discriminate|]. destruct (smach_step _ _) as [[m o1]|] eqn:Es; [|discriminate].
    apply then_taken in E as (Em & Ea & _). destruct (first_section _ _ _ _ _ Es) as (L & _ & Hc).
    assert (Old : weight (fun c x => if mine_call d' k c then 3 - rank x else 0) (sm_calls (dp_sched d)) = under_way d k).
    { apply weight_same. intros c x Hin. unfold mine_call. rewrite Ea, nth_error_app1; [reflexivity|]. eapply call_known; [exact R|apply In_lookup; [exact N|exact Hin]]. }
    assert (New : mine_call d' k (length (dp_asked d)) = Nat.eqb k' k) by (unfold mine_call; rewrite Ea, nth_error_app2, Nat.sub_diag by lia; reflexivity).
    unfold under_way at 2. rewrite Em. destruct Hc as [(x & -> & _ & _ & ->)|[-> ->]].
    + rewrite weight_insert_new by exact L. rewrite Old, New. destruct (Nat.eqb k' k); destruct x; cbn [rank]; lia.
    + rewrite remove_not_in by (apply lookup_None, L). rewrite Old. cbn [answered fold_left option_map pick_of run_ops flat_map]. destruct (Nat.eqb k' k); cbn [app filter is_pick length]; lia.
  - cbn [pstep] in E. cbn [taken]. unfold mine_call at 1. destruct (nth_error (dp_asked d) c) as [a|] eqn:Ec; [|discriminate]. destruct (smach_step _ _) as [[m o1]|] eqn:Es; [|discriminate].
    apply then_taken in E as (Em & Ea & _). destruct (next_section _ _ _ _ Es) as (x & L & Hc). unfold under_way. rewrite Em.
    assert (Same : forall c x, (if mine_call d' k c then 3 - rank x else 0) = (if mine_call d k c then 3 - rank x else 0)) by (intros; unfold mine_call; rewrite Ea; reflexivity).
    rewrite (weight_same _ _ (sm_calls m) (fun c x _ => Same c x)). assert (My : mine_call d k c = Nat.eqb (as_run a) k) by (unfold mine_call; rewrite Ec; reflexivity).
    set (f := fun c x => if mine_call d k c then 3 - rank x else 0) in *.
    destruct Hc as [(q & r & -> & _ & _ & -> & ->)|[(q & -> & _ & -> & ->)|(q & r & -> & _ & -> & ->)]].
    + assert (W := weight_insert_old f c (CCommit q r) _ _ L). unfold f at 2 4 in W. rewrite My in W. cbn [rank] in W. destruct (Nat.eqb (as_run a) k); lia.
    + assert (W := weight_remove f c _ _ N L). unfold f at 2 in W. rewrite My in W. cbn [answered fold_left option_map pick_of run_ops flat_map]. destruct (Nat.eqb (as_run a) k); cbn [app filter is_pick length rank] in *; lia.
    + assert (W := weight_remove f c _ _ N L). unfold f at 2 in W. rewrite My in W. cbn [answered fold_left option_map pick_of run_ops flat_map]. destruct (Nat.eqb (as_run a) k); cbn [app filter is_pick length rank] in *; lia.
Qed.
(** A job has one call under way. *)
Lemma under_way_bound now ops d tr k r : dispatch_run cl glob now ops d tr -> nth_error (fl_runs (dp_fleet d)) k = Some r -> under_way d k <= 2 * length (ws_tasks (sy_w (fr_sys r))).
Proof.
  intros R Hr. assert (I := dinv_run _ _ _ _ _ _ R). assert (N := run_nodup _ _ _ _ R). set (L := filter (fun x => mine_call d k (fst x)) (sm_calls (dp_sched d))).
  assert (W : under_way d k <= 2 * length L).
  { unfold under_way, L. clear. induction (sm_calls (dp_sched d)) as [|[c x] m IH]; cbn [weight filter fst length]; [lia|]. destruct (mine_call d k c); cbn [length]; destruct x; cbn [rank]; lia. }
  set (job := fun x : nat * call => match nth_error (dp_asked d) (fst x) with Some a => as_job a | None => 0 end).
  assert (Lk : forall c x, In (c, x) L -> exists a st, lookup c (sm_calls (dp_sched d)) = Some x /\ nth_error (dp_asked d) c = Some a /\ as_run a = k /\ wanting (dp_fleet d) k (as_job a) = Some st).
  { intros c x Hin. apply filter_In in Hin as [Hin Hm]. apply In_lookup in Hin; [|exact N]. destruct (di_pending _ _ _ I c x Hin) as (a & st & _ & Ha & Hw & _). unfold mine_call in Hm. cbn [fst] in Hm. rewrite Ha in Hm. apply Nat.eqb_eq in Hm. subst k. eauto 6. }
  assert (Hd : NoDup (map job L)).
  { assert (N' : NoDup (map fst L)) by (apply (NoDup_keys_filter _ _ N)). assert (Sub : forall y, In y L -> In y L) by auto. revert N' Sub. generalize L at 1 2 4. intros l. induction l as [|[c x] l IH]; intros N' Sub; [constructor|].
    cbn [map fst] in *. inversion N' as [|? ? Hni N2]. subst. constructor; [|apply IH; [exact N2|intros y Hy; apply Sub; right; exact Hy]].
    intros C. apply in_map_iff in C as ([c' x'] & Ej & Hin). destruct (Lk c x (Sub _ (or_introl eq_refl))) as (a & st & H1 & H2 & H3 & _). destruct (Lk c' x' (Sub _ (or_intror Hin))) as (a' & st' & H1' & H2' & H3' & _).
    unfold job in Ej. cbn [fst] in Ej. rewrite H2, H2' in Ej. apply Hni. assert (c = c') as ->; [|apply (in_map fst) in Hin; exact Hin].
    apply (di_one _ _ _ I c c' k (as_job a)); (split; [congruence|]); [exists a; auto|exists a'; auto]. }
  assert (Hi : incl (map job L) (seq 0 (length (ws_tasks (sy_w (fr_sys r)))))).
  { intros j Hj. apply in_map_iff in Hj as ([c x] & <- & Hin). destruct (Lk c x Hin) as (a & st & _ & H2 & _ & H4). unfold job. cbn [fst]. rewrite H2. apply in_seq. split; [lia|]. cbn [plus].
    unfold wanting in H4. rewrite Hr in H4. destruct (nth_error (ws_tasks _) _) eqn:Et; [|discriminate H4]. apply nth_error_Some. congruence. }
  assert (Le := NoDup_incl_length Hd Hi). rewrite map_length, seq_length in Le. lia.
Qed.

(** *** Looking around does not make a step want a runner *)
Lemma run_only_engine cx me sh sp x op sh' sp' x' rc : rs_step (D cx) me sh sp x op = Some (sh', sp', x', [ORun rc]) -> op = DEngine OpNext.
Proof.
  intros E. apply distant_step in E as [E _]. destruct op as [eo|clients pick|i| |e]; cbn [dstep] in E.
  - assert (K : dengine cx me (DState sh sp x) eo = Some (DState sh' sp' x', [ORun rc])) by (destruct eo as [|c|[]| | | |ro]; try discriminate E; try exact E; cbn [ds_task] in E; destruct x as [[[rm|] sg [|pd pds]]|]; try discriminate E; exact E).
    apply dengine_faithful in K. cbn [ds_sh ds_step] in K. destruct eo as [|c|b| | | |ro]; [reflexivity|..]; exfalso; destruct sp; try discriminate K; cbn [step_step] in K;
      repeat (match type of K with context [match ?x with _ => _ end] => destruct x end; try discriminate K); injection K as K; discriminate.
  - repeat (match type of E with context [match ?x with _ => _ end] => destruct x end; try discriminate E).
  - repeat (match type of E with context [match ?x with _ => _ end] => destruct x end; try discriminate E).
  - repeat (match type of E with context [match ?x with _ => _ end] => destruct x end; try discriminate E).
  - discriminate E.
Qed.
Lemma idle_want cx wf s op s' o : tidy s -> sysstep (D cx) glob cx wf s op = Some (s', o) -> kind_of distant_kind s op s' = Idle -> forall i, want s' i = want s i.
Proof.
  intros Ht E Hk i. destruct (sys_cases cx cl glob wf _ _ _ _ Ht E) as [_ H]. destruct (H i) as [(H1 & _)|[(st & rc & _ & Hw & -> & _)|(clients & pick & st & -> & _)]]; [exact H1| |].
  - exfalso. destruct op as [fo|j io|p io]; cbn [sysstep] in E.
    + destruct (is_step_op fo); [discriminate|]. destruct (wstep _ _ _ _ _) as [[w' tr]|]; [|discriminate]. destruct (match step_over (sy_w s) fo with Some _ => _ | None => _ end) as [cur past]. injection E as <- E.
      destruct tr as [|y tr]; [discriminate E|]. cbn [map] in E. injection E as _ E _. discriminate E.
    + destruct (nth_error (ws_tasks (sy_w s)) j) as [t|] eqn:Et; [|discriminate]. destruct (nth_error (sy_cur s) j) as [x|] eqn:Ex; [|discriminate]. destruct (tk_phase t) eqn:Ep; try discriminate.
      destruct (rs_step _ _ _ _ _ _) as [[[[sh' sp'] x'] out]|] eqn:Er; [|discriminate]. injection E as <- Eo. destruct out as [|e1 [|e2 out]]; try discriminate Eo. cbn [map] in Eo. injection Eo as -> ->.
      apply run_only_engine in Er as ->. cbn [kind_of] in Hk. rewrite Ex in Hk. unfold want in Hw. cbn [sy_w sy_cur ws_tasks] in Hw, Hk.
      destruct (nth_error (list_set i _ (ws_tasks (sy_w s))) i) as [t'|]; [|discriminate Hw]. destruct (nth_error (list_set i x' (sy_cur s)) i) as [[y|]|]; try discriminate Hw.
      destruct (tk_phase t') as [| | | | | | | | | |t0' js' rs' sp2 rest'| | | |]; try discriminate Hw. destruct sp2; try discriminate Hw. cbn in Hk. discriminate Hk.
    + destruct (nth_error (sy_past s) p) as [[j [[sh sp] x]]|] eqn:Ex; [|discriminate]. destruct (rs_step _ _ _ _ _ _) as [[[[sh' sp'] x'] out]|] eqn:Er; [|discriminate]. injection E as <- Eo.
      destruct Ht as (_ & _ & Hp). destruct (Hp _ (nth_error_In _ _ Ex)) as [r Hr]. cbn [fst snd] in Hr. subst sp. apply (done_still cx cl) in Er as [_ ->]. discriminate Eo.
  - rewrite (pick_moves s (YStep i (DPick clients pick)) s' eq_refl) in Hk. discriminate Hk.
Qed.
Lemma look_want cx wf look : forall s s' o, tidy s -> sysexec (D cx) glob cx wf s look = Some (s', o) -> (forall x, In x (kinds (D cx) glob cx wf distant_kind s look) -> x = Idle) ->
  tidy s' /\ (forall i, want s' i = want s i) /\ Forall (fun op => is_pick op = false) look.
Proof.
  induction look as [|op look IH]; intros s s' o Ht E Hk; cbn [sysexec] in E; [injection E as <- <-; auto|].
  destruct (sysstep _ _ _ _ s op) as [[s1 o1]|] eqn:E1; [|discriminate]. destruct (sysexec _ _ _ _ s1 look) as [[s2 o2]|] eqn:E2; [|discriminate]. injection E as <- <-.
  cbn [kinds] in Hk. rewrite E1 in Hk. assert (K1 := Hk _ (or_introl eq_refl)). assert (Ht1 : tidy s1) by (eapply sys_cases; eassumption).
  destruct (IH _ _ _ Ht1 E2 (fun x Hx => Hk x (or_intror Hx))) as (H1 & H2 & H3). split; [exact H1|]. split; [intros i; rewrite H2; eapply idle_want; eassumption|].
  constructor; [|exact H3]. destruct (is_pick op) eqn:Ep; [|reflexivity]. rewrite (pick_moves s op s1 Ep) in K1. discriminate K1.
Qed.
Lemma pick_wants cx wf s op s' o : sysstep (D cx) glob cx wf s op = Some (s', o) -> is_pick op = true -> (forall p io, op <> YPast p io) -> exists i clients pick st, op = YStep i (DPick clients pick) /\ want s i = Some st.
Proof.
  intros E Hp Hn. destruct op as [fo|i io|p io]; [discriminate Hp| |destruct (Hn p io eq_refl)]. destruct io as [|clients pick| | |]; try discriminate Hp. cbn [sysstep] in E.
  destruct (nth_error (ws_tasks (sy_w s)) i) as [t|] eqn:Et; [|discriminate]. destruct (nth_error (sy_cur s) i) as [x|] eqn:Ex; [|discriminate]. destruct (tk_phase t) as [| | | | | | | | | |t0 js rs sp2 rest| | | |] eqn:Ep; try discriminate.
  destruct (rs_step _ _ _ _ _ _) as [[[[sh' sp'] x'] out]|] eqn:Er; [|discriminate]. apply distant_step in Er as [Er _]. cbn [dstep ds_step ds_task] in Er. destruct sp2; try discriminate Er. destruct x; [discriminate Er|].
  exists i, clients, pick. eexists. split; [reflexivity|]. unfold want. rewrite Et, Ex, Ep. reflexivity.
Qed.
(** Whenever a run on remote runners can go on if the scheduler refuses, it can go on by itself or a step of it waits for the scheduler. *)
Lemma goes_or_asks cx wf s gh c rr : tidy s -> can_move (D cx) glob cx wf distant_kind (goes_on gh (plain_distant c [] None rr)) s ->
  can_move (D cx) glob cx wf distant_kind (goes_on gh (plain_placed c rr)) s \/ exists i st, want s i = Some st.
Proof.
  intros Ht (look & op & s1 & o1 & s2 & o2 & Hf & El & Hk & Es & Hm). destruct (look_want _ _ _ _ _ _ Ht El Hk) as (Ht1 & Hw & Hnp).
  assert (Conv : forall x, goes_on gh (plain_distant c [] None rr) x -> is_pick x = false -> goes_on gh (plain_placed c rr) x).
  { intros x. destruct x as [fo|i io|p io]; cbn [goes_on is_pick]; try tauto. destruct io; cbn [plain_distant plain_placed]; try tauto. discriminate. }
  apply Forall_app in Hf as [Hf1 Hf2]. inversion Hf2 as [|? ? Hop _]. subst. destruct (is_pick op) eqn:Ep.
  - right. destruct (pick_wants _ _ _ _ _ _ Es Ep) as (i & clients & pick & st & _ & Hi); [intros p io ->; exact Hop|]. exists i, st. rewrite <- Hw. exact Hi.
  - left. exists look, op, s1, o1, s2, o2. split; [|auto]. apply Forall_app. split; [|constructor; auto]. rewrite Forall_forall in *. intros x Hx. apply Conv; auto.
Qed.

(** *** Unending executions *)
Lemma alone_filter (fops : list (fop (iop := dop))) (f : @fleet (option dtask)) k : alone (filter (fun op => negb (picks_runner op)) fops) f k -> alone fops f k.
Proof.
  intros H k' r r' id op Hne Hr Hr' J J' Hop. destruct (is_pick op) eqn:Ep; [destruct op as [|? []|? []]; try discriminate Ep; reflexivity|].
  eapply (H k' r r' id op Hne Hr Hr' J J').
  assert (S : since k (filter (fun op => negb (picks_runner op)) fops) = filter (fun op => negb (picks_runner op)) (since k fops)).
  { clear. revert k. induction fops as [|x fops IH]; intros k; [reflexivity|]. cbn [filter since]. destruct x as [| |k' [|? []|? []]| | |]; cbn [picks_runner negb since]; try apply IH. destruct k; [reflexivity|apply IH]. }
  rewrite S. unfold run_ops in *. apply in_flat_map in Hop as (x & Hx & Hin). apply in_flat_map. exists x. split; [|exact Hin]. apply filter_In. split; [exact Hx|].
  destruct x as [| |k1 o| | |]; try destruct Hin. destruct (Nat.eqb k1 k'); [|destruct Hin]. destruct Hin as [->|[]]. destruct op as [|? []|? []]; try discriminate Ep; reflexivity.
Qed.

Section X.
Variable now : time.
Variable std : nat -> dispatch.
Variable act : nat -> option pop.
Hypothesis Ex : dispatch_execution cl glob std act now.
Definition fact (n : nat) : option (fop (iop := dop)) := match act n with Some op => taken (std n) op | None => None end.
Lemma fleet_exec : fleet_execution (fun cx => D cx) glob (fun n => dp_fleet (std n)) fact now.
Proof.
  destruct Ex as [E0 En]. split; [rewrite E0; reflexivity|]. intros n. specialize (En n). unfold fact. destruct (act n) as [op|]; [|rewrite En; reflexivity].
  destruct En as [o E]. apply taken_step in E. destruct (taken (std n) op); [exact E|exact E].
Qed.
Lemma actions_run n : exists tr, dispatch_run cl glob now (actions act n) (std n) tr.
Proof.
  destruct Ex as [E0 En]. induction n as [|n [tr IH]]; [exists []; rewrite E0; constructor|]. specialize (En n). cbn [actions]. destruct (act n) as [op|].
  - destruct En as [o E]. exists (tr ++ o). eapply dispatch_step; eassumption.
  - exists tr. rewrite En, app_nil_r. exact IH.
Qed.
Lemma taken_kind d op d' o : ps d op = Some (d', o) -> match op with PFleet fo => taken d op = Some fo /\ picks_runner fo = false | _ => forall fo, taken d op = Some fo -> picks_runner fo = true end.
Proof.
  destruct op as [a|fo|k i l|c]; cbn [pstep taken].
  - discriminate.
  - destruct (picks_runner fo); [discriminate|auto].
  - intros _ fo. destruct (wanting _ _ _); [|discriminate]. destruct (smach_step _ _) as [[m o1]|]; [|discriminate]. destruct (answered o1); [|discriminate]. intros [= <-]. reflexivity.
  - intros _ fo. destruct (nth_error _ _); [|discriminate]. destruct (smach_step _ _) as [[m o1]|]; [|discriminate]. destruct (answered o1); [|discriminate]. intros [= <-]. reflexivity.
Qed.
Lemma hist_filter n : filter (fun op => negb (picks_runner op)) (history fact n) = fleet_ops (actions act n).
Proof.
  induction n as [|n IH]; [reflexivity|]. cbn [history actions]. unfold fleet_ops. rewrite filter_app, flat_map_app. fold (fleet_ops (actions act n)). rewrite IH. f_equal.
  destruct Ex as [_ En]. specialize (En n). unfold fact. destruct (act n) as [op|]; [|reflexivity]. destruct En as [o E]. apply taken_kind in E.
  destruct op as [a|fo|k i l|c]; [| destruct E as [-> E]; cbn [filter flat_map]; rewrite E; reflexivity| |].
  all: match goal with |- context [taken ?d ?op] => destruct (taken d op) as [fo|]; [|reflexivity]; cbn [filter flat_map]; rewrite (E fo eq_refl); reflexivity end.
Qed.
Hypothesis Nam : forall n, named (dp_fleet (std n)).
Variables (k n0 : nat) (cx : ectx) (wf : workflow) (s0 : @system (option dtask)).
Hypothesis At0 : run_at (dp_fleet (std n0)) k cx wf s0.
Hypothesis Al : forall n, alone (fleet_ops (actions act n)) (dp_fleet (std n)) k.
Hypothesis Ok : forall n op, act n = Some (PFleet (FRunOp k op)) -> orderly wf tame_distant op.
Hypothesis Run : runnable wf.
Variables (gh : github) (c : exec_context unit) (rr : run_result).
Hypothesis Keep : keeps_steps c.
Hypothesis Fair : attended cl glob std act (plain_placed c rr) gh k cx wf.
Hypothesis Silent : turns_silent std act k cx wf.

Lemma fact_own n op : fact n = Some (FRunOp k op) -> is_pick op = false -> act n = Some (PFleet (FRunOp k op)).
Proof.
  unfold fact. destruct Ex as [_ En]. specialize (En n). destruct (act n) as [p|]; [|discriminate]. destruct En as [o E]. apply taken_kind in E. intros H Hp.
  destruct p as [a|fo|k' i l|c']; [|destruct E as [E _]; rewrite E in H; congruence| |]; specialize (E _ H); destruct op as [|? []|? []]; try discriminate E; discriminate Hp.
Qed.
Lemma fact_tame n op : fact n = Some (FRunOp k op) -> orderly wf tame_distant op.
Proof. intros H. destruct (is_pick op) eqn:Ep; [destruct op as [|? []|? []]; try discriminate Ep; exact Logic.I|]. eapply Ok, fact_own; eassumption. Qed.
Fixpoint served (n : nat) : nat := match n with 0 => 0 | S m => served m + match act m with Some op => if serving (std m) k op then 1 else 0 | None => 0 end end.
Lemma served_bound n : served n <= under_way (std n) k + 3 * length (filter is_pick (run_ops k (history fact n))).
Proof.
  induction n as [|n IH]; [cbn; lia|]. cbn [served history]. rewrite run_ops_app, filter_app, app_length. destruct Ex as [_ En]. specialize (En n). unfold fact at 2. destruct (act n) as [op|].
  - destruct En as [o E]. destruct (actions_run n) as [tr R]. assert (S := served_step _ _ _ _ k _ _ _ R E). unfold pick_of in S. destruct (taken (std n) op); [lia|]. cbn [run_ops flat_map filter length]. lia.
  - rewrite En. cbn [run_ops flat_map filter length]. lia.
Qed.
Notation stf := (fun n => dp_fleet (std n)).
Notation seen := (seen (fun cx => D cx) glob tame_distant distant_kind stf fact k cx wf).
Lemma seen_total n s sh0 mv ln : seen n s sh0 mv ln -> mv <= work_bound 24 wf + 7 * ln /\ served n <= 5 * mv /\ tidy s.
Proof.
  intros (ops & tr & Hat & Hs & Ho & Hm & Hl & Hf). assert (Hnd : NoDup (keys (wf_jobs wf))) by (destruct Hat as (r & ca & Hr & _ & <- & _); exact (Nam _ k r Hr)).
  assert (B := C125_distant _ _ _ _ _ _ _ _ Hnd Hs). rewrite Hm, Hl in B. split; [exact B|]. destruct (work_done _ _ _ _ _ _ Hs) as [W1 W2]. rewrite Hm in W1, W2. split.
  - assert (S := served_bound n). rewrite <- Hf in S. destruct (actions_run n) as [dtr R]. destruct Hat as (r & ca & Hr & Hc & Hw & ->). assert (U := under_way_bound _ _ _ _ _ _ R Hr). cbn [settle sy_w ws_tasks] in W1.
    assert (P : length (filter is_pick (filter (fun op => negb (is_env op)) ops)) <= length (filter is_pick ops)).
    { clear. induction ops as [|x ops IH]; [cbn; lia|]. cbn [filter]. destruct (negb (is_env x)); cbn [filter]; destruct (is_pick x); cbn [length]; lia. }
    lia.
  - destruct Hat as (r & ca & Hr & Hc & Hw & ->). apply tidy_settle. destruct (actions_run n) as [dtr R]. exact (proj1 (di_tidy _ _ _ (dinv_run _ _ _ _ _ _ R) k r Hr)).
Qed.
Lemma served_grows n m : n <= m -> served n <= served m.
Proof. induction 1 as [|m _ IH]; [lia|]. cbn [served]. lia. Qed.
Lemma placed_live : exists r, ends_with std k cx wf r.
Proof.
  assert (FE := fleet_exec). assert (Al' : forall n, alone (history fact n) (stf n) k) by (intros n; apply alone_filter; rewrite hist_filter; apply Al).
  destruct Silent as [N HN]. destruct (seen_first (fun cx => D cx) glob tame_distant (fun cx => distant_faithful cx cl) distant_kind now stf fact FE Nam k n0 cx wf s0 At0 Al' fact_tame) as (sh0 & mv0 & ln0 & S0).
  assert (Later := seen_later (fun cx => D cx) glob tame_distant (fun cx => distant_faithful cx cl) distant_kind now stf fact FE Nam k cx wf Al' fact_tame).
  assert (Step := seen_step (fun cx => D cx) glob tame_distant (fun cx => distant_faithful cx cl) distant_kind now stf fact FE Nam k cx wf Al' fact_tame).
  assert (Pr : forall n op, acts distant_kind stf fact k cx wf n op Printed -> N <= n -> False).
  { intros n op (a & b & Ha & Hb & Hc & Hd) Hn. apply (HN n Hn). exists op, a, b. split; [|auto]. apply fact_own; [exact Ha|]. destruct (is_pick op) eqn:Ep; [|reflexivity]. rewrite (pick_moves a op b Ep) in Hd. discriminate Hd. }
  destruct (Later n0 (Nat.max n0 N) ltac:(lia) _ _ _ _ S0) as (s1 & mv1 & ln1 & S1 & _).
  set (B := 6 * (work_bound 24 wf + 7 * ln1)).
  assert (Go : forall j n s mv, N <= n -> seen n s sh0 mv ln1 -> B - (mv + served n) <= j -> exists n s mv r, seen n s sh0 mv ln1 /\ N <= n /\ ws_main (sy_w s) = WpDone r).
  { induction j as [j IH] using (well_founded_induction Wf_nat.lt_wf). intros n s mv Hn Hse Hle.
    destruct (seen_total _ _ _ _ _ Hse) as (T1 & T2 & Htd). assert (Hse' := Hse). destruct Hse' as (ops & tr & Hat & Hs & Ho & Hm & Hl & _).
    destruct Run as (R1 & R2 & R3 & R4). assert (Hnd : NoDup (keys (wf_jobs wf))) by (destruct Hat as (r & ca & Hr & _ & <- & _); exact (Nam _ k r Hr)).
    destruct (C126_distant_never_stuck _ _ _ _ _ _ _ _ Hnd R1 R2 R3 R4 Hs Ho gh c [] None rr Keep) as [[r Hd]|Hc]; [cbn; discriminate|exists n, s, mv, r; auto|].
    assert (Hx : can_move (D cx) glob cx wf distant_kind (goes_on gh (plain_placed c rr)) s \/ exists op, schedules (std n) k op /\ pstep cl glob (std n) op <> None).
    { destruct (goes_or_asks _ _ _ _ _ _ Htd Hc) as [H|(i & st & W)]; [auto|]. right. destruct (actions_run n) as [dtr R].
      assert (W' : wanting (dp_fleet (std n)) k i = Some st) by (rewrite wanting_want; destruct Hat as (r & ca & -> & _ & _ & ->); exact W).
      destruct (asked_for (std n) k i) eqn:Ea.
      - apply asked_for_spec in Ea as [c0 [L M]]. exists (PLock c0). split; [right; eauto|]. eapply lock_possible; eassumption.
      - assert (Np : forall c0, ~ pending (std n) c0 k i) by (intros c0 Hc0; assert (C : asked_for (std n) k i = true) by (apply asked_for_spec; eauto); congruence).
        exists (PAsk k i (map snd (connected (actions act n)))). split; [left; eauto|]. eapply ask_possible; [exact R|exact W'|exact Np|reflexivity]. }
    destruct (Fair n s Hat Hx) as (m & Hnm & Hdone). destruct (Later n m Hnm _ _ _ _ Hse) as (s2 & mv2 & ln2 & S2 & L1 & L2 & L3 & _).
    assert (ln2 = ln1) as -> by (destruct (Nat.lt_ge_cases ln1 ln2) as [Q|Q]; [destruct (L3 Q) as (p & op' & Hp & Hpr); destruct (Pr p op' Hpr ltac:(lia))|lia]).
    destruct (Step _ _ _ _ _ S2) as (s3 & mv3 & ln3 & S3 & L4 & L5 & L6 & L7 & _).
    assert (ln3 = ln1) as -> by (destruct (Nat.lt_ge_cases ln1 ln3) as [Q|Q]; [destruct (L6 Q) as (op' & Hpr); destruct (Pr m op' Hpr ltac:(lia))|lia]).
    assert (G := served_grows n m Hnm). destruct (seen_total _ _ _ _ _ S3) as (T3 & T4 & _).
    assert (Inc : mv2 + served m < mv3 + served (S m)).
    { destruct Hdone as [(op & a & b & Ha & Hb & Hc' & Hd)|(op & Ha & Hsch)].
      - assert (mv2 < mv3); [|cbn [served]; lia]. apply (L7 op). exists a, b. split; [|auto]. unfold fact. rewrite Ha. reflexivity.
      - cbn [served]. rewrite Ha. destruct Ex as [_ En]. specialize (En m). rewrite Ha in En. destruct En as [o E]. apply serving_spec in Hsch; [|congruence]. rewrite Hsch. lia. }
    eapply (IH (B - (mv3 + served (S m)))) with (n := S m); [unfold B in *; lia|lia|exact S3|lia]. }
  destruct (Go (B - (mv1 + served (Nat.max n0 N))) (Nat.max n0 N) s1 mv1 (Nat.le_max_r _ _) S1 (Nat.le_refl _)) as (n & s & mv & r & Hse & _ & Hd). exists r, n. intros m Hm.
  destruct (Later n m Hm _ _ _ _ Hse) as (s2 & mv2 & ln2 & (ops & tr & Hat & _) & _ & _ & _ & L). exists s2. auto.
Qed.
End X.

(** *** Completing a run *)
Lemma own_step f k x f' o cx wf s : remote_fleet_step cl glob f (FRunOp k x) = Some (f', o) -> run_at f k cx wf s -> exists s' o', sysstep (D cx) glob cx wf s x = Some (s', o') /\ run_at f' k cx wf s'.
Proof.
  intros E (r & ca & Hk & Hc & Hw & Hs). unfold remote_fleet_step in E. cbn [fstep] in E. rewrite Hk, Hc in E. destruct (is_env x); [discriminate|]. subst wf s.
  destruct (sysstep (D cx) glob cx (fr_wf r) _ x) as [[s1 o1]|]; [|discriminate]. injection E as <- <-. exists s1, o1. split; [reflexivity|].
  exists (FRun (fr_ctx r) (fr_wf r) s1), (sh_cache (ws_sh (sy_w s1))). cbn [fl_runs fl_ctx fl_now fl_sm fr_ctx fr_wf fr_sys]. split; [apply (list_set_eq _ _ _ _ Hk)|]. split; [apply (list_set_eq _ _ _ _ Hc)|]. split; [reflexivity|]. symmetry. apply settle_same.
Qed.
Lemma made_grows more : forall d d' o c k i, pexec cl glob d more = Some (d', o) -> made_for d c k i -> made_for d' c k i.
Proof.
  induction more as [|op more IH]; intros d0 d' o c k i E M; cbn [pexec] in E; [injection E as <- <-; exact M|].
  destruct (pstep cl glob d0 op) as [[d1 o1]|] eqn:E1; [|discriminate]. destruct (pexec cl glob d1 more) as [[d2 o2]|] eqn:E2; [|discriminate]. injection E as <- <-.
  eapply IH; [exact E2|]. destruct (asked_grows _ _ _ _ _ _ E1) as [ex Ex]. destruct M as (a & Ea & Ha). exists a. rewrite Ex, nth_error_app1; [auto|]. apply nth_error_Some. congruence.
Qed.
Lemma pexec_app a : forall b d d1 o1 d2 o2, pexec cl glob d a = Some (d1, o1) -> pexec cl glob d1 b = Some (d2, o2) -> pexec cl glob d (a ++ b) = Some (d2, o1 ++ o2).
Proof.
  induction a as [|op a IH]; intros b d d1 o1 d2 o2 E1 E2; cbn [pexec app] in *; [injection E1 as <- <-; exact E2|].
  destruct (pstep cl glob d op) as [[d3 o3]|]; [|discriminate]. destruct (pexec cl glob d3 a) as [[d4 o4]|] eqn:E; [|discriminate]. injection E1 as <- <-.
  rewrite (IH _ _ _ _ _ _ E E2). rewrite app_assoc. reflexivity.
Qed.
Lemma pexec_reach now more : forall ops d tr d' o, dispatch_run cl glob now ops d tr -> pexec cl glob d more = Some (d', o) -> dispatch_run cl glob now (ops ++ more) d' (tr ++ o).
Proof.
  induction more as [|op more IH]; intros ops d tr d' o R E; cbn [pexec] in E; [injection E as <- <-; rewrite !app_nil_r; exact R|].
  destruct (pstep cl glob d op) as [[d1 o1]|] eqn:E1; [|discriminate]. destruct (pexec cl glob d1 more) as [[d2 o2]|] eqn:E2; [|discriminate]. injection E as <- <-.
  change (op :: more) with ([op] ++ more). rewrite !app_assoc. eapply IH; [|exact E2]. eapply dispatch_step; eassumption.
Qed.
Lemma pexec_fleet k L : forall d f o, fexec (fun cx => D cx) glob (dp_fleet d) (map (FRunOp k) L) = Some (f, o) -> Forall (fun op => is_pick op = false) L ->
  exists d' o', pexec cl glob d (map (fun x => PFleet (FRunOp k x)) L) = Some (d', o') /\ dp_fleet d' = f.
Proof.
  induction L as [|x L IH]; intros d f o E H; cbn [map fexec pexec] in *; [injection E as <- <-; eauto|]. inversion_clear H as [|? ? Hx HL].
  destruct (fstep _ _ (dp_fleet d) (FRunOp k x)) as [[f1 o1]|] eqn:E1; [|discriminate]. destruct (fexec _ _ f1 _) as [[f2 o2]|] eqn:E2; [|discriminate]. injection E as <- <-.
  cbn [pstep]. assert (Hp : picks_runner (FRunOp k x) = false) by (destruct x as [|? []|? []]; try reflexivity; discriminate Hx). rewrite Hp. unfold remote_fleet_step. rewrite E1.
  destruct (IH (Dispatch f1 (dp_clients d) (dp_sched d) (dp_asked d)) _ _ E2 HL) as (d' & o' & H1 & H2). rewrite H1. eauto.
Qed.
(** Asking and going on with calls: what the run does is to take the answers. *)
Definition answer_op (op : sysop (iop := dop)) : Prop := exists i cs p, op = YStep i (DPick cs p).
Lemma lock_exec k cx wf more : forall d d' o s, pexec cl glob d more = Some (d', o) -> run_at (dp_fleet d) k cx wf s -> Forall (fun op => exists c i, op = PLock c /\ made_for d c k i) more ->
  exists L s' o', Forall answer_op L /\ sysexec (D cx) glob cx wf s L = Some (s', o') /\ run_at (dp_fleet d') k cx wf s'.
Proof.
  induction more as [|op more IH]; intros d d' o s E Hat H; cbn [pexec] in E; [injection E as <- <-; exists [], s, []; auto|].
  destruct (pstep cl glob d op) as [[d1 o1]|] eqn:E1; [|discriminate]. destruct (pexec cl glob d1 more) as [[d2 o2]|] eqn:E2; [|discriminate]. injection E as <- <-.
  destruct (Forall_inv H) as (c & i & Eop & M). assert (HL := Forall_inv_tail H). clear H. subst op. assert (HL' : Forall (fun op => exists c i, op = PLock c /\ made_for d1 c k i) more).
  { eapply Forall_impl; [|exact HL]. intros ? (c' & i' & -> & M'). exists c', i'. split; [reflexivity|]. eapply (made_grows [PLock c]); [cbn [pexec]; rewrite E1; reflexivity|exact M']. }
  assert (Et := taken_step _ _ _ _ E1). cbn [taken] in Et. destruct M as (a & Ea & <- & <-). cbn [pstep] in E1. rewrite Ea in Et, E1. destruct (smach_step _ _) as [[m o3]|]; [|discriminate].
  destruct (answered o3) as [r|]; cbn [option_map] in Et.
  - destruct Et as [x Et]. destruct (own_step _ _ _ _ _ _ _ _ Et Hat) as (s1 & o4 & Hs & Hat1). destruct (IH _ _ _ _ E2 Hat1 HL') as (L & s' & o' & H1 & H2 & H3).
    exists (YStep (as_job a) (DPick (as_clients a) r) :: L), s', (o4 ++ o'). split; [constructor; [unfold answer_op; eauto|exact H1]|]. split; [|exact H3]. cbn [sysexec]. rewrite Hs, H2. reflexivity.
  - rewrite <- Et in Hat. eapply IH; eassumption.
Qed.
Lemma ask_exec k i l cx wf d d' o s : ps d (PAsk k i l) = Some (d', o) -> run_at (dp_fleet d) k cx wf s ->
  made_for d' (length (dp_asked d)) k i /\ exists L s' o', Forall answer_op L /\ sysexec (D cx) glob cx wf s L = Some (s', o') /\ run_at (dp_fleet d') k cx wf s'.
Proof.
  intros E Hat. assert (Et := taken_step _ _ _ _ E). cbn [taken] in Et. cbn [pstep] in E. destruct (wanting (dp_fleet d) k i) as [st|]; [|discriminate]. destruct (_ || _); [discriminate|].
  destruct (smach_step _ _) as [[m o3]|]; [|discriminate]. apply then_taken in E as (_ & Ea & _). split; [exists (Asking k i (dp_clients d)); rewrite Ea, nth_error_app2, Nat.sub_diag by lia; auto|].
  destruct (answered o3) as [r|]; cbn [option_map] in Et.
  - destruct Et as [x Et]. destruct (own_step _ _ _ _ _ _ _ _ Et Hat) as (s1 & o4 & Hs & Hat1). exists [YStep i (DPick (dp_clients d) r)], s1, (o4 ++ []). split; [constructor; [unfold answer_op; eauto|constructor]|]. split; [|exact Hat1]. cbn [sysexec]. rewrite Hs. reflexivity.
  - rewrite <- Et in Hat. exists [], s, []. auto.
Qed.
Lemma wait_over ops d tr now k i st l cx wf s : dispatch_run cl glob now ops d tr -> wanting (dp_fleet d) k i = Some st -> Permutation l (map snd (connected ops)) -> run_at (dp_fleet d) k cx wf s ->
  exists more d' o L s' o', Forall (fun op => (exists i, op = PAsk k i l) \/ exists c i, op = PLock c /\ made_for d' c k i) more /\ pexec cl glob d more = Some (d', o) /\ L <> [] /\ Forall answer_op L /\
    sysexec (D cx) glob cx wf s L = Some (s', o') /\ run_at (dp_fleet d') k cx wf s'.
Proof.
  intros R W P Hat.
  assert (Ne : forall d' s', run_at (dp_fleet d') k cx wf s' -> wanting (dp_fleet d') k i = None -> s' <> s).
  { intros d' s' Hat' W' ->. rewrite wanting_want in W, W'. destruct Hat as (r & ca & H1 & _ & _ & H2). destruct Hat' as (r' & ca' & H1' & _ & _ & H2'). rewrite H1 in W. rewrite H1' in W'.
    assert (A : want s i = want (fr_sys r) i) by (rewrite H2; reflexivity). assert (B : want s i = want (fr_sys r') i) by (rewrite H2'; reflexivity). congruence. }
  destruct (asked_for d k i) eqn:Ea.
  - apply asked_for_spec in Ea as [c [Lk M]]. destruct (lookup c (sm_calls (dp_sched d))) as [x|] eqn:Ex; [|contradiction].
    destruct (lock_answers _ _ _ 2 _ _ _ c k i x R M Ex) as (more & d' & o & q & r & _ & H2 & H3 & H4 & _); [destruct x; cbn; lia|].
    destruct (lock_exec k cx wf more d d' o s H3 Hat) as (L & s' & o' & L1 & L2 & L3); [eapply Forall_impl; [|exact H2]; intros op ->; eauto|].
    exists more, d', o, L, s', o'. split; [eapply Forall_impl; [|exact H2]; intros op ->; right; exists c, i; split; [reflexivity|eapply made_grows; eassumption]|]. split; [exact H3|]. split; [|auto].
    intros ->. cbn in L2. injection L2 as <- <-. exact (Ne _ _ L3 H4 eq_refl).
  - assert (Np : forall c, ~ pending d c k i) by (intros c Hc; assert (C : asked_for d k i = true) by (apply asked_for_spec; eauto); congruence).
    destruct (ask_answers _ _ _ _ _ _ _ _ _ l R W Np P) as (more & d' & o & q & r & _ & H2 & H3 & H4 & _). assert (H3' := H3). cbn [pexec] in H3'.
    destruct (pstep cl glob d (PAsk k i l)) as [[d1 o1]|] eqn:E1; [|discriminate]. destruct (pexec cl glob d1 more) as [[d2 o2]|] eqn:E2; [|discriminate]. injection H3' as -> Eo.
    destruct (ask_exec _ _ _ _ _ _ _ _ _ E1 Hat) as (M & L1 & s1 & o3 & A1 & A2 & A3).
    destruct (lock_exec k cx wf more d1 d' o2 s1 E2 A3) as (L & s' & o' & B1 & B2 & B3); [eapply Forall_impl; [|exact H2]; intros op ->; eauto|].
    exists (PAsk k i l :: more), d', o, (L1 ++ L), s', (o3 ++ o'). split; [constructor; [eauto|]; eapply Forall_impl; [|exact H2]; intros op ->; right; exists (length (dp_asked d)), i; split; [reflexivity|eapply made_grows; eassumption]|].
    split; [exact H3|]. assert (Es : sysexec (D cx) glob cx wf s (L1 ++ L) = Some (s', o3 ++ o')) by (eapply sysexec_app; eassumption).
    split; [|split; [apply Forall_app; auto|auto]]. intros C. rewrite C in Es. cbn in Es. injection Es as -> _. exact (Ne _ _ B3 H4 eq_refl).
Qed.

Lemma own_tried gh c rr l d k more : Forall (own_action gh c rr l d k) more -> tried more = [].
Proof. induction 1 as [|op more [(x & -> & _)|[(i & ->)|(n & i & -> & _)]] _ IH]; [reflexivity|exact IH..]. Qed.
Lemma own_grows gh c rr l k more b : forall d d' o, pexec cl glob d b = Some (d', o) -> Forall (own_action gh c rr l d k) more -> Forall (own_action gh c rr l d' k) more.
Proof.
  intros d d' o E. apply Forall_impl. intros op [H|[H|(n & i & -> & M)]]; [left; exact H|right; left; exact H|]. right. right. exists n, i. split; [reflexivity|eapply made_grows; eassumption].
Qed.
Lemma answer_kinds cx wf L : forall s s' o, Forall answer_op L -> sysexec (D cx) glob cx wf s L = Some (s', o) -> length (filter is_move (kinds (D cx) glob cx wf distant_kind s L)) = length L /\ length (filter is_printed (kinds (D cx) glob cx wf distant_kind s L)) = 0.
Proof.
  induction L as [|op L IH]; intros s s' o H E; [split; reflexivity|]. cbn [sysexec] in E. destruct (sysstep _ _ _ _ s op) as [[s1 o1]|] eqn:E1; [|discriminate]. destruct (sysexec _ _ _ _ s1 L) as [[s2 o2]|] eqn:E2; [|discriminate].
  cbn [kinds]. rewrite E1. destruct (Forall_inv H) as (i & cs & p & Eop). rewrite (pick_moves s op s1) by (rewrite Eop; reflexivity). cbn [filter is_move is_printed length].
  destruct (IH _ _ _ (Forall_inv_tail H) E2) as [-> ->]. auto.
Qed.
Lemma quiet_kinds cx wf gh c rr L : forall s, Forall (goes_on gh (plain_placed c rr)) L -> length (filter is_printed (kinds (D cx) glob cx wf distant_kind s L)) = 0.
Proof.
  induction L as [|op L IH]; intros s H; [reflexivity|]. cbn [kinds]. destruct (sysstep _ _ _ _ s op) as [[s1 o1]|]; [|reflexivity]. cbn [filter].
  assert (Q : kind_of distant_kind s op s1 <> Printed).
  { assert (Ho := Forall_inv H). apply (quiet_distant gh c [] None rr). destruct op as [fo|i io|p io]; cbn [goes_on] in *; auto. destruct io; cbn [plain_placed plain_distant] in *; auto. destruct Ho. }
  destruct (kind_of distant_kind s op s1); [|exact (IH s1 (Forall_inv_tail H))|congruence]. exact (IH s1 (Forall_inv_tail H)).
Qed.
Section Y.
Variables (now : time) (k : nat) (cx : ectx) (wf : workflow) (sh0 : shared) (gh : github) (c : exec_context unit) (rr : run_result) (l : list runner_meta).
Hypothesis Hnd : NoDup (keys (wf_jobs wf)).
Hypothesis Run : runnable wf.
Hypothesis Keep : keeps_steps c.
Notation mv ops := (moves (D cx) glob cx wf distant_kind (start sh0) ops).
Notation ln ops := (lines (D cx) glob cx wf distant_kind (start sh0) ops).
Lemma more_moves sops s str L s' o : sysrun (D cx) glob cx wf sh0 sops s str -> sysexec (D cx) glob cx wf s L = Some (s', o) ->
  mv (sops ++ L) = mv sops + length (filter is_move (kinds (D cx) glob cx wf distant_kind s L)) /\ ln (sops ++ L) = ln sops + length (filter is_printed (kinds (D cx) glob cx wf distant_kind s L)).
Proof. intros R E. unfold moves, lines. rewrite (kinds_app (D cx) glob cx wf distant_kind _ _ _ _ _ (run_exec (D cx) glob cx wf _ _ _ _ R)). rewrite !filter_app, !app_length. auto. Qed.
Lemma complete j : forall ops d tr s sops str, dispatch_run cl glob now ops d tr -> run_at (dp_fleet d) k cx wf s -> sysrun (D cx) glob cx wf sh0 sops s str -> (forall op, In op sops -> orderly wf tame_distant op) ->
  Permutation l (map snd (connected ops)) -> work_bound 24 wf + 7 * ln sops - mv sops <= j ->
  exists more d' o s' r, Forall (own_action gh c rr l d' k) more /\ pexec cl glob d more = Some (d', o) /\ run_at (dp_fleet d') k cx wf s' /\ ws_main (sy_w s') = WpDone r.
Proof.
  induction j as [j IH] using (well_founded_induction Wf_nat.lt_wf). intros ops d tr s sops str R Hat Hs Ho P Hj. destruct Run as (R1 & R2 & R3 & R4).
  destruct (C126_distant_never_stuck _ _ _ _ _ _ _ _ Hnd R1 R2 R3 R4 Hs Ho gh c [] None rr Keep) as [[r Hd]|Hc]; [cbn; discriminate|exists [], d, [], s, r; cbn; auto|].
  assert (Htd : tidy s) by (destruct Hat as (r & ca & Hr & _ & _ & ->); apply tidy_settle; exact (proj1 (di_tidy _ _ _ (dinv_run _ _ _ _ _ _ R) k r Hr))).
  assert (Next : forall more d1 o1 L s1 o2, Forall (own_action gh c rr l d1 k) more -> pexec cl glob d more = Some (d1, o1) -> sysexec (D cx) glob cx wf s L = Some (s1, o2) -> run_at (dp_fleet d1) k cx wf s1 ->
    (forall op, In op L -> orderly wf tame_distant op) -> ln (sops ++ L) = ln sops -> mv sops < mv (sops ++ L) ->
    exists more d' o s' r, Forall (own_action gh c rr l d' k) more /\ pexec cl glob d more = Some (d', o) /\ run_at (dp_fleet d') k cx wf s' /\ ws_main (sy_w s') = WpDone r).
  { intros more d1 o1 L s1 o2 Hm E1 E2 Hat1 HL Hln Hmv. assert (Hs1 := sysexec_run _ _ _ _ _ _ _ _ _ _ _ Hs E2). assert (B := C125_distant _ _ _ _ _ _ _ _ Hnd Hs1).
    destruct (IH (work_bound 24 wf + 7 * ln (sops ++ L) - mv (sops ++ L))) with (ops := ops ++ more) (d := d1) (tr := tr ++ o1) (s := s1) (sops := sops ++ L) (str := str ++ o2) as (more2 & d' & o & s' & r & A1 & A2 & A3 & A4);
      [lia|eapply pexec_reach; eassumption|exact Hat1|exact Hs1|intros op Hop; apply in_app_iff in Hop as [Hop|Hop]; auto| |lia|].
    { unfold connected, tried. rewrite flat_map_app. fold (tried more). rewrite (own_tried _ _ _ _ _ _ _ Hm), app_nil_r. exact P. }
    exists (more ++ more2), d', (o1 ++ o), s', r. split; [apply Forall_app; split; [eapply own_grows; eassumption|exact A1]|]. split; [eapply pexec_app; eassumption|auto]. }
  destruct (goes_or_asks _ _ _ _ _ _ Htd Hc) as [(look & op & s1 & o1 & s2 & o2 & Hf & El & Hk & Es & Hm)|(i & st & W)].
  - assert (EL : sysexec (D cx) glob cx wf s (look ++ [op]) = Some (s2, o1 ++ o2)) by (eapply (sysexec_app (D cx)); [exact El|]; cbn [sysexec]; rewrite Es, app_nil_r; reflexivity).
    assert (Fe : Forall (fun op => is_env op = false) (look ++ [op])) by (eapply Forall_impl; [|exact Hf]; intros x Hx; destruct x as [[]| |]; cbn in *; auto; destruct Hx).
    assert (Fp : Forall (fun op => is_pick op = false) (look ++ [op])) by (eapply Forall_impl; [|exact Hf]; intros x Hx; destruct x as [|? []|? []]; cbn in *; auto; destruct Hx).
    destruct (lift_exec (fun cx => D cx) glob _ _ _ _ _ _ _ _ Hat EL Fe) as (f' & F1 & F2). destruct (pexec_fleet k _ d _ _ F1 Fp) as (d1 & o3 & G1 & G2).
    destruct (more_moves _ _ _ _ _ _ Hs EL) as [M1 M2]. rewrite (quiet_kinds _ _ _ _ _ _ _ Hf) in M2.
    eapply (Next _ d1 o3 (look ++ [op]) s2 (o1 ++ o2)); [|exact G1|exact EL|rewrite G2; exact F2| |lia|].
    + apply Forall_map. eapply Forall_impl; [|exact Hf]. intros x Hx. left. eauto.
    + intros x Hx. rewrite Forall_forall in Hf. specialize (Hf x Hx). destruct x as [[|g|i jo|i|e]|i io|p io]; cbn [goes_on orderly] in *; try exact Logic.I; try (destruct Hf; fail).
      * destruct jo as [|g|[]]; try exact Logic.I; destruct Hf.
      * destruct io as [[]| | | |]; cbn [plain_placed tame_distant] in *; try exact Logic.I. subst. exact Keep.
    + rewrite M1, (kinds_app (D cx) glob cx wf distant_kind _ _ _ _ _ El), filter_app, app_length. cbn [kinds]. rewrite Es, Hm. cbn [filter is_move length]. lia.
  - assert (W' : wanting (dp_fleet d) k i = Some st) by (rewrite wanting_want; destruct Hat as (r & ca & -> & _ & _ & ->); exact W).
    destruct (wait_over _ _ _ _ _ _ _ _ _ _ _ R W' P Hat) as (more & d1 & o1 & L & s1 & o2 & A1 & A2 & A3 & A4 & A5 & A6). destruct (more_moves _ _ _ _ _ _ Hs A5) as [M1 M2]. destruct (answer_kinds _ _ _ _ _ _ A4 A5) as [K1 K2].
    eapply (Next more d1 o1 L s1 o2); [eapply Forall_impl; [|exact A1]; intros op [H|H]; right; auto|exact A2|exact A5|exact A6| |lia|].
    + intros op Hop. rewrite Forall_forall in A4. destruct (A4 op Hop) as (i' & cs & p & ->). exact Logic.I.
    + destruct L; [congruence|]. cbn [length] in K1. lia.
Qed.
End Y.
End P.
