From Verif Require Import Base Types Signals_model Signals_proof Stream_model Cond_model Plugins_model Exec_model Exec_spec
  Step_proof Job_proof Workflow_model Workflow_spec Workflow_proof Workflow_inv.

(** ** Lists *)
Lemma filter_nth_length {A} (f : A -> bool) (xs : list A) :
  length (filter f xs) = length (filter (fun i => match nth_error xs i with Some x => f x | None => false end) (seq 0 (length xs))).
Proof.
  induction xs as [|x xs IH]; [reflexivity|]. cbn [length seq filter nth_error]. rewrite <- seq_shift.
  assert (H : forall l, length (filter (fun i => match nth_error (x :: xs) i with Some y => f y | None => false end) (map S l)) =
    length (filter (fun i => match nth_error xs i with Some y => f y | None => false end) l)).
  { induction l as [|a l IHl]; [reflexivity|]. cbn [map filter nth_error]. destruct (match nth_error xs a with Some y => f y | None => false end); cbn; rewrite IHl; reflexivity. }
  destruct (f x); cbn [length]; rewrite H, IH; reflexivity.
Qed.

Lemma nodup_indices_length {A} (f : A -> bool) (xs : list A) (l : list nat) :
  NoDup l -> (forall i, In i l -> exists x, nth_error xs i = Some x /\ f x = true) -> length l <= length (filter f xs).
Proof.
  intros Hn H. rewrite filter_nth_length. apply NoDup_incl_length; [exact Hn|]. intros i Hi. destruct (H i Hi) as (x & Hx & Hf).
  apply filter_In. split; [|rewrite Hx; exact Hf]. apply in_seq. split; [lia|]. cbn. apply nth_error_Some. congruence.
Qed.

Lemma Forall2_in_l {A B} (R : A -> B -> Prop) l l' x : Forall2 R l l' -> In x l -> exists y, In y l' /\ R x y.
Proof. induction 1; intros []; subst; [eexists; split; [left; reflexivity|auto]|]. destruct (IHForall2 H1) as (z & ? & ?). exists z. split; [right|]; auto. Qed.
Lemma Forall2_in_r {A B} (R : A -> B -> Prop) l l' y : Forall2 R l l' -> In y l' -> exists x, In x l /\ R x y.
Proof. induction 1; intros []; subst; [eexists; split; [left; reflexivity|auto]|]. destruct (IHForall2 H1) as (z & ? & ?). exists z. split; [right|]; auto. Qed.

Lemma Forall2_len {A B} (R : A -> B -> Prop) l l' : Forall2 R l l' -> length l = length l'.
Proof. induction 1; cbn; congruence. Qed.

Lemma NoDup_firstn {A} n (l : list A) : NoDup l -> NoDup (firstn n l).
Proof. revert n; induction l as [|a l IH]; intros [|n] H; cbn; try constructor; inv H; [|apply IH; assumption].
  intros C. apply H2. clear -C. revert n C. induction l; intros [|n]; cbn; intuition. eauto. Qed.

Lemma nodup_map_filter {A B} (f : A -> B) g l : NoDup (map f l) -> NoDup (map f (filter g l)).
Proof.
  induction l as [|a l IH]; cbn; [constructor|]. intros H. inv H. destruct (g a); cbn; auto. constructor; auto.
  intros C. apply H2. apply in_map_iff in C as (x & <- & Hx). apply filter_In in Hx as [Hx _]. apply in_map. exact Hx.
Qed.
Lemma NoDup_app_inv {A} (a b : list A) : NoDup (a ++ b) -> NoDup a /\ NoDup b /\ forall x, In x a -> ~ In x b.
Proof.
  induction a as [|x a IH]; cbn; [intros; split; [constructor|split; [assumption|intros ? []]]|]. intros H. inv H. destruct (IH H3) as (Ha & Hb & Hd).
  rewrite in_app_iff in H2. split; [constructor; tauto|]. split; [exact Hb|]. intros y [<-|Hy]; [tauto|auto].
Qed.
Lemma NoDup_app {A} (a b : list A) : NoDup a -> NoDup b -> (forall x, In x a -> ~ In x b) -> NoDup (a ++ b).
Proof.
  induction a as [|x a IH]; cbn; [auto|]. intros Ha Hb Hd. inv Ha. constructor; [rewrite in_app_iff; intros [C|C]; [tauto|]; apply (Hd x); auto|].
  apply IH; auto.
Qed.

Lemma receive_bound_mono n u : forall t t', t <= t' -> receive_bound n u t <= receive_bound n u t'.
Proof. induction u as [|u IH]; intros t t' H; cbn; [lia|]. assert (receive_bound n u (t + (t + 1) * n) <= receive_bound n u (t' + (t' + 1) * n)) by (apply IH; nia). lia. Qed.

Section P.
Variable glob : glob_oracle.
Variable cx : ectx.
Variable wf : workflow.
Hypothesis Hnd : NoDup (keys (wf_jobs wf)).
Notation wstep := (wstep glob cx wf).
Notation wrun := (wrun glob cx wf).

(** ** Consequences of the invariants *)
Lemma received_task wls s tr k r : wrun wls s tr -> In (k, r) (received tr) ->
  exists i t, nth_error (ws_tasks s) i = Some t /\ tk_key t = k /\ tk_phase t = JpReturned r.
Proof.
  intros R H. destruct (winv glob cx wf Hnd _ _ _ R) as [_ [_ _ _ (order & _ & T5 & _)]].
  apply (Forall2_in_r _ _ _ (k, r)) in T5 as (i & _ & t & Ht & Hk & Hp & _); [eauto|]. apply in_or_app; auto.
Qed.

Lemma received_started wls s tr k : wrun wls s tr -> In k (map fst (received tr)) -> In k (started tr).
Proof.
  intros R H. apply in_map_iff in H as ([k' r] & <- & H). destruct (received_task _ _ _ _ _ R H) as (i & t & Ht & Hk & _).
  destruct (winv glob cx wf Hnd _ _ _ R) as [_ [T1 _ _ _]]. rewrite <- T1. cbn. rewrite <- Hk. apply in_map. eapply nth_error_In; eauto.
Qed.

Lemma started_is_job wls s tr k : wrun wls s tr -> In k (started tr) -> exists j, In (k, j) (wf_jobs wf) /\ forall d, In d (jb_depends_on j) -> In d (map fst (received tr)).
Proof.
  intros R H. destruct (winv glob cx wf Hnd _ _ _ R) as [_ [T1 T2 T3 _]]. rewrite <- T1 in H. apply in_map_iff in H as (t & <- & Ht).
  exists (tk_job t). split; [auto|]. intros d. apply T3, Ht.
Qed.

(** What a transition does to the lists of started and received jobs. *)
Lemma wstep_started s op s' o : wstep s op = Some (s', o) ->
  (started o = [] /\ received o = []) \/
  (exists k r, op = WMain /\ o = [(None, OReceive k r)] /\ exists ch t0 w wa rs, ws_main s = WpLoop t0 w wa rs /\ ws_chan s = (k, r) :: ch /\ ws_tasks s' = ws_tasks s) \/
  (exists kj, op = WMain /\ o = [(None, OSpawn (fst kj))] /\ ws_tasks s' = ws_tasks s ++ [new_task kj] /\
     ((exists t0 w wa rest, ws_main s = WpSpawn t0 w wa (kj :: rest) /\ has_deps (snd kj) = false) \/
      (exists t0 w wa rs todo, ws_main s = WpScan t0 w wa rs (kj :: todo) /\ ready rs (snd kj) = true))).
Proof.
  destruct op as [|gh|i op|i|e]; cbn [Workflow_model.wstep]; intros E.
  - destruct (main_tasks _ _ _ _ _ _ E) as [[Et Es]|(kj & Et & Eo & _ & Hw)].
    + unfold main_step in E. destruct (ws_main s) as [|c ev| | |t0|t0|t0 w wa [|[k j] rest]|t0 w wa rs|t0 w wa rs [|[k j] todo]|t0 w rs|r|r|r]; try discriminate;
        try (injection E as <- <-; left; split; reflexivity).
      * destruct (wf_on wf) as [c|]; [destruct (is_match_first _ _ _ _)|]; injection E as <- <-; left; split; reflexivity.
      * destruct (has_deps j); injection E as <- <-; [left; split; reflexivity|discriminate Es].
      * destruct (ws_chan s) as [|[k r] ch] eqn:Ec; [discriminate|]. injection E as <- <-. right. left. exists k, r. repeat split. eauto 10.
      * destruct (ready rs j); injection E as <- <-; [discriminate Es|left; split; reflexivity].
    + right. right. exists kj. auto.
  - destruct (ws_main s); try discriminate. destruct (is_match_second _ _ _ _). injection E as <- <-. left; split; reflexivity.
  - destruct (nth_error _ _) as [t|]; [|discriminate]. destruct (job_step _ _ _ _ _ _ _) as [[[sh' p'] ob]|] eqn:Ej; [|discriminate].
    injection E as <- <-. left. unfold started, received. rewrite events_of_map_other by discriminate. split; reflexivity.
  - destruct (nth_error _ _) as [[key j p sent]|]; [|discriminate]. destruct p; try discriminate. destruct sent; [discriminate|].
    left. destruct (ws_main s); try (destruct (Nat.ltb _ _); [|discriminate E]); injection E as <- <-; split; reflexivity.
  - injection E as <- <-. left; split; reflexivity.
Qed.

(** Received keys are closed under dependencies, at every point. *)
Lemma received_closed wls s tr : wrun wls s tr -> forall pre k r post, received tr = pre ++ (k, r) :: post ->
  forall j d, In (k, j) (wf_jobs wf) -> In d (jb_depends_on j) -> In d (map fst pre).
Proof.
  induction 1 as [sh|wls s tr op s' o R IH E]; intros pre k r post Er; [destruct pre; discriminate Er|].
  rewrite received_app in Er. destruct (wstep_started _ _ _ _ E) as [[_ Hr]|[(k0 & r0 & -> & -> & ch & t0 & w & wa & rs & Em & Ec & Et)|(kj & _ & -> & _)]].
  - rewrite Hr, app_nil_r in Er. eauto.
  - cbn in Er. destruct post as [|z post _] using rev_ind.
    + apply app_inj_tail in Er as [<- Er]. injection Er as -> ->. intros j d Hj Hd.
      destruct (winv glob cx wf Hnd _ _ _ R) as [_ [_ T2 T3 (order & _ & T5 & _)]].
      assert (Hi : In (k, r) (received tr ++ ws_chan s)) by (apply in_or_app; right; rewrite Ec; left; reflexivity).
      apply (Forall2_in_r _ _ _ (k, r) T5) in Hi as (i & _ & t & Ht & Hk & _). apply nth_error_In in Ht.
      apply (T3 t); [exact Ht|]. replace (tk_job t) with j; [exact Hd|]. eapply (job_unique wf Hnd k); [exact Hj|].
      assert (X := T2 t Ht). rewrite Hk in X. exact X.
    + rewrite app_comm_cons, app_assoc in Er. apply app_inj_tail in Er as [Er _]. eauto.
  - cbn in Er. rewrite app_nil_r in Er. eauto.
Qed.

Lemma closed_trans wls s tr : wrun wls s tr -> forall k e, depends_trans wf k e -> forall pre post, received tr = pre ++ post -> In k (map fst pre) -> In e (map fst pre).
Proof.
  intros R k e D. induction D as [k d (j & Hj & Hd)|k d e (j & Hj & Hd) D IH]; intros pre post Er Hk.
  - apply in_map_iff in Hk as ([k' r] & <- & Hk). apply in_split in Hk as (p1 & p2 & ->). rewrite <- app_assoc in Er. cbn in Er.
    rewrite map_app. apply in_or_app. left. eapply received_closed; eauto.
  - apply (IH pre post Er). apply in_map_iff in Hk as ([k' r] & <- & Hk). apply in_split in Hk as (p1 & p2 & ->). rewrite <- app_assoc in Er. cbn in Er.
    rewrite map_app. apply in_or_app. left. eapply received_closed; eauto.
Qed.

Lemma started_nodup_received wls s tr : wrun wls s tr -> NoDup (started tr) -> NoDup (map fst (received tr ++ ws_chan s)).
Proof.
  intros R H. destruct (winv glob cx wf Hnd _ _ _ R) as [_ [T1 _ _ (order & T4 & T5 & _)]]. rewrite <- T1 in H.
  revert T4 T5. generalize (received tr ++ ws_chan s). intros l T4 T5. induction T5 as [|i x order l (t & Ht & Hk & _) T5 IH]; [constructor|].
  inv T4. cbn. constructor; [|auto]. intros C. apply in_map_iff in C as (y & Hy & Hin). apply (Forall2_in_r _ _ _ y T5) in Hin as (i' & Hi' & t' & Ht' & Hk' & _).
  assert (i = i'); [|congruence].
  apply (proj1 (NoDup_nth_error _) H).
  - rewrite map_length. apply nth_error_Some. congruence.
  - rewrite !nth_error_map, Ht, Ht'. cbn. congruence.
Qed.

Lemma started_reactions_in recs : forall e k, In k (started_in (reactions wf e recs)) ->
  exists pre x post, recs = pre ++ x :: post /\ In k (eligible wf (e ++ map fst (pre ++ [x]))).
Proof.
  induction recs as [|[a b] recs IH]; intros e k H; [destruct H|].
  cbn [reactions] in H. change (OReceive a b :: ?x) with ([OReceive a b] ++ x) in H. rewrite !started_in_app, started_spawns in H.
  cbn [started_in flat_map app] in H. apply in_app_iff in H as [H|H].
  - exists [], (a, b), recs. auto.
  - destruct (IH _ _ H) as (pre & x & post & -> & Hk). exists ((a, b) :: pre), x, post. split; [reflexivity|]. rewrite <- app_assoc in Hk. exact Hk.
Qed.

Lemma eligible_in ks k : In k (eligible wf ks) <-> exists j, In (k, j) (wf_jobs wf) /\ jb_depends_on j <> [] /\ (forall d, In d (jb_depends_on j) -> In d ks) /\ ~ In k ks.
Proof.
  unfold eligible. rewrite in_map_iff. split.
  - intros ([k' j] & <- & H). apply filter_In in H as [H1 H2]. cbn [fst snd] in *. exists j. destruct (jb_depends_on j) as [|d ds] eqn:Ed; [discriminate|].
    change (forallb (fun d => memb d ks) (d :: ds) && negb (memb k' ks) = true) in H2.
    apply andb_true_iff in H2 as [H2 H3]. rewrite forallb_forall in H2. apply negb_true_iff, memb_false in H3.
    split; [exact H1|]. split; [discriminate|]. split; [|exact H3]. intros x Hx. apply memb_true, H2, Hx.
  - intros (j & H1 & H2 & H3 & H4). exists (k, j). split; [reflexivity|]. apply filter_In. split; [exact H1|]. cbn [fst snd].
    destruct (jb_depends_on j) as [|d ds] eqn:Ed; [congruence|]. change (forallb (fun d => memb d ks) (d :: ds) && negb (memb k ks) = true). apply andb_true_iff. split; [apply forallb_forall; intros x Hx; apply memb_true; auto|].
    apply negb_true_iff, memb_false, H4.
Qed.
Lemma independent_in k : In k (independent wf) <-> exists j, In (k, j) (wf_jobs wf) /\ jb_depends_on j = [].
Proof.
  unfold independent. rewrite in_map_iff. split.
  - intros ([k' j] & <- & H). apply filter_In in H as [H1 H2]. exists j. cbn in *. destruct (jb_depends_on j); [auto|discriminate].
  - intros (j & H1 & H2). exists (k, j). split; [reflexivity|]. apply filter_In. cbn. rewrite H2. auto.
Qed.

(** ** C33: comparable jobs are started once *)
Lemma once wls s tr : comparable wf -> wrun wls s tr -> NoDup (started tr).
Proof.
  intros Hc R. induction R as [sh|wls s tr op s' o R IH E]; [constructor|].
  rewrite started_app. destruct (wstep_started _ _ _ _ E) as [[Hs _]|[(k0 & r0 & _ & -> & _)|([k j] & _ & -> & _ & Hw)]].
  - rewrite Hs, app_nil_r. exact IH.
  - cbn. rewrite app_nil_r. exact IH.
  - cbn. cbn [fst snd] in Hw. apply NoDup_app; [exact IH|constructor; [intros []|constructor]|]. intros x Hx [<-|[]].
    assert (Hrec := started_nodup_received _ _ _ R IH).
    destruct (winv glob cx wf Hnd _ _ _ R) as [M _]. unfold started in Hx.
    destruct Hw as [(t0 & w & wa & rest & Em & Hd)|(t0 & w & wa & rs & todo & Em & Hr)]; rewrite Em in M; cbn [minv] in M.
    + destruct M as (_ & chk & dn & Hlr & Hj & _ & _ & Hm). rewrite Hm in Hx. unfold whead in Hx. apply lets_run_quiet in Hlr as [_ Hlr].
      rewrite !started_in_app, Hlr, started_spawns in Hx. cbn in Hx. apply in_map_iff in Hx as ([k' j'] & Hk' & Hx). cbn in Hk'. subst k'. apply filter_In in Hx as [Hx _].
      rewrite Hj in Hnd. unfold keys in Hnd. rewrite map_app in Hnd. apply NoDup_app_inv in Hnd as (_ & _ & C). apply (C k); [apply (in_map fst _ _ Hx)|left; reflexivity].
    + destruct M as (chk & recs & k0 & r0 & dn & (_ & Hlr & Hwa & -> & _) & Hw & Hm).
      assert (Hrc : received tr = recs ++ [(k0, r0)]).
      { unfold received. rewrite Hm, received_in_app, received_wmid by exact Hlr. change (OReceive k0 r0 :: ?x) with ([OReceive k0 r0] ++ x).
        rewrite received_in_app, received_spawns. reflexivity. }
      assert (Hkw : In (k, j) (waiting_of wf (map fst (recs ++ [(k0, r0)])))) by (rewrite <- Hwa, Hw; apply in_or_app; right; left; reflexivity).
      apply filter_In in Hkw as [Hkj Hkw]. cbn in Hkw. apply andb_true_iff in Hkw as [Hkd Hkn]. apply negb_true_iff, memb_false in Hkn.
      rewrite map_app, in_app_iff in Hkn. cbn in Hkn.
      assert (Hjd : jb_depends_on j <> []) by (unfold has_deps in Hkd; destruct (jb_depends_on j); [discriminate|discriminate]).
      rewrite Hm in Hx. assert (Hlr' := Hlr). apply lets_run_quiet in Hlr' as [_ Hlr'].
      change (OReceive k0 r0 :: ?x) with ([OReceive k0 r0] ++ x) in Hx. unfold wmid, whead in Hx. rewrite !started_in_app, Hlr', !started_spawns in Hx. cbn [started_in flat_map ev_run_wf wf_state_event app] in Hx.
      apply in_app_iff in Hx as [Hx|Hx]; [apply in_app_iff in Hx as [Hx|Hx]|].
      * apply independent_in in Hx as (j' & Hj' & Hd'). assert (j = j') by (eapply (job_unique wf Hnd); eauto). congruence.
      * apply started_reactions_in in Hx as (pre & x & post & Hp & Hel). cbn [app] in Hel. apply eligible_in in Hel as (j' & Hj' & _ & Hdeps & _).
        assert (j' = j) by (eapply (job_unique wf Hnd); eauto). subst j'.
        assert (Hdeps' : forall d, In d (jb_depends_on j) -> In d (map fst recs)).
        { intros d Hd. apply Hdeps in Hd. rewrite Hp, !map_app, in_app_iff in *. cbn in *. intuition. }
        clear Hp.
        assert (Hk0 : In k0 (keys (wf_jobs wf))).
        { assert (In k0 (started tr)) as Hs. { apply (received_started _ _ _ _ R). rewrite Hrc, map_app. apply in_or_app; right; left; reflexivity. }
          destruct (started_is_job _ _ _ _ R Hs) as (jk & Hjk & _). apply (in_map fst _ _ Hjk). }
        assert (Hk0n : ~ In k0 (map fst recs)).
        { rewrite Hrc, map_app in Hrec. apply NoDup_app_inv in Hrec as (Hrec & _). rewrite map_app in Hrec.
          apply NoDup_app_inv in Hrec as (_ & _ & C). intros Hi. apply (C k0 Hi). left; reflexivity. }
        destruct (Hc k j Hkj Hjd k0 Hk0) as [->|[D|D]]; [tauto| |].
        -- (* k depends on k0 *) apply Hk0n. inversion D as [? ? (jk & Hjk & Hdk)|? d ? (jk & Hjk & Hdk) D2]; subst;
           (assert (jk = j) by (eapply (job_unique wf Hnd); eauto)); subst jk; [auto|].
           eapply (closed_trans _ _ _ R d k0 D2 recs [(k0, r0)] Hrc). auto.
        -- (* k0 depends on k *) assert (In k (map fst (recs ++ [(k0, r0)]))) as C.
           { eapply (closed_trans _ _ _ R k0 k D _ []); [rewrite app_nil_r; exact Hrc|]. rewrite map_app. apply in_or_app; right; left; reflexivity. }
           rewrite map_app, in_app_iff in C. cbn in C. tauto.
      * assert (NDw : NoDup (map fst (waiting_of wf (map fst (recs ++ [(k0, r0)]))))) by (apply nodup_map_filter, Hnd).
        rewrite <- Hwa, Hw, map_app in NDw. apply NoDup_app_inv in NDw as (_ & _ & C).
        apply in_map_iff in Hx as ([k' j'] & Hk' & Hx). cbn in Hk'. subst k'. apply filter_In in Hx as [Hx _].
        apply (C k); [apply (in_map fst _ _ Hx)|left; reflexivity].
Qed.

(** ** C20: jobs waiting for themselves *)
Lemma stuck wls s tr (S : string -> Prop) : waits_for_itself wf S -> wrun wls s tr -> forall k, S k -> ~ In k (started tr).
Proof.
  intros [_ HS] R. induction R as [sh|wls s tr op s' o R IH E]; intros k Hk C; [destruct C|].
  rewrite started_app in C. apply in_app_iff in C as [C|C]; [exact (IH k Hk C)|].
  assert (R' := wrun_step glob cx wf _ _ _ _ _ _ R E).
  destruct (wstep_started _ _ _ _ E) as [[Hs _]|[(k0 & r0 & _ & -> & _)|([k0 j] & _ & -> & _ & Hw)]].
  - rewrite Hs in C. destruct C.
  - destruct C.
  - cbn in C. destruct C as [<-|[]]. destruct (started_is_job _ _ _ k0 R') as (j' & Hj' & Hd); [rewrite started_app; apply in_or_app; right; left; reflexivity|].
    destruct (HS k0 Hk) as (d & (j2 & Hj2 & Hd2) & Hm). assert (j2 = j') by (eapply (job_unique wf Hnd); eauto). subst j2.
    apply Hd in Hd2. assert (Hr : received (tr ++ [(None, OSpawn k0)]) = received tr) by (rewrite received_app; cbn; apply app_nil_r).
    cbn [fst] in Hd2. rewrite Hr in Hd2. apply (received_started _ _ _ _ R) in Hd2.
    destruct Hm as [Hm|Hm]; [exact (IH d Hm Hd2)|]. apply Hm. destruct (started_is_job _ _ _ _ R Hd2) as (jd & Hjd & _). apply (in_map fst _ _ Hjd).
Qed.

(** ** C35: the number of results received is bounded *)
Definition n_jobs : nat := length (wf_jobs wf).
Definition known (tr : trace) : nat := length (filter (fun k => memb k (map fst (received tr))) (started tr)).
Definition unseen (tr : trace) : nat := n_jobs - length (results_of (received tr)).
Definition extra (p : wphase) : nat :=
  match p with
  | WpSpawn _ _ _ rest => length rest
  | WpScan _ _ _ _ todo => length todo
  | WpCheck | WpFetch _ _ | WpStart | WpRunEvent _ | WpInProgress _ => n_jobs
  | _ => 0
  end.
Definition goal : nat := receive_bound n_jobs n_jobs n_jobs.
Definition binv (s : wstate) (tr : trace) : Prop :=
  let R := length (received tr) in
  match unseen tr with
  | 0 => R <= goal
  | S u => R + (known tr - R) + 1 + receive_bound n_jobs u ((length (started tr) + extra (ws_main s) - R) + (known tr - R + 1) * n_jobs) <= goal
  end.

Lemma received_le_known wls s tr : wrun wls s tr -> length (received tr) <= known tr.
Proof.
  intros R. destruct (winv glob cx wf Hnd _ _ _ R) as [_ [T1 _ _ (order & T4 & T5 & _)]].
  apply Forall2_app_inv_r in T5 as (o1 & o2 & T5 & _ & ->). apply NoDup_app_inv in T4 as (T4 & _).
  rewrite <- (Forall2_len _ _ _ T5). unfold known. apply nodup_indices_length; [exact T4|].
  intros i Hi. apply (Forall2_in_l _ _ _ i T5) in Hi as (x & Hx & t & Ht & Hk & _). exists (tk_key t). rewrite <- T1, nth_error_map, Ht. split; [reflexivity|].
  apply memb_true. rewrite Hk. apply in_map, Hx.
Qed.

Lemma known_le_started tr : known tr <= length (started tr).
Proof. unfold known. induction (started tr) as [|a l IH]; cbn; [lia|]. destruct (memb a _); cbn; lia. Qed.

Lemma binv_same s s' tr o : started o = [] -> received o = [] -> extra (ws_main s') <= extra (ws_main s) -> binv s tr -> binv s' (tr ++ o).
Proof.
  intros Hs Hr He H. unfold binv, unseen, known in *. rewrite started_app, received_app, Hs, Hr, !app_nil_r. destruct (n_jobs - _) as [|u]; [exact H|].
  etransitivity; [|exact H]. apply Nat.add_le_mono_l, receive_bound_mono. lia.
Qed.

Lemma results_le_jobs wls s tr : wrun wls s tr -> length (results_of (received tr)) <= n_jobs.
Proof.
  intros R. replace (length (results_of (received tr))) with (length (keys (results_of (received tr)))) by (unfold keys; apply map_length).
  unfold n_jobs. replace (length (wf_jobs wf)) with (length (keys (wf_jobs wf))) by (unfold keys; apply map_length).
  apply NoDup_incl_length; [apply results_nodup|]. intros k Hk. apply (proj1 (results_keys _ _)) in Hk. apply (received_started _ _ _ _ R) in Hk.
  destruct (started_is_job _ _ _ _ R Hk) as (j & Hj & _). apply (in_map fst _ _ Hj).
Qed.

Lemma bound_inv wls s tr : wrun wls s tr -> binv s tr.
Proof.
  intros R. induction R as [sh|wls s tr op s' o R IH E].
  { unfold binv, unseen, known. cbn [winit ws_main extra started received started_in received_in events_of flat_map results_of fold_left length filter].
    rewrite Nat.sub_0_r. destruct n_jobs as [|n] eqn:En; [lia|]. unfold goal. rewrite En. cbn [receive_bound].
    assert (receive_bound (S n) n (0 + S n - 0 + (0 - 0 + 1) * S n) <= receive_bound (S n) n (S n + (S n + 1) * S n)) by (apply receive_bound_mono; lia). lia. }
  assert (R' := wrun_step glob cx wf _ _ _ _ _ _ R E).
  destruct (winv glob cx wf Hnd _ _ _ R) as [M T].
  destruct (wstep_started _ _ _ _ E) as [[Hs Hr]|[(k0 & r0 & -> & -> & ch & t0 & w & wa & rs & Em & Ec & Et)|([k j] & -> & -> & Et & Hw)]].
  - apply (binv_same s); auto. clear -E Hs Hr M. destruct op as [|gh|i op|i|e]; cbn [Workflow_model.wstep] in E.
    + unfold main_step in E. destruct (ws_main s) as [|c ev| | |t0|t0|t0 w wa [|[k j] rest]|t0 w wa rs|t0 w wa rs [|[k j] todo]|t0 w rs|r|r|r] eqn:Em; try discriminate;
        try (injection E as <- <-; cbn; unfold n_jobs; lia).
      * destruct (wf_on wf) as [c|]; [destruct (is_match_first _ _ _ _) as [[|]|]|]; injection E as <- <-; cbn; lia.
      * destruct (has_deps j); injection E as <- <-; [cbn; lia|discriminate Hs].
      * destruct (ws_chan s) as [|[k r] ch]; [discriminate|]. injection E as <- <-. cbn in M. destruct M as (chk & recs & (_ & _ & -> & _) & _).
        exfalso. discriminate Hr.
      * destruct (ready rs j); injection E as <- <-; [discriminate Hs|cbn; lia].
    + destruct (ws_main s); try discriminate. destruct (is_match_second _ _ _ _) as [c' [|]]. all: injection E as <- <-; cbn; lia.
    + destruct (nth_error _ _) as [t|]; [|discriminate]. destruct (job_step _ _ _ _ _ _ _) as [[[sh' p'] ob]|] eqn:Ej; [|discriminate].
      injection E as <- <-. cbn. lia.
    + destruct (nth_error _ _) as [[key j p sent]|]; [|discriminate]. destruct p; try discriminate. destruct sent; [discriminate|].
      destruct (ws_main s) eqn:Em; try (destruct (Nat.ltb _ _); [|discriminate E]); injection E as <- <-; cbn; rewrite ?Em; cbn; lia.
    + injection E as <- <-. cbn. lia.
  - (* a result is received *)
    assert (Hk1 := received_le_known _ _ _ R). assert (Hk2 := received_le_known _ _ _ R').
    assert (Hks := known_le_started (tr ++ [(None, OReceive k0 r0)])).
    assert (Hle := results_le_jobs _ _ _ R). assert (Hle' := results_le_jobs _ _ _ R').
    assert (Hex : extra (ws_main s') <= n_jobs).
    { cbn [Workflow_model.wstep] in E. unfold main_step in E. rewrite Em, Ec in E. injection E as <-. cbn [ws_main].
      destruct (Nat.eqb _ _); cbn [extra]; [lia|]. rewrite Em in M. cbn in M. destruct M as (chk & recs & (_ & _ & -> & _) & _).
      unfold waiting_of, n_jobs. rewrite filter_filter. clear. induction (wf_jobs wf) as [|a l IHl]; cbn; [lia|]. destruct (_ && _); cbn; lia. }
    assert (Hst : started (tr ++ [(None, OReceive k0 r0)]) = started tr) by (rewrite started_app; cbn; apply app_nil_r).
    assert (Hrc : received (tr ++ [(None, OReceive k0 r0)]) = received tr ++ [(k0, r0)]) by (rewrite received_app; reflexivity).
    unfold binv in *. unfold unseen in *. rewrite Hst, Hrc in *. rewrite results_snoc in *. rewrite app_length in *. cbn [length] in *.
    rewrite length_insert in *.
    assert (He : extra (ws_main s) = 0) by (rewrite Em; reflexivity). rewrite He in IH.
    set (T0 := length (started tr)) in *. set (R0 := length (received tr)) in *. set (P0 := known tr) in *. set (v := length (results_of (received tr))) in *.
    set (P1 := known (tr ++ [(None, OReceive k0 r0)])) in *.
    destruct (contains_key k0 (results_of (received tr))) eqn:Ek.
    + assert (P1 = P0) as HP.
      { unfold P1, P0, known. rewrite Hst, Hrc. f_equal. apply filter_ext_in'. intros x _.
        apply contains_key_true in Ek. apply (proj1 (results_keys _ _)) in Ek. destruct (memb x (map fst (received tr))) eqn:Ex.
        - apply memb_true. rewrite map_app. apply in_or_app. left. apply memb_true, Ex.
        - apply memb_false. apply memb_false in Ex. rewrite map_app, in_app_iff. cbn. intros [C|[<-|[]]]; tauto. }
      rewrite HP in *. destruct (n_jobs - v) as [|u] eqn:Eu.
      * exfalso. rewrite Em in M. cbn in M. destruct M as (chk & recs & (_ & Hlr & _ & -> & _ & Hl) & Hm).
        assert (recs = received tr) as -> by (unfold received; rewrite Hm, received_wmid by exact Hlr; reflexivity).
        assert (v <> n_jobs); [|lia]. apply Hl. intros C.
        apply contains_key_true in Ek. apply (proj1 (results_keys _ _)), (received_started _ _ _ _ R) in Ek.
        destruct (started_is_job _ _ _ _ R Ek) as (jj & Hj & _). rewrite C in Hj. destruct Hj.
      * etransitivity; [|exact IH]. assert (receive_bound n_jobs u (T0 + extra (ws_main s') - (R0 + 1) + (P0 - (R0 + 1) + 1) * n_jobs) <=
          receive_bound n_jobs u (T0 + 0 - R0 + (P0 - R0 + 1) * n_jobs)); [|lia]. apply receive_bound_mono.
        assert (R0 + 1 <= T0) by lia. nia.
    + destruct (n_jobs - v) as [|u] eqn:Eu; [lia|]. replace (n_jobs - S v) with u by lia.
      assert (HT : R0 + 1 <= T0) by lia.
      destruct u as [|u]; [cbn in IH; lia|]. cbn [receive_bound] in IH. etransitivity; [|exact IH].
      match goal with |- ?a + receive_bound _ _ ?x <= ?b + (?c + receive_bound _ _ ?y) =>
        assert (receive_bound n_jobs u x <= receive_bound n_jobs u y); [apply receive_bound_mono|generalize dependent (receive_bound n_jobs u); intros; generalize dependent ((P0 - R0 + 1) * n_jobs); intros; lia] end.
      assert (P1 - (R0 + 1) + 1 <= T0 - R0) by lia.
      assert ((P1 - (R0 + 1) + 1) * n_jobs <= (T0 - R0) * n_jobs) by (apply Nat.mul_le_mono_r; assumption).
      rewrite Nat.add_0_r. set (a := T0 - R0) in *. set (c := (P0 - R0 + 1) * n_jobs).
      replace (T0 + extra (ws_main s') - (R0 + 1)) with (a + extra (ws_main s') - 1) by lia.
      assert (a * n_jobs <= (a + c) * n_jobs) by (apply Nat.mul_le_mono_r; lia).
      rewrite (Nat.mul_add_distr_r (a + c) 1 n_jobs). lia.
  - assert (Hr : received (tr ++ [(None, OSpawn (fst (k, j)))]) = received tr) by (rewrite received_app; cbn; apply app_nil_r).
    assert (Hst : started (tr ++ [(None, OSpawn (fst (k, j)))]) = started tr ++ [k]) by (rewrite started_app; reflexivity).
    assert (Hex : S (extra (ws_main s')) = extra (ws_main s)).
    { cbn [Workflow_model.wstep] in E. unfold main_step in E. destruct Hw as [(t0 & w & wa & rest & Em & Hd)|(t0 & w & wa & rs & todo & Em & Hrd)]; rewrite Em in *; cbn [snd] in *.
      - rewrite Hd in E. injection E as <-. reflexivity.
      - rewrite Hrd in E. injection E as <-. reflexivity. }
    assert (Hkn : ~ In k (map fst (received tr))).
    { destruct Hw as [(t0 & w & wa & rest & Em & Hd)|(t0 & w & wa & rs & todo & Em & Hrd)]; rewrite Em in M; cbn in M.
      - destruct M as (_ & chk & dn & Hlr & _ & _ & _ & Hm). unfold received. rewrite Hm. unfold whead. apply lets_run_quiet in Hlr as [Hlr _].
        rewrite !received_in_app, Hlr, received_spawns. cbn. tauto.
      - destruct M as (chk & recs & k0 & r0 & dn & (_ & Hlr & Hwa & _) & Hww & Hm).
        assert (received tr = recs ++ [(k0, r0)]) as ->.
        { unfold received. rewrite Hm, received_in_app, received_wmid by exact Hlr. change (OReceive k0 r0 :: ?x) with ([OReceive k0 r0] ++ x).
          rewrite received_in_app, received_spawns. reflexivity. }
        assert (Hi : In (k, j) wa) by (rewrite Hww; apply in_or_app; right; left; reflexivity). rewrite Hwa in Hi. apply filter_In in Hi as [_ Hi]. cbn in Hi.
        apply andb_true_iff in Hi as [_ Hi]. apply negb_true_iff, memb_false in Hi. exact Hi. }
    assert (Hkk : known (tr ++ [(None, OSpawn (fst (k, j)))]) = known tr).
    { unfold known. rewrite Hst, Hr, filter_app'. cbn [filter]. replace (memb k (map fst (received tr))) with false by (symmetry; apply memb_false, Hkn).
      rewrite app_nil_r. reflexivity. }
    unfold binv, unseen in *. rewrite Hkk, Hr, Hst, app_length. cbn [length]. destruct (n_jobs - _) as [|u]; [exact IH|].
    replace (length (started tr) + 1 + extra (ws_main s')) with (length (started tr) + extra (ws_main s)) by lia. exact IH.
Qed.

(** ** C35: no deadlock *)
Lemma waits_for_something wls s tr t0 w wa rs : acyclic wf -> wf_jobs wf <> [] -> wrun wls s tr -> ws_main s = WpLoop t0 w wa rs ->
  ws_chan s <> [] \/ exists i t, nth_error (ws_tasks s) i = Some t /\ tk_sent t = false.
Proof.
  intros [level Hl] Hne R Em. destruct (ws_chan s) as [|x ch] eqn:Ec; [right|left; discriminate].
  destruct (existsb (fun t => negb (tk_sent t)) (ws_tasks s)) eqn:Ex.
  { apply existsb_exists in Ex as (t & Ht & Hs). apply In_nth_error in Ht as (i & Ht). exists i, t. split; [exact Ht|]. apply negb_true_iff, Hs. }
  exfalso. destruct (winv glob cx wf Hnd _ _ _ R) as [M [T1 T2 T3 (order & T4 & T5 & T6)]].
  assert (Sub : forall k, In k (started tr) -> In k (map fst (received tr))).
  { intros k Hk. rewrite <- T1 in Hk. apply in_map_iff in Hk as (t & <- & Ht). apply In_nth_error in Ht as (i & Ht).
    assert (Hs : tk_sent t = true).
    { destruct (tk_sent t) eqn:Es; [reflexivity|]. exfalso. apply nth_error_In in Ht.
      assert (existsb (fun t => negb (tk_sent t)) (ws_tasks s) = true) by (apply existsb_exists; exists t; rewrite Es; auto). congruence. }
    assert (Hi : In i order) by (eapply T6; [rewrite Em; reflexivity|exact Ht|exact Hs]).
    rewrite Ec, app_nil_r in T5. apply (Forall2_in_l _ _ _ i T5) in Hi as (x & Hx & t' & Ht' & Hk & _). rewrite Ht in Ht'. injection Ht' as <-.
    rewrite Hk. apply in_map, Hx. }
  rewrite Em in M. cbn in M. destruct M as (chk & recs & (_ & Hlr & _ & -> & _ & Hlen) & Hm).
  assert (Hrc : received tr = recs) by (unfold received; rewrite Hm, received_wmid by exact Hlr; reflexivity). rewrite Hrc in *.
  assert (Hst : started tr = independent wf ++ started_in (reactions wf [] recs)).
  { unfold started. rewrite Hm. unfold wmid, whead. destruct (lets_run_quiet _ _ Hlr) as [_ Hq]. rewrite !started_in_app, Hq, started_spawns. reflexivity. }
  assert (All : forall n k, level k < n -> In k (keys (wf_jobs wf)) -> In k (map fst recs)).
  { induction n as [|n IHn]; intros k Hlk Hk; [lia|].
    destruct (in_dec string_dec k (map fst recs)) as [|Hni]; [assumption|]. exfalso.
    unfold keys in Hk. apply in_map_iff in Hk as ([k' j] & Hkk & Hj). cbn in Hkk. subst k'.
    destruct (jb_depends_on j) as [|d0 ds] eqn:Ed.
    - apply Hni, Sub. rewrite Hst. apply in_or_app. left. apply independent_in. eauto.
    - assert (Hd : forall d, In d (jb_depends_on j) -> In d (map fst recs)).
      { intros d Hd. destruct (Hl k d) as [Hdk Hdl]; [exists j; auto|]. apply IHn; [lia|exact Hdk]. }
      destruct recs as [|x recs' _] using rev_ind; [apply (Hd d0); rewrite Ed; left; reflexivity|].
      apply Hni, Sub. rewrite Hst. apply in_or_app. right. destruct x as [kx rx]. rewrite reactions_app, started_in_app. apply in_or_app. right. cbn [reactions].
      change (OReceive kx rx :: ?x) with ([OReceive kx rx] ++ x). rewrite !started_in_app, started_spawns. apply in_or_app. right. apply in_or_app. left.
      apply eligible_in. exists j. cbn [app]. rewrite map_app in *. split; [exact Hj|]. split; [rewrite Ed; discriminate|]. split; [exact Hd|exact Hni]. }
  apply (Hlen Hne). replace (length (results_of recs)) with (length (keys (results_of recs))) by (unfold keys; apply map_length).
  replace (length (wf_jobs wf)) with (length (keys (wf_jobs wf))) by (unfold keys; apply map_length).
  apply Nat.le_antisymm.
  - apply NoDup_incl_length; [apply results_nodup|]. intros k Hk. apply (proj1 (results_keys _ _)) in Hk. rewrite <- Hrc in Hk.
    apply (received_started _ _ _ _ R) in Hk. destruct (started_is_job _ _ _ _ R Hk) as (j & Hj & _). apply (in_map fst _ _ Hj).
  - apply NoDup_incl_length; [exact Hnd|]. intros k Hk. apply results_keys. eapply All; [apply Nat.lt_succ_diag_r|exact Hk].
Qed.
End P.

(** ** Dependency graphs: acyclic or containing a set that waits for itself *)
Section Graph.
Variable wf : workflow.
Hypothesis Hnd : NoDup (keys (wf_jobs wf)).

Definition can_go (ks : list string) (kj : string * job) : bool := forallb (fun d => memb d ks) (jb_depends_on (snd kj)) && negb (memb (fst kj) ks).
Definition peel (ks : list string) : list string := ks ++ map fst (filter (can_go ks) (wf_jobs wf)).

Lemma peel_incl ks : incl ks (peel ks).
Proof. intros x Hx. apply in_or_app. auto. Qed.
Lemma peel_nodup ks : NoDup ks -> NoDup (peel ks).
Proof.
  intros H. apply NoDup_app; [exact H|apply nodup_map_filter, Hnd|]. intros x Hx C. apply in_map_iff in C as ([k j] & <- & C).
  apply filter_In in C as [_ C]. unfold can_go in C. cbn in C. apply andb_true_iff in C as [_ C]. apply negb_true_iff, memb_false in C. tauto.
Qed.

(** [lvl]: levels are consistent on [ks]: all of [ks] are jobs and their dependencies are in [ks] at lower levels. *)
Definition lvl_ok (level : string -> nat) (b : nat) (ks : list string) : Prop :=
  forall k, In k ks -> level k < b /\ exists j, In (k, j) (wf_jobs wf) /\ forall d, In d (jb_depends_on j) -> In d ks /\ level d < level k.

Lemma peel_level ks level b : lvl_ok level b ks -> exists level', lvl_ok level' (S b) (peel ks).
Proof.
  intros H. exists (fun k => if memb k ks then level k else b). intros k Hk.
  destruct (memb k ks) eqn:Em.
  - apply memb_true in Em. destruct (H k Em) as (Hb & j & Hj & Hd). split; [lia|]. exists j. split; [exact Hj|]. intros d Hdd. destruct (Hd d Hdd) as [D1 D2].
    split; [apply peel_incl, D1|]. apply memb_true in D1. rewrite D1. exact D2.
  - split; [lia|]. unfold peel in Hk. apply in_app_iff in Hk as [Hk|Hk]; [apply memb_true in Hk; congruence|]. apply in_map_iff in Hk as ([k' j] & Ek & Hk). cbn in Ek. subst k'.
    apply filter_In in Hk as [Hj Hc]. unfold can_go in Hc. cbn in Hc. apply andb_true_iff in Hc as [Hc _]. rewrite forallb_forall in Hc.
    exists j. split; [exact Hj|]. intros d Hd. specialize (Hc d Hd). rewrite Hc. apply memb_true in Hc. split; [apply peel_incl, Hc|]. apply H, Hc.
Qed.

Lemma graph_cases_aux n : forall ks level b, NoDup ks -> lvl_ok level b ks -> length (wf_jobs wf) - length ks <= n ->
  acyclic wf \/ exists S, waits_for_itself wf S.
Proof.
  induction n as [|n IH]; intros ks level b Hn Hl Hlen.
  - left. assert (Hall : incl (keys (wf_jobs wf)) ks).
    { apply NoDup_length_incl; [exact Hn|unfold keys; rewrite map_length; lia|]. intros k Hk. destruct (Hl k Hk) as (_ & j & Hj & _). apply (in_map fst _ _ Hj). }
    exists level. intros k d (j & Hj & Hd). destruct (Hl k) as (_ & j' & Hj' & Hd'); [apply Hall, (in_map fst _ _ Hj)|].
    assert (j = j') as <-. { apply (In_lookup _ _ _ Hnd) in Hj, Hj'. congruence. }
    destruct (Hd' d Hd) as [D1 D2]. split; [|exact D2]. destruct (Hl d D1) as (_ & jd & Hjd & _). apply (in_map fst _ _ Hjd).
  - destruct (filter (can_go ks) (wf_jobs wf)) as [|x l] eqn:Ef.
    + destruct (Nat.le_gt_cases (length (wf_jobs wf)) (length ks)) as [Hge|Hlt]; [apply (IH ks level b); auto; lia|].
      right. exists (fun k => In k (keys (wf_jobs wf)) /\ ~ In k ks). split.
      * destruct (existsb (fun k => negb (memb k ks)) (keys (wf_jobs wf))) eqn:Ex.
        -- apply existsb_exists in Ex as (k & Hk & Hm). apply negb_true_iff, memb_false in Hm. exists k. auto.
        -- exfalso. assert (incl (keys (wf_jobs wf)) ks) as Hi.
           { intros k Hk. destruct (memb k ks) eqn:Em; [apply memb_true, Em|]. exfalso.
             assert (existsb (fun k => negb (memb k ks)) (keys (wf_jobs wf)) = true) by (apply existsb_exists; exists k; rewrite Em; auto). congruence. }
           apply (NoDup_incl_length Hnd) in Hi. unfold keys in Hi. rewrite map_length in Hi. lia.
      * intros k [Hk Hnk]. unfold keys in Hk. apply in_map_iff in Hk as ([k' j] & Ek & Hj). cbn in Ek. subst k'.
        assert (Hc : can_go ks (k, j) = false).
        { destruct (can_go ks (k, j)) eqn:Ec; [|reflexivity]. exfalso. assert (C : In (k, j) []) by (rewrite <- Ef; apply filter_In; auto). destruct C. }
        unfold can_go in Hc. cbn in Hc. replace (memb k ks) with false in Hc by (symmetry; apply memb_false, Hnk). rewrite andb_true_r in Hc.
        assert (Hd : exists d, In d (jb_depends_on j) /\ ~ In d ks).
        { induction (jb_depends_on j) as [|d ds IHd]; [discriminate|]. cbn in Hc. apply andb_false_iff in Hc as [Hc|Hc].
          - exists d. split; [left; reflexivity|]. apply memb_false, Hc.
          - destruct (IHd Hc) as (d' & ? & ?). exists d'. split; [right|]; auto. }
        destruct Hd as (d & Hd & Hdn). exists d. split; [exists j; auto|].
        destruct (in_dec string_dec d (keys (wf_jobs wf))); auto.
    + destruct (peel_level _ _ _ Hl) as (level' & Hl'). apply (IH (peel ks) level' (S b)); [apply peel_nodup, Hn|exact Hl'|].
      unfold peel. rewrite app_length, map_length, Ef. cbn. lia.
Qed.

Lemma graph_cases : acyclic wf \/ exists S, waits_for_itself wf S.
Proof. apply (graph_cases_aux (length (wf_jobs wf)) [] (fun _ => 0) 0); [constructor|intros k []|lia]. Qed.
End Graph.
