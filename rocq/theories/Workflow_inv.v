From Verif Require Import Base Types Signals_model Signals_proof Stream_model Cond_model Plugins_model Exec_model Exec_spec
  Step_proof Job_proof Workflow_model Workflow_spec Workflow_proof.

Definition results_of (recs : list (string * job_run_result)) : map_ string job_run_result :=
  fold_left (fun m x => insert (fst x) (snd x) m) recs [].

Lemma results_snoc recs k r : results_of (recs ++ [(k, r)]) = insert k r (results_of recs).
Proof. unfold results_of. rewrite fold_left_snoc. reflexivity. Qed.
Lemma results_keys recs k : In k (keys (results_of recs)) <-> In k (map fst recs).
Proof.
  induction recs as [|[a b] recs IH] using rev_ind; [reflexivity|]. rewrite results_snoc, keys_insert_in, map_app, in_app_iff, IH.
  cbn. intuition.
Qed.
Lemma results_nodup recs : NoDup (keys (results_of recs)).
Proof. induction recs as [|[a b] recs IH] using rev_ind; [constructor|]. rewrite results_snoc. apply NoDup_keys_insert, IH. Qed.
Lemma results_latest recs k r : lookup k (results_of recs) = Some r <-> latest recs k r.
Proof.
  induction recs as [|[a b] recs IH] using rev_ind.
  { split; [discriminate|]. intros ([|? ?] & ? & C & _); discriminate C. }
  rewrite results_snoc. destruct (string_dec k a) as [->|Hne].
  - rewrite lookup_insert_eq. split.
    + intros [= ->]. exists recs, []. auto.
    + intros (b1 & b2 & E & Hn). destruct b2 as [|x b2 _] using rev_ind.
      * apply app_inj_tail in E as [_ E]. congruence.
      * rewrite app_comm_cons, app_assoc in E. apply app_inj_tail in E as [_ <-]. exfalso. apply Hn.
        rewrite map_app. apply in_or_app; right; left; reflexivity.
  - rewrite lookup_insert_ne, IH by exact Hne. split.
    + intros (b1 & b2 & -> & Hn). exists b1, (b2 ++ [(a, b)]). rewrite <- app_assoc. split; [reflexivity|].
      rewrite map_app, in_app_iff. cbn. intuition.
    + intros (b1 & b2 & E & Hn). destruct b2 as [|x b2 _] using rev_ind.
      * apply app_inj_tail in E as [_ E]. congruence.
      * rewrite app_comm_cons, app_assoc in E. apply app_inj_tail in E as [-> <-]. exists b1, b2. split; [reflexivity|].
        intros C. apply Hn. rewrite map_app. apply in_or_app; auto.
Qed.

Lemma filter_app' {A} (f : A -> bool) a b : filter f (a ++ b) = filter f a ++ filter f b.
Proof. induction a as [|x a IH]; cbn; auto. destruct (f x); cbn; congruence. Qed.
Lemma filter_ext_in' {A} (f g : A -> bool) l : (forall x, In x l -> f x = g x) -> filter f l = filter g l.
Proof. induction l as [|x l IH]; cbn; auto. intros H. rewrite (H x), IH; auto. Qed.

Lemma nodup_same_length {A} (l l' : list A) : NoDup l -> incl l l' -> length l' <= length l -> incl l' l.
Proof. intros. apply NoDup_length_incl; auto. Qed.

Lemma Forall2_snoc_inv_r {A B} (R : A -> B -> Prop) l l' x : Forall2 R l (l' ++ [x]) -> exists a l0, l = l0 ++ [a] /\ Forall2 R l0 l' /\ R a x.
Proof.
  intros H. apply Forall2_app_inv_r in H as (l1 & l2 & H1 & H2 & ->). inv H2. inv H5. eauto.
Qed.

Section P.
Variable glob : glob_oracle.
Variable cx : ectx.
Variable wf : workflow.
Hypothesis Hnd : NoDup (keys (wf_jobs wf)).
Notation wstep := (wstep glob cx wf).
Notation wrun := (wrun glob cx wf).

Definition waiting_of (ks : list string) : list (string * job) :=
  filter (fun kj => has_deps (snd kj) && negb (memb (fst kj) ks)) (wf_jobs wf).
Definition missing_in (l : list (string * job)) : bool := existsb (fun kj => has_missing_dep wf (snd kj)) l.
Definition ws_of (recs : list (string * job_run_result)) : wf_state :=
  fold_left (fun w x => ws_after w (snd x)) recs (if missing_in (wf_jobs wf) then Failed else InProgress).

Lemma has_missing_has_deps j : has_missing_dep wf j = true -> has_deps j = true.
Proof. unfold has_missing_dep, has_deps. destruct (jb_depends_on j); [discriminate|reflexivity]. Qed.

Lemma waiting_snoc ks k : filter (fun kj => negb (eqb (fst kj) k)) (waiting_of ks) = waiting_of (ks ++ [k]).
Proof.
  unfold waiting_of. rewrite filter_filter. apply filter_ext_in'. intros [a j] _. cbn.
  rewrite <- andb_assoc. f_equal. rewrite <- negb_orb. f_equal.
  destruct (memb a (ks ++ [k])) eqn:E.
  - apply memb_true in E. apply in_app_iff in E as [E|[<-|[]]]; [apply memb_true in E; rewrite E; reflexivity|].
    rewrite eqb_refl, orb_true_r. reflexivity.
  - apply memb_false in E. rewrite in_app_iff in E. apply orb_false_iff. split; [apply memb_false; tauto|].
    apply eqb_false. intros ->. apply E. right; left; reflexivity.
Qed.

Lemma eligible_waiting recs :
  eligible wf (map fst recs) = map fst (filter (fun kj => ready (results_of recs) (snd kj)) (waiting_of (map fst recs))).
Proof.
  unfold eligible, waiting_of. rewrite filter_filter. f_equal. apply filter_ext_in'. intros [a j] _. cbn.
  assert (H : forall l, forallb (fun d => contains_key d (results_of recs)) l = forallb (fun d => memb d (map fst recs)) l).
  { induction l as [|x l IH]; [reflexivity|]. cbn. rewrite IH. f_equal.
    destruct (contains_key x (results_of recs)) eqn:E.
    - apply contains_key_true in E. apply (proj1 (results_keys recs x)), memb_true in E. rewrite E. reflexivity.
    - apply contains_key_false in E. symmetry. apply memb_false. rewrite <- results_keys. exact E. }
  unfold ready, has_deps. destruct (jb_depends_on j) as [|d ds] eqn:Ed; [reflexivity|]. rewrite H.
  cbn [andb]. rewrite andb_comm. reflexivity.
Qed.

Lemma independent_alt : independent wf = map fst (filter (fun kj => negb (has_deps (snd kj))) (wf_jobs wf)).
Proof. unfold independent. f_equal. apply filter_ext_in'. intros [a j] _. unfold has_deps. cbn. destruct (jb_depends_on j); reflexivity. Qed.

Lemma waiting_nil : filter (fun kj => has_deps (snd kj)) (wf_jobs wf) = waiting_of [].
Proof. unfold waiting_of. apply filter_ext_in'. intros x _. cbn. rewrite andb_true_r. reflexivity. Qed.

Definition ev_run_wf : obs := OHook (HRunWorkflow (RunEvent wf (cm_event (cx_matcher cx)) (cx_payload cx))).
Definition whead (chk : list obs) : list obs := chk ++ [ev_run_wf; wf_state_event wf InProgress].
Definition wmid (chk : list obs) (recs : list (string * job_run_result)) : list obs :=
  whead chk ++ map OSpawn (independent wf) ++ reactions wf [] recs.

Definition loop_inv (t0 now : time) (ws : wf_state) (waiting : list (string * job)) (results : map_ string job_run_result)
  (chk : list obs) (recs : list (string * job_run_result)) : Prop :=
  (t0 <= now)%N /\ lets_run (wf_on wf) chk /\ waiting = waiting_of (map fst recs) /\ results = results_of recs /\ ws = ws_of recs /\
  (wf_jobs wf <> [] -> length results <> length (wf_jobs wf)).

Definition all_received (recs : list (string * job_run_result)) : Prop :=
  forall k, In k (map fst recs) <-> In k (keys (wf_jobs wf)).

Definition end_inv (r : workflow_run_result) (now : time) (chk : list obs) (recs : list (string * job_run_result)) : Prop :=
  exists t0 t1 s, (t0 <= t1)%N /\ (t1 <= now)%N /\ lets_run (wf_on wf) chk /\ all_received recs /\
    recs <> [] /\ wf_final_state recs s /\ r = WorkflowRunResult (wf_id wf) s (Some t0) (Some t1) (results_of recs).

Definition minv (now : time) (p : wphase) (m : list obs) : Prop :=
  match p with
  | WpCheck => m = []
  | WpFetch c ev => wf_on wf = Some c /\ m = []
  | WpSkip => exists c, wf_on wf = Some c /\ m = [OMatch c false]
  | WpStart => lets_run (wf_on wf) m
  | WpRunEvent t0 => (t0 <= now)%N /\ lets_run (wf_on wf) m
  | WpInProgress t0 => (t0 <= now)%N /\ exists chk, lets_run (wf_on wf) chk /\ m = chk ++ [ev_run_wf]
  | WpSpawn t0 ws waiting rest => (t0 <= now)%N /\
      exists chk done, lets_run (wf_on wf) chk /\ wf_jobs wf = done ++ rest /\
        waiting = filter (fun kj => has_deps (snd kj)) done /\ ws = (if missing_in done then Failed else InProgress) /\
        m = whead chk ++ map OSpawn (map fst (filter (fun kj => negb (has_deps (snd kj))) done))
  | WpLoop t0 ws waiting results => exists chk recs, loop_inv t0 now ws waiting results chk recs /\ m = wmid chk recs
  | WpScan t0 ws waiting results todo =>
      exists chk recs k r done, loop_inv t0 now ws waiting results chk (recs ++ [(k, r)]) /\ waiting = done ++ todo /\
        m = wmid chk recs ++ OReceive k r :: map OSpawn (map fst (filter (fun kj => ready results (snd kj)) done))
  | WpBroken t0 ws results => exists chk recs, (t0 <= now)%N /\ lets_run (wf_on wf) chk /\ all_received recs /\ recs <> [] /\
      wf_final_state recs ws /\ results = results_of recs /\ m = wmid chk recs
  | WpEndState r => exists chk recs, end_inv r now chk recs /\ m = wmid chk recs
  | WpEndDone r => exists chk recs, end_inv r now chk recs /\ m = wmid chk recs ++ [wf_state_event wf (wr_state r)]
  | WpDone r => (exists c, wf_on wf = Some c /\ m = [OMatch c false; wf_state_event wf Skipped] /\
                   r = WorkflowRunResult (wf_id wf) Skipped None None []) \/
      exists chk recs, end_inv r now chk recs /\
        m = wmid chk recs ++ [wf_state_event wf (wr_state r); OHook (HWorkflowCompleted r)]
  end.

Definition is_done (p : wphase) : bool := match p with WpDone _ => true | _ => false end.

Definition delivered (ts : list wtask) (i : nat) (x : string * job_run_result) : Prop :=
  exists t, nth_error ts i = Some t /\ tk_key t = fst x /\ tk_phase t = JpReturned (snd x) /\ tk_sent t = true.

Record tinv (s : wstate) (tr : trace) : Prop := {
  ti_keys : map tk_key (ws_tasks s) = started tr;
  ti_job : forall t, In t (ws_tasks s) -> In (tk_key t, tk_job t) (wf_jobs wf);
  ti_deps : forall t d, In t (ws_tasks s) -> In d (jb_depends_on (tk_job t)) -> In d (map fst (received tr));
  ti_order : exists order, NoDup order /\ Forall2 (delivered (ws_tasks s)) order (received tr ++ ws_chan s) /\
      (is_done (ws_main s) = false -> forall i t, nth_error (ws_tasks s) i = Some t -> tk_sent t = true -> In i order)
}.

(** *** Facts about the events of the main task *)
Lemma lets_run_quiet on chk : lets_run on chk -> received_in chk = [] /\ started_in chk = [].
Proof. unfold lets_run. destruct on; intros ->; split; reflexivity. Qed.
Lemma received_wmid chk recs : lets_run (wf_on wf) chk -> received_in (wmid chk recs) = recs.
Proof.
  intros H. apply lets_run_quiet in H as [H _]. unfold wmid, whead.
  rewrite !received_in_app, H, received_spawns, received_reactions. reflexivity.
Qed.

Lemma wmid_snoc chk recs k r : wmid chk (recs ++ [(k, r)]) =
  wmid chk recs ++ OReceive k r :: map OSpawn (eligible wf (map fst (recs ++ [(k, r)]))).
Proof.
  unfold wmid. rewrite reactions_app, map_app. cbn. rewrite app_nil_r, <- !app_assoc. reflexivity.
Qed.

Lemma ws_of_snoc recs k r : ws_of (recs ++ [(k, r)]) = ws_after (ws_of recs) r.
Proof. unfold ws_of. rewrite fold_left_snoc. reflexivity. Qed.

Lemma ws_of_final recs : missing_in (wf_jobs wf) = false -> recs <> [] ->
  wf_final_state recs (match ws_of recs with InProgress => Succeeded | _ => ws_of recs end).
Proof.
  intros Hm _. assert (H : (ws_of recs = InProgress /\ forall x, In x recs -> ~ (jr_state (snd x) = Failed \/ jr_state (snd x) = Cancelled)) \/
    exists before x after, recs = before ++ x :: after /\ (jr_state (snd x) = Failed \/ jr_state (snd x) = Cancelled) /\
      (forall y, In y after -> ~ (jr_state (snd y) = Failed \/ jr_state (snd y) = Cancelled)) /\ ws_of recs = jr_state (snd x)).
  { induction recs as [|[k r] recs IH] using rev_ind.
    - left. unfold ws_of. rewrite Hm. split; [reflexivity|intros x []].
    - rewrite ws_of_snoc. assert (D : (ws_after (ws_of recs) r = jr_state r /\ (jr_state r = Failed \/ jr_state r = Cancelled)) \/
        (ws_after (ws_of recs) r = ws_of recs /\ ~ (jr_state r = Failed \/ jr_state r = Cancelled))).
      { unfold ws_after. destruct (jr_state r); intuition discriminate. }
      destruct D as [[D1 D2]|[D1 D2]].
      + right. exists recs, (k, r), []. repeat split; auto.
      + destruct IH as [[I1 I2]|(b & x & a & -> & I1 & I2 & I3)].
        * left. split; [congruence|]. intros x Hx. apply in_app_iff in Hx as [Hx|[<-|[]]]; auto.
        * right. exists b, x, (a ++ [(k, r)]). rewrite <- app_assoc. repeat split; auto; [|congruence].
          intros y Hy. apply in_app_iff in Hy as [Hy|[<-|[]]]; auto. }
  destruct H as [[-> H]|(b & x & a & E & H1 & H2 & ->)]; [left; auto|].
  right. exists b, x, a. repeat split; auto. destruct H1 as [-> | ->]; reflexivity.
Qed.

Lemma started_app a b : started (a ++ b) = started a ++ started b.
Proof. unfold started. rewrite events_of_app, started_in_app. reflexivity. Qed.
Lemma received_app a b : received (a ++ b) = received a ++ received b.
Proof. unfold received. rewrite events_of_app, received_in_app. reflexivity. Qed.

Lemma job_unique k j j' : In (k, j) (wf_jobs wf) -> In (k, j') (wf_jobs wf) -> j = j'.
Proof. intros H H'. apply (In_lookup _ _ _ Hnd) in H, H'. congruence. Qed.

(** *** The main task *)
Lemma main_inv s s' o tr : minv (sh_now (ws_sh s)) (ws_main s) (events_of None tr) -> tinv s tr ->
  main_step glob cx wf s = Some (s', o) -> minv (sh_now (ws_sh s')) (ws_main s') (events_of None (tr ++ o)).
Proof.
  intros M T E. rewrite (main_sh _ _ _ _ _ _ E), events_of_app. set (m := events_of None tr) in *.
  assert (Hm : received_in m = received tr) by reflexivity. clearbody m. destruct s as [sh p ts ch]. unfold main_step in E. cbn [ws_main ws_sh ws_tasks ws_chan] in *.
  destruct p as [|c ev| | |t0|t0|t0 w wa rest|t0 w wa rs|t0 w wa rs todo|t0 w rs|r|r|r]; cbn [minv] in M; try discriminate.
  - subst m. destruct (wf_on wf) as [c|] eqn:Eo; [destruct (is_match_first _ _ _ _) as [b|ev] eqn:Ei|]; injection E as <- <-; cbn.
    + destruct b; cbn; unfold lets_run; rewrite Eo; eauto.
    + auto.
    + unfold lets_run. rewrite Eo. reflexivity.
  - injection E as <- <-. destruct M as (c & Hc & ->). left. exists c. auto.
  - injection E as <- <-. cbn. rewrite app_nil_r. split; [lia|exact M].
  - injection E as <- <-. cbn. destruct M as (Ht & M). split; [exact Ht|]. exists m. auto.
  - injection E as <- <-. cbn. destruct M as (Ht & chk & Hc & ->). split; [exact Ht|]. exists chk, []. repeat split; auto.
    unfold whead. cbn. rewrite <- app_assoc, app_nil_r. reflexivity.
  - destruct M as (Ht & chk & dn & Hc & Hj & -> & -> & ->). destruct rest as [|[k j] rest].
    + injection E as <- <-. cbn. rewrite app_nil_r in *. rewrite <- Hj in *. exists chk, []. split; [|unfold wmid; rewrite independent_alt, app_nil_r; reflexivity].
      repeat split; auto; [apply waiting_nil|]. cbn. destruct (wf_jobs wf); [congruence|discriminate].
    + destruct (has_deps j) eqn:Ed; injection E as <- <-; cbn.
      * split; [exact Ht|]. exists chk, (dn ++ [(k, j)]). split; [exact Hc|]. rewrite <- app_assoc. split; [exact Hj|].
        rewrite !filter_app'. cbn. rewrite Ed. cbn. rewrite !app_nil_r. repeat split.
        unfold missing_in. rewrite existsb_app. cbn. rewrite orb_false_r. destruct (existsb _ dn), (has_missing_dep wf j); reflexivity.
      * split; [exact Ht|]. exists chk, (dn ++ [(k, j)]). split; [exact Hc|]. rewrite <- app_assoc. split; [exact Hj|].
        rewrite !filter_app'. cbn. rewrite Ed. cbn. rewrite !app_nil_r, !map_app, app_assoc. repeat split.
        unfold missing_in. rewrite existsb_app. cbn. rewrite orb_false_r. destruct (has_missing_dep wf j) eqn:Em; [|rewrite orb_false_r; reflexivity].
        apply has_missing_has_deps in Em. congruence.
  - destruct M as (chk & recs & (Ht & Hc & -> & -> & -> & Hl) & ->). destruct ch as [|[k r] ch]; [discriminate|].
    injection E as <- <-. cbn [ws_main]. rewrite <- results_snoc, waiting_snoc.
    change [k] with (map fst [(k, r)]). rewrite <- map_app. rewrite <- (ws_of_snoc recs k r).
    change (events_of None [(None, OReceive k r)]) with [OReceive k r].
    destruct (Nat.eqb (length (results_of (recs ++ [(k, r)]))) (length (wf_jobs wf))) eqn:El.
    + apply Nat.eqb_eq in El. cbn [minv]. exists chk, (recs ++ [(k, r)]).
      rewrite received_wmid in Hm by exact Hc. destruct T as [_ Tj Td (order & _ & To & _)].
      rewrite <- Hm in To. cbn [ws_chan ws_tasks] in *.
      assert (Hin : forall x, In x (recs ++ [(k, r)]) -> exists t, In t ts /\ tk_key t = fst x).
      { intros x Hx. change (recs ++ (k, r) :: ch) with (recs ++ [(k, r)] ++ ch) in To. rewrite app_assoc in To.
        apply Forall2_app_inv_r in To as (o1 & o2 & To & _ & _). clear -To Hx.
        induction To as [|i y l l' (t & Ht & Hk & _) To IH]; [destruct Hx|]. destruct Hx as [<-|Hx]; [|auto].
        apply nth_error_In in Ht. eauto. }
      assert (All : all_received (recs ++ [(k, r)])).
      { intros x. split.
        - intros Hx. apply in_map_iff in Hx as (y & <- & Hy). destruct (Hin y Hy) as (t & Hi & <-). apply Tj in Hi.
          apply (in_map fst) in Hi. exact Hi.
        - intros Hx. rewrite <- results_keys. revert x Hx. apply nodup_same_length; [apply results_nodup| |].
          + intros x Hx. apply (proj1 (results_keys _ x)), in_map_iff in Hx as (y & <- & Hy). destruct (Hin y Hy) as (t & Hi & <-). apply Tj in Hi.
            apply (in_map fst) in Hi. exact Hi.
          + unfold keys. rewrite !map_length, El. reflexivity. }
      split; [exact Ht|]. split; [exact Hc|]. split; [exact All|]. split; [intros C; destruct recs; discriminate C|].
      split; [|split; [reflexivity|]].
      * apply ws_of_final; [|intros C; destruct recs; discriminate C].
        destruct (missing_in (wf_jobs wf)) eqn:Em; [|reflexivity]. exfalso.
        apply existsb_exists in Em as ([a j] & Ha & Em). cbn in Em.
        assert (Hk : In a (map fst (recs ++ [(k, r)]))) by (apply All, (in_map fst _ _ Ha)).
        apply in_map_iff in Hk as (y & Hya & Hy). destruct (Hin y Hy) as (t & Hi & Hk).
        assert (tk_job t = j) as Hj.
        { eapply job_unique; [apply Tj, Hi|]. rewrite Hk, Hya. exact Ha. }
        unfold has_missing_dep in Em. apply existsb_exists in Em as (d & Hd & Em). apply negb_true_iff, contains_key_false in Em.
        apply Em, All. rewrite map_app. apply in_or_app. left. rewrite Hm. eapply Td; [exact Hi|]. rewrite Hj. exact Hd.
      * rewrite wmid_snoc. f_equal. f_equal. rewrite eligible_waiting. replace (waiting_of _) with (@nil (string * job)); [reflexivity|].
        symmetry. apply filter_nil. intros x Hx. apply andb_false_iff. right. apply negb_false_iff, memb_true, All. apply (in_map fst _ _ Hx).
    + apply Nat.eqb_neq in El. cbn [minv]. exists chk, recs, k, r, []. repeat split; auto.
  - destruct M as (chk & recs & k0 & r0 & dn & (Ht & Hc & -> & -> & -> & Hl) & Hw & ->). destruct todo as [|[k j] todo].
    + injection E as <- <-. cbn. rewrite app_nil_r in *. exists chk, (recs ++ [(k0, r0)]). split; [repeat split; auto|].
      rewrite wmid_snoc, eligible_waiting, <- Hw. reflexivity.
    + destruct (ready (results_of (recs ++ [(k0, r0)])) j) eqn:Er; injection E as <- <-; cbn [minv ws_main spawn set_main fst snd].
      * exists chk, recs, k0, r0, (dn ++ [(k, j)]). split; [repeat split; auto|]. split; [rewrite <- app_assoc; exact Hw|].
        rewrite filter_app'. cbn. rewrite Er, !map_app, <- app_assoc. reflexivity.
      * exists chk, recs, k0, r0, (dn ++ [(k, j)]). split; [repeat split; auto|]. split; [rewrite <- app_assoc; exact Hw|].
        rewrite filter_app'. cbn. rewrite Er, !app_nil_r. reflexivity.
  - injection E as <- <-. cbn. rewrite app_nil_r. destruct M as (chk & recs & Ht & Hc & Ha & Hn & Hf & -> & ->).
    exists chk, recs. split; [|reflexivity]. exists t0, (sh_now sh), w. repeat split; auto; try lia; apply Ha.
  - injection E as <- <-. cbn. destruct M as (chk & recs & Hr & ->). exists chk, recs. split; [exact Hr|].
    destruct Hr as (? & ? & ? & _ & _ & _ & _ & _ & _ & ->). reflexivity.
  - injection E as <- <-. cbn. destruct M as (chk & recs & Hr & ->). right. exists chk, recs. split; [exact Hr|].
    rewrite <- app_assoc. reflexivity.
Qed.

Lemma minv_now now now' p m : (now <= now')%N -> minv now p m -> minv now' p m.
Proof.
  intros H. destruct p as [|c ev| | |t0|t0|t0 w wa rest|t0 w wa rs|t0 w wa rs todo|t0 w rs|r|r|r]; cbn; auto.
  - intros [? ?]; split; [lia|auto].
  - intros [? ?]; split; [lia|auto].
  - intros [? ?]; split; [lia|auto].
  - intros (chk & recs & (Ht & Hr) & Hm). exists chk, recs. split; [split; [lia|exact Hr]|exact Hm].
  - intros (chk & recs & k & r & dn & (Ht & Hr) & Hm). exists chk, recs, k, r, dn. split; [split; [lia|exact Hr]|exact Hm].
  - intros (chk & recs & Ht & Hr). exists chk, recs. split; [lia|exact Hr].
  - intros (chk & recs & (t0 & t1 & x & Ha & Hb & Hr) & Hm). exists chk, recs. split; [|exact Hm]. exists t0, t1, x. split; [exact Ha|split; [lia|exact Hr]].
  - intros (chk & recs & (t0 & t1 & x & Ha & Hb & Hr) & Hm). exists chk, recs. split; [|exact Hm]. exists t0, t1, x. split; [exact Ha|split; [lia|exact Hr]].
  - intros [Hs|(chk & recs & (t0 & t1 & x & Ha & Hb & Hr) & Hm)]; [left; exact Hs|]. right. exists chk, recs. split; [|exact Hm].
    exists t0, t1, x. split; [exact Ha|split; [lia|exact Hr]].
Qed.

Lemma delivered_mono ts ts' i x : (forall t, nth_error ts i = Some t -> tk_sent t = true -> nth_error ts' i = Some t) ->
  delivered ts i x -> delivered ts' i x.
Proof. intros H (t & Ht & Hk & Hp & Hs). exists t. auto. Qed.
Lemma Forall2_imp {A B} (R R' : A -> B -> Prop) l l' : (forall x y, R x y -> R' x y) -> Forall2 R l l' -> Forall2 R' l l'.
Proof. induction 2; constructor; auto. Qed.

Lemma main_tinv s s' o tr : minv (sh_now (ws_sh s)) (ws_main s) (events_of None tr) -> tinv s tr ->
  main_step glob cx wf s = Some (s', o) -> tinv s' (tr ++ o).
Proof.
  intros M T E. assert (Hspawn := main_tasks _ _ _ _ _ _ E). destruct Hspawn as [[Et Es]|(kj & Et & -> & Ech & Hwhy)].
  - destruct T as [T1 T2 T3 (order & T4 & T5 & T6)].
    assert (Hch : received (tr ++ o) ++ ws_chan s' = received tr ++ ws_chan s).
    { rewrite received_app. clear -E. unfold main_step in E.
      destruct (ws_main s) as [|c ev| | |t0|t0|t0 w wa [|[k j] rest]|t0 w wa rs|t0 w wa rs [|[k j] todo]|t0 w rs|r|r|r] eqn:Em; try discriminate;
        try (injection E as <- <-; cbn; rewrite app_nil_r; reflexivity).
      - destruct (wf_on wf) as [c|]; [destruct (is_match_first _ _ _ _)|]; injection E as <- <-; cbn; rewrite app_nil_r; reflexivity.
      - destruct (has_deps j); injection E as <- <-; cbn; rewrite app_nil_r; reflexivity.
      - destruct (ws_chan s) as [|[k r] ch]; [discriminate|]. injection E as <- <-. cbn. rewrite <- app_assoc. reflexivity.
      - destruct (ready rs j); injection E as <- <-; cbn; rewrite app_nil_r; reflexivity. }
    constructor.
    + rewrite Et, started_app, T1. change (started o) with (started_in (events_of None o)). rewrite Es, app_nil_r. reflexivity.
    + rewrite Et. exact T2.
    + rewrite Et. intros t d Ht Hd. rewrite received_app, map_app. apply in_or_app. left. eauto.
    + exists order. rewrite Hch, Et. repeat split; auto. intros _. apply T6.
      destruct (is_done (ws_main s)) eqn:Ed; [|reflexivity]. unfold main_step in E. destruct (ws_main s); discriminate.
  - assert (Hin : In kj (wf_jobs wf) /\ forall d, In d (jb_depends_on (snd kj)) -> In d (map fst (received tr))).
    { destruct Hwhy as [(t0 & w & wa & rest & Em & Hd)|(t0 & w & wa & rs & todo & Em & Hr)]; rewrite Em in M; cbn [minv] in M.
      - destruct M as (_ & chk & dn & _ & -> & _). split; [apply in_or_app; right; left; reflexivity|].
        unfold has_deps in Hd. destruct (jb_depends_on (snd kj)); [intros d []|discriminate].
      - destruct M as (chk & recs & k & r & dn & (_ & Hc & Hwa & -> & _) & Hw & Hm). split.
        + assert (H : In kj wa) by (rewrite Hw; apply in_or_app; right; left; reflexivity). rewrite Hwa in H. apply filter_In in H. tauto.
        + intros d Hd. unfold ready in Hr. apply andb_true_iff in Hr as [_ Hr]. rewrite forallb_forall in Hr. apply Hr, contains_key_true, (proj1 (results_keys _ _)) in Hd.
          unfold received. rewrite Hm, received_in_app, received_wmid by exact Hc.
          change (OReceive k r :: ?x) with ([OReceive k r] ++ x). rewrite received_in_app, received_spawns. exact Hd. }
    destruct Hin as [Hin Hdep]. destruct T as [T1 T2 T3 (order & T4 & T5 & T6)].
    assert (Hrec : received (tr ++ [(None, OSpawn (fst kj))]) = received tr) by (rewrite received_app; cbn; apply app_nil_r).
    constructor.
    + rewrite Et, map_app, started_app, T1. reflexivity.
    + rewrite Et. intros t Ht. apply in_app_iff in Ht as [Ht|[<-|[]]]; [auto|]. destruct kj; exact Hin.
    + rewrite Et, Hrec. intros t d Ht Hd. apply in_app_iff in Ht as [Ht|[<-|[]]]; [eauto|]. apply Hdep, Hd.
    + exists order. rewrite Hrec, Ech, Et. repeat split; auto.
      * eapply Forall2_imp; [|exact T5]. intros i x. apply delivered_mono. intros t Ht _. rewrite nth_error_app1; [exact Ht|]. apply nth_error_Some. congruence.
      * intros _ i t Ht Hs. destruct (Nat.lt_ge_cases i (length (ws_tasks s))) as [Hlt|Hge].
        -- rewrite nth_error_app1 in Ht by exact Hlt. apply (T6) with (t := t); auto.
           destruct (is_done (ws_main s)) eqn:Ed; [|reflexivity]. unfold main_step in E. destruct (ws_main s); discriminate.
        -- rewrite nth_error_app2 in Ht by exact Hge. destruct (i - length (ws_tasks s)) as [|n]; [|destruct n; discriminate Ht].
           cbn in Ht. injection Ht as <-. discriminate Hs.
Qed.

(** *** The whole *)
Lemma winv wls s tr : wrun wls s tr -> minv (sh_now (ws_sh s)) (ws_main s) (events_of None tr) /\ tinv s tr.
Proof.
  intros R. assert (JR := R). revert JR. induction R as [sh|wls s tr op s' o R IH E]; intros JR.
  { split; [reflexivity|]. constructor; [reflexivity|intros t []|intros t d []|]. exists []. repeat split; [constructor|constructor|].
    intros _ [|i] t C; discriminate C. }
  specialize (IH R). destruct IH as [M T].
  destruct op as [|gh|i op|i|e]; cbn [Workflow_model.wstep] in E.
  - split; [eapply main_inv; eauto|eapply main_tinv; eauto].
  - destruct (ws_main s) eqn:Em; try discriminate. destruct (is_match_second _ _ _ _) as [cache' b]. injection E as <- <-. cbn [minv] in M.
    destruct M as [Ho Hm]. cbn [ws_sh ws_main]. split.
    + rewrite events_of_app, Hm. destruct b; cbn; unfold lets_run; [rewrite Ho; reflexivity|eauto].
    + destruct T as [T1 T2 T3 (order & T4 & T5 & T6)]. constructor; cbn [ws_tasks ws_main ws_chan].
      * rewrite started_app. cbn. rewrite app_nil_r. exact T1.
      * exact T2.
      * intros t d Ht Hd. rewrite received_app. cbn. rewrite app_nil_r. eauto.
      * exists order. rewrite received_app. cbn. rewrite app_nil_r. repeat split; auto. intros _. apply T6. rewrite Em. reflexivity.
  - destruct (nth_error (ws_tasks s) i) as [t|] eqn:Ei; [|discriminate].
    destruct (job_step glob cx (S i) (tk_job t) (ws_sh s) (tk_phase t) op) as [[[sh' p'] ob]|] eqn:Ej; [|discriminate]. injection E as <- <-.
    assert (Hnone : events_of None (map (fun x => (Some i, x)) ob) = []) by (apply events_of_map_other; discriminate).
    assert (Hnow : sh_now sh' = sh_now (ws_sh s)).
    { destruct (tasks_run_inv _ _ _ _ _ _ R) as [TR _]. destruct (TR i t Ei) as (jls & J & _).
      clear -Ej. unfold job_step in Ej.
      destruct (tk_phase t) as [|c ev| | |t0|t0|t0|t0 js rs rest|t0 js rs st rest c ev|t0 js rs st rest|t0 js rs sp rest|r|r|r|r];
      destruct op as [|gh|sop]; try discriminate Ej; try (destruct rest; discriminate Ej); try (injection Ej as <- <- <-; reflexivity).
      - destruct (jb_on _); [destruct (is_match_first _ _ _ _)|]; injection Ej as <- <- <-; reflexivity.
      - destruct (is_match_second _ _ _ _); injection Ej as <- <- <-; reflexivity.
      - destruct rest as [|st rest]; [|destruct (forced_skip js st); [|destruct (st_on st); [destruct (is_match_first _ _ _ _)|]]]; injection Ej as <- <- <-; reflexivity.
      - destruct (is_match_second _ _ _ _); injection Ej as <- <- <-; reflexivity.
      - destruct sp; try discriminate Ej; injection Ej as <- <- <-; reflexivity.
      - destruct sp; discriminate Ej.
      - assert (E' : match step_step cx (S i) (ws_sh s) sp sop with
             | Some (sh'0, sp', o) => Some (sh'0, JpStepRun t0 js rs sp' rest, o) | None => None end = Some (sh', p', ob))
          by (destruct sp; exact Ej). clear Ej.
        destruct (step_step cx (S i) (ws_sh s) sp sop) as [[[sh1 sp1] o1]|] eqn:Es; [|discriminate]. injection E' as <- <- <-.
        eapply step_now; eauto. }
    cbn [ws_sh ws_main]. rewrite Hnow, events_of_app, Hnone, app_nil_r. split; [exact M|].
    destruct T as [T1 T2 T3 (order & T4 & T5 & T6)]. constructor; cbn [ws_tasks ws_main ws_chan].
    + rewrite started_app. unfold started at 2. rewrite Hnone, app_nil_r, (map_list_set tk_key _ _ t) by (auto; reflexivity). exact T1.
    + intros x Hx. apply in_list_set in Hx as [->|Hx]; [apply nth_error_In in Ei; apply (T2 t Ei)|auto].
    + intros x d Hx Hd. rewrite received_app. unfold received at 2. rewrite Hnone, app_nil_r.
      apply in_list_set in Hx as [->|Hx]; [apply nth_error_In in Ei; apply (T3 t d Ei Hd)|eauto].
    + exists order. rewrite received_app. unfold received at 2. rewrite Hnone, app_nil_r. repeat split; auto.
      * eapply Forall2_imp; [|exact T5]. intros k x (t' & Ht & Hk & Hp & Hs). exists t'. repeat split; auto.
        rewrite list_set_ne; [exact Ht|]. intros ->. rewrite Ht in Ei. injection Ei as ->. rewrite Hp in Ej. destruct op; discriminate Ej.
      * intros Hd k t' Ht Hs. destruct (Nat.eq_dec k i) as [->|Hne]; [|rewrite list_set_ne in Ht by exact Hne; eauto].
        erewrite list_set_eq in Ht by exact Ei. injection Ht as <-. eapply T6; eauto.
  - destruct (nth_error (ws_tasks s) i) as [[key j p sent]|] eqn:Ei; [|discriminate]. destruct p as [| | | | | | | | | | | | | |r]; try discriminate.
    destruct sent; [discriminate|].
    assert (Et : ws_tasks s' = list_set i (WTask key j (JpReturned r) true) (ws_tasks s) /\ ws_sh s' = ws_sh s /\ ws_main s' = ws_main s /\ o = [] /\
      (ws_chan s' = ws_chan s ++ [(key, r)] \/ (ws_chan s' = ws_chan s /\ is_done (ws_main s) = true))).
    { destruct (ws_main s) eqn:Em; try (destruct (Nat.ltb _ _); [|discriminate E]); injection E as <- <-; cbn; rewrite ?Em; repeat split; auto. }
    destruct Et as (Et & -> & Em' & -> & Hch). rewrite app_nil_r. split; [rewrite Em'; exact M|].
    destruct T as [T1 T2 T3 (order & T4 & T5 & T6)].
    assert (Hni : ~ In i order).
    { intros Hi. clear -Hi T5 Ei. induction T5 as [|k x l l' (t & Ht & _ & _ & Hs) T5 IH]; [destruct Hi|]. destruct Hi as [->|Hi]; [|auto].
      rewrite Ht in Ei. injection Ei as ->. discriminate Hs. }
    assert (T5' : Forall2 (delivered (ws_tasks s')) order (received tr ++ ws_chan s)).
    { eapply Forall2_imp; [|exact T5]. intros k x (t' & Ht & Hk & Hp & Hs). exists t'. repeat split; auto. rewrite Et.
      rewrite list_set_ne; [exact Ht|]. intros ->. rewrite Ht in Ei. injection Ei as ->. discriminate Hs. }
    constructor.
    + erewrite Et, map_list_set; [exact T1|exact Ei|reflexivity].
    + intros x Hx. rewrite Et in Hx. apply in_list_set in Hx as [->|Hx]; [apply nth_error_In in Ei; apply (T2 _ Ei)|auto].
    + intros x d Hx Hd. rewrite Et in Hx. apply in_list_set in Hx as [->|Hx]; [apply nth_error_In in Ei; apply (T3 _ d Ei Hd)|eauto].
    + destruct Hch as [Hch|[Hch Hd]].
      * exists (order ++ [i]). rewrite Hch, app_assoc. repeat split.
        -- rewrite <- rev_involutive, rev_app_distr. apply NoDup_rev. cbn. constructor; [rewrite <- in_rev; exact Hni|apply NoDup_rev, T4].
        -- apply Forall2_app; [exact T5'|]. constructor; [|constructor]. eexists. rewrite Et. split; [eapply list_set_eq; exact Ei|auto].
        -- intros Hdn k t Ht Hs. apply in_or_app. destruct (Nat.eq_dec k i) as [->|Hne]; [right; left; reflexivity|].
           left. rewrite Et, list_set_ne in Ht by exact Hne. rewrite Em' in Hdn. eauto.
      * exists order. rewrite Hch. repeat split; auto. rewrite Em', Hd. discriminate.
  - injection E as <- <-. rewrite app_nil_r. cbn [ws_sh ws_main]. split.
    + eapply minv_now; [|exact M]. destruct e; cbn; lia.
    + destruct T as [T1 T2 T3 T4]. constructor; auto.
Qed.

(** *** Every transition makes at most one observation *)
Lemma step_obs_le me sh p op sh' p' o : step_step cx me sh p op = Some (sh', p', o) -> length o <= 1.
Proof.
  intros E. unfold step_step in E.
  destruct p; destruct op; try discriminate E; try (injection E as <- <- <-; cbn; lia);
    try (destruct (runner_step _ _ _); injection E as <- <- <-; cbn; lia).
  - destruct (lookup _ _); injection E as <- <- <-; cbn; lia.
  - destruct ok; injection E as <- <- <-; cbn; lia.
  - destruct (_ <=? _)%N; [|discriminate]. injection E as <- <- <-; cbn; lia.
  - destruct (sm_step (sh_sm sh) (MSignal a (OPoll me))) as [sm' out] eqn:Es.
    destruct out as [| | |so|]; try discriminate.
    destruct so as [| |[x|]]; try discriminate; injection E as <- <- <-; cbn; lia.
  - destruct (stream_poll _ _) as [[str' [l| |]] w]; injection E as <- <- <-; cbn; lia.
  - destruct (ss_result str); injection E as <- <- <-; cbn; lia.
Qed.

Lemma job_obs_le me j sh p op sh' p' o : job_step glob cx me j sh p op = Some (sh', p', o) -> length o <= 1.
Proof.
  intros Ej. unfold job_step in Ej.
  destruct p as [|c ev| | |t0|t0|t0|t0 js rs rest|t0 js rs st rest c ev|t0 js rs st rest|t0 js rs sp rest|r|r|r|r];
  destruct op as [|gh|sop]; try discriminate Ej; try (destruct rest; discriminate Ej); try (injection Ej as <- <- <-; cbn; lia).
  - destruct (jb_on _); [destruct (is_match_first _ _ _ _)|]; injection Ej as <- <- <-; cbn; lia.
  - destruct (is_match_second _ _ _ _); injection Ej as <- <- <-; cbn; lia.
  - destruct rest as [|st rest]; [|destruct (forced_skip js st); [|destruct (st_on st); [destruct (is_match_first _ _ _ _)|]]]; injection Ej as <- <- <-; cbn; lia.
  - destruct (is_match_second _ _ _ _); injection Ej as <- <- <-; cbn; lia.
  - destruct sp; try discriminate Ej; injection Ej as <- <- <-; cbn; lia.
  - destruct sp; discriminate Ej.
  - assert (E' : match step_step cx me sh sp sop with
         | Some (sh'0, sp', o) => Some (sh'0, JpStepRun t0 js rs sp' rest, o) | None => None end = Some (sh', p', o))
      by (destruct sp; exact Ej). clear Ej.
    destruct (step_step cx me sh sp sop) as [[[sh1 sp1] o1]|] eqn:Es; [|discriminate]. injection E' as <- <- <-.
    eapply step_obs_le; eauto.
Qed.

Lemma wobs_le s op s' o : wstep s op = Some (s', o) -> length o <= 1.
Proof.
  destruct op as [|gh|i op|i|e]; cbn [Workflow_model.wstep]; intros E.
  - unfold main_step in E. destruct (ws_main s) as [|c ev| | |t0|t0|t0 w wa [|[k j] rest]|t0 w wa rs|t0 w wa rs [|[k j] todo]|t0 w rs|r|r|r]; try discriminate;
    try (injection E as <- <-; cbn; lia).
    + destruct (wf_on wf) as [c|]; [destruct (is_match_first _ _ _ _)|]; injection E as <- <-; cbn; lia.
    + destruct (has_deps j); injection E as <- <-; cbn; lia.
    + destruct (ws_chan s) as [|[k r] ch]; [discriminate|]. injection E as <- <-; cbn; lia.
    + destruct (ready rs j); injection E as <- <-; cbn; lia.
  - destruct (ws_main s); try discriminate. destruct (is_match_second _ _ _ _). injection E as <- <-; cbn; lia.
  - destruct (nth_error _ _) as [t|]; [|discriminate]. destruct (job_step _ _ _ _ _ _ _) as [[[sh' p'] ob]|] eqn:Ej; [|discriminate].
    injection E as <- <-. rewrite map_length. eapply job_obs_le; eauto.
  - destruct (nth_error _ _) as [[key j p sent]|]; [|discriminate]. destruct p; try discriminate. destruct sent; [discriminate|].
    destruct (ws_main s); try (destruct (Nat.ltb _ _); [|discriminate E]); injection E as <- <-; cbn; lia.
  - injection E as <- <-. cbn. lia.
Qed.

Lemma wrun_split wls s tr : wrun wls s tr -> forall pre x post, tr = pre ++ x :: post ->
  exists ls1 op ls2 s1 s2, wls = ls1 ++ op :: ls2 /\ wrun ls1 s1 pre /\ wstep s1 op = Some (s2, [x]).
Proof.
  induction 1 as [sh|wls s tr op s' o R IH E]; intros pre x post Etr; [destruct pre; discriminate Etr|].
  assert (Hl := wobs_le _ _ _ _ E). destruct o as [|y [|? ?]]; [| |cbn in Hl; lia].
  - rewrite app_nil_r in Etr. destruct (IH _ _ _ Etr) as (ls1 & op' & ls2 & s1 & s2 & -> & R1 & E1).
    exists ls1, op', (ls2 ++ [op]), s1, s2. rewrite <- app_assoc. auto.
  - destruct post as [|z post _] using rev_ind.
    + apply app_inj_tail in Etr as [-> ->]. exists wls, op, [], s, s'. auto.
    + rewrite app_comm_cons, app_assoc in Etr. apply app_inj_tail in Etr as [Etr _].
      destruct (IH _ _ _ Etr) as (ls1 & op' & ls2 & s1 & s2 & -> & R1 & E1).
      exists ls1, op', (ls2 ++ [op]), s1, s2. rewrite <- app_assoc. auto.
Qed.

Lemma wexec_run ops : forall ls0 s0 tr0 s' o, wrun ls0 s0 tr0 -> wexec glob cx wf s0 ops = Some (s', o) -> wrun (ls0 ++ ops) s' (tr0 ++ o).
Proof.
  induction ops as [|op ops IH]; cbn; intros ls0 s0 tr0 s' o R E.
  - injection E as <- <-. rewrite !app_nil_r. exact R.
  - destruct (wstep s0 op) as [[s1 o1]|] eqn:E1; [|discriminate]. destruct (wexec glob cx wf s1 ops) as [[s2 o2]|] eqn:E2; [|discriminate].
    injection E as <- <-. rewrite app_assoc. replace (ls0 ++ op :: ops) with ((ls0 ++ [op]) ++ ops) by (rewrite <- app_assoc; reflexivity).
    eapply IH; [|exact E2]. eapply wrun_step; eauto.
Qed.
End P.
