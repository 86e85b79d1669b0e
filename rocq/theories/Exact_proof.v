From Verif Require Import Base Types Ids_model Ids_spec Ids_proof Signals_model Signals_spec Signals_proof Stream_model Stream_spec Stream_proof Cond_model Cond_spec Cond_proof Sched_model Sched_spec Sched_proof Exact_spec.

(** ** Ids *)
Lemma two_cuts a b a' b' : a +++ String slash b = a' +++ String slash b' -> (a = a' /\ b = b') \/ cut_differently a b a' b' \/ cut_differently a' b' a b.
Proof.
  revert a'. induction a as [|x a IH]; intros [|y a'] E; cbn [append] in E.
  - injection E as ->. auto.
  - injection E as <- ->. right. right. exists "", a', b'. auto.
  - injection E as -> <-. right. left. exists "", a, b. auto.
  - injection E as <- E. destruct (IH _ E) as [[-> ->]|[(p & q & r & -> & -> & -> & ->)|(p & q & r & -> & -> & -> & ->)]]; [auto| |].
    + right. left. exists (String x p), q, r. auto.
    + right. right. exists (String x p), q, r. auto.
Qed.
Lemma cuts_print_alike a b a' b' : cut_differently a b a' b' -> a +++ String slash b = a' +++ String slash b'.
Proof. intros (p & q & r & -> & -> & -> & ->). rewrite !append_assoc. reflexivity. Qed.
Lemma length_app_str a b : String.length (a +++ b) = String.length a + String.length b.
Proof. induction a; cbn; congruence. Qed.
Lemma cut_ne a b a' b' : cut_differently a b a' b' -> a <> a'.
Proof. intros (p & q & r & -> & -> & -> & ->) E. apply (f_equal String.length) in E. rewrite !length_app_str in E. cbn in E. lia. Qed.
Lemma job_ids_alike j j' : j <> j' -> (show_job_id j = show_job_id j' <-> cut_differently (jid_0 j) (jid_1 j) (jid_0 j') (jid_1 j') \/ cut_differently (jid_0 j') (jid_1 j') (jid_0 j) (jid_1 j)).
Proof.
  destruct j as [a b], j' as [a' b']. unfold show_job_id. cbn [jid_0 jid_1]. intros N. split.
  - intros E. apply two_cuts in E as [[-> ->]|E]; [contradiction|exact E].
  - intros [C|C]; [apply cuts_print_alike, C|symmetry; apply cuts_print_alike, C].
Qed.
Lemma step_ids_alike i i' : i <> i' -> (show_step_id i = show_step_id i' <-> sid_2 i = sid_2 i' /\ (cut_differently (sid_0 i) (sid_1 i) (sid_0 i') (sid_1 i') \/ cut_differently (sid_0 i') (sid_1 i') (sid_0 i) (sid_1 i))).
Proof.
  destruct i as [a b n], i' as [a' b' n']. unfold show_step_id. cbn [sid_0 sid_1 sid_2]. intros N. split.
  - intros E. assert (E' : (a +++ String slash b) +++ String slash (show_usize n) = (a' +++ String slash b') +++ String slash (show_usize n')) by (rewrite !append_assoc; exact E).
    apply append_cons_free_r_inj in E' as [E1 E2]; try (eapply decimal_slash_free; apply show_usize_decimal). apply show_usize_inj in E2. subst n'. split; [reflexivity|].
    apply two_cuts in E1 as [[-> ->]|E1]; [contradiction|exact E1].
  - intros [-> C]. assert (E1 : a +++ String slash b = a' +++ String slash b') by (destruct C as [C|C]; [apply cuts_print_alike, C|symmetry; apply cuts_print_alike, C]).
    change (a +++ String slash (b +++ String slash (show_usize n'))) with (a +++ (String slash b +++ String slash (show_usize n'))). rewrite <- append_assoc, E1, append_assoc. reflexivity.
Qed.

(** ** Signals *)
Lemma woken_from_snoc before ops o : woken_from before (ops ++ [o]) = woken_from before ops ++ match sig_output (before ++ ops) o with ORaise _ (Some t) => [t] | _ => [] end.
Proof.
  revert before. induction ops as [|x ops IH]; intros before; cbn [app woken_from]; [rewrite !app_nil_r; reflexivity|]. rewrite IH, <- !app_assoc. reflexivity.
Qed.
Lemma woken_exact ops t : In t (woken ops) <-> exists pre o post, ops = pre ++ o :: post /\ raises o <> None /\ never_raised pre /\ last_poller pre t.
Proof.
  unfold woken. induction ops as [|o ops IH] using rev_ind.
  - cbn. split; [tauto|]. intros (pre & o & post & E & _). destruct pre; discriminate.
  - rewrite woken_from_snoc. cbn [app]. rewrite in_app_iff, IH. split.
    + intros [(pre & o' & post & -> & H)|H].
      * exists pre, o', (post ++ [o]). rewrite <- app_assoc. split; [reflexivity|exact H].
      * assert (R : exists s, raises o = Some s) by (destruct o; cbn [raises]; eauto; exfalso; unfold sig_output in H; cbn [sig_step snd] in H; try destruct (sig_poll _ _); cbn in H; exact H).
        destruct R as [s R]. exists ops, o, []. split; [reflexivity|]. split; [congruence|].
        destruct (sig_output ops o) as [r [w|]| |] eqn:Eo; try destruct H; try contradiction. subst w. apply (raise_wakes ops o s r (Some t) R Eo). reflexivity.
    + intros (pre & o' & post & E & R & Nr & L). destruct post as [|x post] using rev_ind.
      * apply app_inj_tail in E as [<- <-]. right. destruct (raises o) as [s|] eqn:Rs; [|contradiction].
        assert (X : exists r w, sig_output ops o = ORaise r w) by (unfold sig_output; destruct o; cbn in Rs; try discriminate; cbn [sig_step]; [destruct (sig_cancel _) as [[? ?] ?]|destruct (sig_timeout _) as [[? ?] ?]]; cbn; eauto).
        destruct X as (r & w & X). rewrite X. assert (W := proj2 (raise_wakes ops o s r w Rs X t) (conj Nr L)). subst w. left. reflexivity.
      * clear IHpost. rewrite app_comm_cons, app_assoc in E. apply app_inj_tail in E as [-> ->]. left. exists pre, o', post. auto.
Qed.
Lemma woken_at_most_one ops : length (woken ops) <= 1.
Proof.
  assert (H : (never_raised ops -> woken ops = []) /\ length (woken ops) <= 1); [|tauto].
  unfold woken. induction ops as [|o ops [IH1 IH2]] using rev_ind; [cbn; auto|]. rewrite woken_from_snoc. cbn [app]. split.
  - intros N. apply never_raised_snoc in N as [N Ro]. rewrite IH1 by exact N. destruct o; cbn in Ro; try discriminate; cbn; try reflexivity. unfold sig_output. cbn. destruct (sig_poll t (sig_after ops)); reflexivity.
  - destruct (sig_output ops o) as [r [w|]| |] eqn:Eo; rewrite ?app_nil_r; try exact IH2.
    assert (R : exists s, raises o = Some s).
    { destruct o; cbn; eauto; unfold sig_output in Eo; cbn in Eo; try discriminate. destruct (sig_poll t (sig_after ops)); discriminate. }
    destruct R as [s R]. destruct (proj1 (raise_wakes ops o s r (Some w) R Eo w) eq_refl) as [N _]. rewrite (IH1 N). cbn. lia.
Qed.

(** ** Streams *)
Lemma about_to_store_spec ops c r : lookup c (ss_enders (stream_after ops)) = Some r <-> about_to_store ops c r.
Proof.
  revert c r. induction ops as [|o ops IH] using rev_ind; intros c r.
  - cbn. split; [discriminate|]. intros (pre & post & E & _). destruct pre; discriminate.
  - rewrite stream_after_snoc.
    (* operations that do not concern [c] *)
    assert (Keep : (o <> SEndCommit c) -> (forall r', o = SEndCheck c r' -> ended ops) -> (about_to_store ops c r <-> about_to_store (ops ++ [o]) c r)).
    { intros N1 N2. split.
      - intros (pre & post & -> & Hn & Hc & Hp). exists pre, (post ++ [o]). rewrite <- app_assoc. split; [reflexivity|]. split; [exact Hn|]. split.
        + intros C. apply in_app_iff in C as [C|[C|[]]]; [exact (Hc C)|exact (N1 C)].
        + intros p1 r' p2 E. destruct p2 as [|x p2] using rev_ind.
          * apply app_inj_tail in E as [<- E]. eapply N2, E.
          * clear IHp2. rewrite app_comm_cons, app_assoc in E. apply app_inj_tail in E as [E _]. eapply Hp, E.
      - intros (pre & post & E & Hn & Hc & Hp). destruct post as [|x post] using rev_ind.
        + apply app_inj_tail in E as [-> E]. exfalso. apply Hn. eapply N2, E.
        + clear IHpost. rewrite app_comm_cons, app_assoc in E. apply app_inj_tail in E as [-> <-]. exists pre, post. split; [reflexivity|]. split; [exact Hn|]. split.
          * intros C. apply Hc, in_app_iff. auto.
          * intros p1 r' p2 E. apply (Hp p1 r' (p2 ++ [o])). rewrite E, <- app_assoc. reflexivity. }
    set (s := stream_after ops) in *.
    destruct o as [m|m|c0 r0|c0|t| |]; try (rewrite <- Keep by discriminate; rewrite <- IH; reflexivity).
    + cbn [stream_step fst]. unfold stream_end_check. destruct (ss_result s) eqn:E.
      * rewrite <- Keep; [apply IH|discriminate|]. intros _ _. apply ended_iff. fold s. congruence.
      * cbn [ss_enders]. rewrite lookup_insert. destruct (eq_dec c c0) as [->|N].
        -- split.
           ++ intros H. injection H as ->. exists ops, []. split; [reflexivity|]. split; [rewrite ended_iff; fold s; congruence|]. split; [intros []|]. intros [] ? ? X; discriminate X.
           ++ intros (pre & post & Ep & Hn & Hc & Hp). destruct post as [|x post] using rev_ind.
              ** apply app_inj_tail in Ep as [_ Ep]. congruence.
              ** clear IHpost. rewrite app_comm_cons, app_assoc in Ep. apply app_inj_tail in Ep as [Ep <-]. exfalso. apply (proj1 (ended_iff ops)); [|exact E]. rewrite Ep. apply (Hp post r0 []). reflexivity.
        -- rewrite <- Keep; [apply IH|discriminate|]. intros r' X. congruence.
    + cbn [stream_step]. unfold stream_end_commit. destruct (eq_dec c c0) as [->|N].
      * transitivity False; [|split; [tauto|]].
        -- split; [|tauto]. destruct (lookup c0 (ss_enders s)) eqn:E; cbn [fst ss_enders]; [rewrite lookup_remove; destruct (eq_dec c0 c0); [discriminate|contradiction]|fold s; rewrite E; discriminate].
        -- intros (pre & post & Ep & Hn & Hc & Hp). destruct post as [|x post] using rev_ind.
           ++ apply app_inj_tail in Ep as [_ Ep]. discriminate Ep.
           ++ clear IHpost. rewrite app_comm_cons, app_assoc in Ep. apply app_inj_tail in Ep as [_ <-]. apply Hc, in_app_iff. right. left. reflexivity.
      * rewrite <- Keep; [|congruence|discriminate]. rewrite <- IH. destruct (lookup c0 (ss_enders s)) eqn:E; cbn [fst ss_enders]; [|reflexivity]. rewrite lookup_remove. destruct (eq_dec c c0); [contradiction|reflexivity].
    + rewrite <- Keep by discriminate. rewrite <- IH. destruct (stream_poll_keeps t s) as (_ & _ & E & _). rewrite E. reflexivity.
Qed.
Lemma stored_last_spec ops r : ss_result (stream_after ops) = Some r <-> stored_last ops r.
Proof.
  revert r. induction ops as [|o ops IH] using rev_ind; intros r.
  - cbn. split; [discriminate|]. intros (pre & c & post & E & _). destruct pre; discriminate.
  - rewrite stream_after_snoc. set (s := stream_after ops) in *.
    assert (Keep : (forall c, o = SEndCommit c -> forall r', ~ about_to_store ops c r') -> (stored_last ops r <-> stored_last (ops ++ [o]) r)).
    { intros N. split.
      - intros (pre & c & post & -> & Ha & Hp). exists pre, c, (post ++ [o]). rewrite <- app_assoc. split; [reflexivity|]. split; [exact Ha|].
        intros p1 c' p2 r' E. destruct p2 as [|x p2] using rev_ind.
        + apply app_inj_tail in E as [<- E]. apply N. exact E.
        + clear IHp2. rewrite app_comm_cons, app_assoc in E. apply app_inj_tail in E as [E _]. eapply Hp, E.
      - intros (pre & c & post & E & Ha & Hp). destruct post as [|x post] using rev_ind.
        + apply app_inj_tail in E as [-> ->]. exfalso. eapply N; [reflexivity|exact Ha].
        + clear IHpost. rewrite app_comm_cons, app_assoc in E. apply app_inj_tail in E as [-> <-]. exists pre, c, post. split; [reflexivity|]. split; [exact Ha|].
          intros p1 c' p2 r' E. apply (Hp p1 c' (p2 ++ [o])). rewrite E, <- app_assoc. reflexivity. }
    destruct o as [m|m|c0 r0|c0|t| |]; try (rewrite <- Keep by discriminate; rewrite <- IH; reflexivity).
    + rewrite <- Keep by discriminate. rewrite <- IH. cbn [stream_step fst]. unfold stream_end_check. destruct (ss_result s) eqn:E; cbn [ss_result]; [fold s; rewrite E; reflexivity|tauto].
    + cbn [stream_step]. unfold stream_end_commit. destruct (lookup c0 (ss_enders s)) as [r1|] eqn:E; cbn [fst ss_result].
      * apply about_to_store_spec in E. split.
        -- intros H. injection H as ->. exists ops, c0, []. split; [reflexivity|]. split; [exact E|]. intros [] ? ? ? X; discriminate X.
        -- intros (pre & c & post & Ep & Ha & Hp). destruct post as [|x post] using rev_ind.
           ++ apply app_inj_tail in Ep as [<- Ep]. injection Ep as <-. apply about_to_store_spec in E, Ha. congruence.
           ++ clear IHpost. rewrite app_comm_cons, app_assoc in Ep. apply app_inj_tail in Ep as [-> <-]. exfalso. eapply (Hp post c0 []); [reflexivity|exact E].
      * rewrite <- Keep; [rewrite <- IH; reflexivity|]. intros c X r' Ha. injection X as <-. apply about_to_store_spec in Ha. fold s in Ha. congruence.
    + rewrite <- Keep by discriminate. rewrite <- IH. destruct (stream_poll_keeps t s) as (_ & E & _). rewrite E. reflexivity.
Qed.

(** ** Scheduler *)
Section Relabel.
Variable limit : runner_meta -> Z.
Variable version : runner_meta -> string.
Notation rl := (relabel limit version).
Notation rq := (relabel_req limit version).
Definition relabel_call (k : call) : call := match k with CPick q => CPick (rq q) | CCommit q r => CCommit (rq q) (rl r) end.
Definition relabel_mach (m : smach) : smach := SMach (sm_st m) (map (fun e => (fst e, relabel_call (snd e))) (sm_calls m)).
Lemma find_relabel p p' l : (forall r, p' (rl r) = p r) -> find p' (map rl l) = option_map rl (find p l).
Proof. intros H. induction l as [|x l IH]; [reflexivity|]. cbn [map find]. rewrite H. destruct (p x); [reflexivity|exact IH]. Qed.
Lemma filter_relabel p p' l : (forall r, p' (rl r) = p r) -> filter p' (map rl l) = map rl (filter p l).
Proof. intros H. induction l as [|x l IH]; [reflexivity|]. cbn [map filter]. rewrite H. destruct (p x); cbn [map]; rewrite IH; reflexivity. Qed.
Lemma min_relabel counts l : min_by_count counts (map rl l) = option_map rl (min_by_count counts l).
Proof.
  unfold min_by_count. change (@None runner_meta) with (option_map rl None) at 1. generalize (@None runner_meta). induction l as [|x l IH]; intros b; [reflexivity|]. cbn [map fold_left]. rewrite <- IH. f_equal.
  destruct b as [b|]; [|reflexivity]. cbn [option_map]. unfold count_of. cbn [relabel rm_id]. destruct (_ <? _)%Z; reflexivity.
Qed.
Lemma calls_lookup (c : nat) calls : lookup c (map (fun e => (fst e, relabel_call (snd e))) calls) = option_map relabel_call (lookup (V := call) c calls).
Proof. induction calls as [|[k v] calls IH]; [reflexivity|]. cbn [map lookup fst snd]. destruct (eq_dec c k); [reflexivity|exact IH]. Qed.
Lemma calls_insert (c : nat) k calls : map (fun e => (fst e, relabel_call (snd e))) (insert c k calls) = insert c (relabel_call k) (map (fun e => (fst e, relabel_call (snd e))) calls).
Proof. induction calls as [|[k' v] calls IH]; [reflexivity|]. cbn [map insert fst snd]. destruct (eq_dec c k'); cbn [map fst snd]; [reflexivity|rewrite IH; reflexivity]. Qed.
Lemma calls_remove (c : nat) calls : map (fun e => (fst e, relabel_call (snd e))) (remove c calls) = remove (V := call) c (map (fun e => (fst e, relabel_call (snd e))) calls).
Proof. induction calls as [|[k' v] calls IH]; [reflexivity|]. cbn [map remove fst snd]. destruct (eq_dec c k'); cbn [map fst snd]; rewrite IH; reflexivity. Qed.
Definition relabel_answer (k : call + option runner_meta) : call + option runner_meta := match k with inl k => inl (relabel_call k) | inr r => inr (option_map rl r) end.
Lemma begin_relabel st q : begin_schedule st (rq q) = relabel_answer (begin_schedule st q).
Proof.
  unfold begin_schedule. cbn [relabel_req sq_step sq_container sq_runners].
  assert (H : match lookup (step_id_job_id (sq_step q)) (sd_jobs st) with Some last => find (affinity_ok last (sq_container q)) (map rl (sq_runners q)) | None => None end =
              option_map rl (match lookup (step_id_job_id (sq_step q)) (sd_jobs st) with Some last => find (affinity_ok last (sq_container q)) (sq_runners q) | None => None end)).
  { destruct (lookup _ _) as [last|]; [|reflexivity]. apply find_relabel. reflexivity. }
  rewrite H. clear H. set (found := match lookup (step_id_job_id (sq_step q)) (sd_jobs st) with Some last => find (affinity_ok last (sq_container q)) (sq_runners q) | None => None end). clearbody found. destruct found as [r|]; [reflexivity|]. cbn [option_map].
  destruct (runs_on_host (sq_container q)); [|reflexivity]. unfold pick_host_runner. rewrite (filter_relabel rm_support_host) by reflexivity.
  rewrite (find_relabel (fun r => eqb (option_default "" (sq_container q)) ("host/" +++ rm_os r) || eqb (option_default "" (sq_container q)) ("host/" +++ rm_os r +++ "-" +++ rm_arch r))) by reflexivity.
  destruct (find _ _); reflexivity.
Qed.
Lemma pick_relabel st q : pick_schedule st (rq q) = relabel_answer (pick_schedule st q).
Proof.
  unfold pick_schedule, pick_docker_runner. cbn [relabel_req sq_runners]. rewrite (filter_relabel rm_support_docker) by reflexivity. rewrite min_relabel. destruct (min_by_count _ _); reflexivity.
Qed.
Lemma continue_relabel m c q k : continue_call (relabel_mach m) c (rq q) (relabel_answer k) = (relabel_mach (fst (continue_call m c q k)), map (relabel_event limit version) (snd (continue_call m c q k))).
Proof. destruct k as [k|r]; cbn [relabel_answer continue_call fst snd map]; unfold relabel_mach; cbn [sm_st sm_calls]; [rewrite calls_insert|rewrite calls_remove]; reflexivity. Qed.
Lemma step_relabel m op m' o : smach_step m op = Some (m', o) -> smach_step (relabel_mach m) (relabel_op limit version op) = Some (relabel_mach m', map (relabel_event limit version) o).
Proof.
  destruct op as [c q|c|id|id]; cbn [relabel_op smach_step].
  - unfold contains_key. cbn [relabel_mach sm_calls sm_st]. rewrite calls_lookup. destruct (lookup c (sm_calls m)) as [k|]; cbn [option_map]; [discriminate|]. rewrite begin_relabel.
    change (SMach (sm_st m) (map (fun e => (fst e, relabel_call (snd e))) (sm_calls m))) with (relabel_mach m). rewrite continue_relabel. destruct (continue_call m c q (begin_schedule (sm_st m) q)) as [m1 o1]. intros E. injection E as <- <-. reflexivity.
  - cbn [relabel_mach sm_calls sm_st]. rewrite calls_lookup. destruct (lookup c (sm_calls m)) as [[q|q r]|]; cbn [option_map relabel_call]; [| |discriminate].
    + rewrite pick_relabel. change (SMach (sm_st m) (map (fun e => (fst e, relabel_call (snd e))) (sm_calls m))) with (relabel_mach m). rewrite continue_relabel. destruct (continue_call m c q _) as [m1 o1]. intros E. injection E as <- <-. reflexivity.
    + intros E. injection E as <- <-. unfold relabel_mach. cbn [sm_st sm_calls]. rewrite calls_remove. reflexivity.
  - intros E. injection E as <- <-. reflexivity.
  - intros E. injection E as <- <-. reflexivity.
Qed.
Lemma run_relabel ops m tr : sched_run ops m tr -> sched_run (map (relabel_op limit version) ops) (relabel_mach m) (map (relabel_event limit version) tr).
Proof.
  induction 1 as [|ops m tr op m' o R IH E]; [constructor|]. rewrite !map_app. eapply sched_run_step; [exact IH|]. apply step_relabel, E.
Qed.
End Relabel.

(** ** Conditions *)
Section Files.
Variable glob : glob_oracle.
Variable m : matcher.
Variable ev : trigger_event.
Hypothesis Hev : cm_event m = Some ev.
Lemma last_fetched_spec ops p : cms_cache (cm_after glob m ops) = Some p <-> exists files, last_fetched glob m ev ops files /\ p = ConditionPayload (te_event ev) (te_branch ev) files.
Proof.
  revert p. induction ops as [|o ops IH] using rev_ind; intros p.
  - cbn. split; [discriminate|]. intros (files & (pre & call & gh & post & E & _) & _). destruct pre; discriminate.
  - rewrite cm_after_snoc. set (s := cm_after glob m ops) in *.
    assert (Keep : (forall call gh, o = CmFinish call gh -> contains_key call (cms_inflight s) = true -> forall files, ~ files_fetched gh ev files) ->
      forall files, last_fetched glob m ev ops files <-> last_fetched glob m ev (ops ++ [o]) files).
    { intros N files. split.
      - intros (pre & call & gh & post & -> & Hk & Hf & Hp). exists pre, call, gh, (post ++ [o]). rewrite <- app_assoc. split; [reflexivity|]. split; [exact Hk|]. split; [exact Hf|].
        intros p1 call' gh' p2 files' E Hk'. destruct p2 as [|x p2] using rev_ind.
        + apply app_inj_tail in E as [<- E]. eapply N; [exact E|exact Hk'].
        + clear IHp2. rewrite app_comm_cons, app_assoc in E. apply app_inj_tail in E as [E _]. eapply Hp; [exact E|exact Hk'].
      - intros (pre & call & gh & post & E & Hk & Hf & Hp). destruct post as [|x post] using rev_ind.
        + apply app_inj_tail in E as [<- ->]. exfalso. eapply N; [reflexivity|exact Hk|exact Hf].
        + clear IHpost. rewrite app_comm_cons, app_assoc in E. apply app_inj_tail in E as [-> <-]. exists pre, call, gh, post. split; [reflexivity|]. split; [exact Hk|]. split; [exact Hf|].
          intros p1 call' gh' p2 files' E. apply (Hp p1 call' gh' (p2 ++ [o])). rewrite E, <- app_assoc. reflexivity. }
    assert (Same : (forall call gh, o = CmFinish call gh -> contains_key call (cms_inflight s) = true -> forall files, ~ files_fetched gh ev files) ->
      (cms_cache s = Some p <-> exists files, last_fetched glob m ev (ops ++ [o]) files /\ p = ConditionPayload (te_event ev) (te_branch ev) files)).
    { intros N. rewrite IH. split; intros (files & H & E); exists files; (split; [apply (Keep N), H|exact E]). }
    destruct o as [k d|k gh]; cbn [cm_step].
    + destruct (is_match_first _ _ _ _); cbn [fst cms_cache]; apply Same; discriminate.
    + destruct (lookup k (cms_inflight s)) as [[d ev0]|] eqn:Ek.
      2: { apply Same. intros call gh' E Hk. injection E as <- <-. unfold contains_key in Hk. rewrite Ek in Hk. discriminate Hk. }
      assert (E0 := proj1 (cm_inflight_event glob m ops k d ev0 Ek)). assert (ev0 = ev) by congruence. subst ev0.
      unfold is_match_second. destruct (fetch_payload gh ev) as [p0|e] eqn:Ef; cbn [fst cms_cache].
      * apply fetch_payload_spec in Ef as (files & Hf & ->). split.
        -- intros H. injection H as <-. exists files. split; [|reflexivity]. exists ops, k, gh, []. split; [reflexivity|]. split; [unfold contains_key; fold s; rewrite Ek; reflexivity|]. split; [exact Hf|]. intros [] ? ? ? ? X; discriminate X.
        -- intros (files' & (pre & call & gh' & post & E & Hk & Hf' & Hp) & ->). destruct post as [|x post] using rev_ind.
           ++ apply app_inj_tail in E as [<- E]. injection E as <- <-. assert (A := proj2 (fetch_payload_spec gh ev _) (ex_intro _ files (conj Hf eq_refl))).
              assert (B := proj2 (fetch_payload_spec gh ev _) (ex_intro _ files' (conj Hf' eq_refl))). congruence.
           ++ clear IHpost. rewrite app_comm_cons, app_assoc in E. apply app_inj_tail in E as [E <-]. exfalso. eapply (Hp post k gh [] files); [reflexivity| |exact Hf]. rewrite <- E. unfold contains_key. fold s. rewrite Ek. reflexivity.
      * apply Same. intros call gh' E _ files Hf. injection E as <- <-. eapply fetch_payload_err; eauto.
Qed.
Lemma start_answers ops call c : cm_auth m = true ->
  (forall b, cm_output glob m ops (CmStart call c) = CmAnswer b <-> exists files, last_fetched glob m ev ops files /\ (b = true <-> condition_holds glob c (ConditionPayload (te_event ev) (te_branch ev) files))) /\
  (cm_output glob m ops (CmStart call c) = CmFetching <-> forall files, ~ last_fetched glob m ev ops files).
Proof.
  intros Ha. unfold cm_output. cbn [cm_step snd]. unfold is_match_first. rewrite Ha, Hev. cbn [negb]. assert (L := last_fetched_spec ops). destruct (cms_cache (cm_after glob m ops)) as [p|]; cbn [snd].
  - destruct (proj1 (L p) eq_refl) as (files & Hl & ->). split.
    + intros b. split.
      * intros E. injection E as <-. exists files. split; [exact Hl|]. apply cond_is_match_spec.
      * intros (files' & Hl' & Hb). assert (E := proj2 (L _) (ex_intro _ files' (conj Hl' eq_refl))). injection E as <-. f_equal. rewrite <- cond_is_match_spec in Hb. destruct b, (cond_is_match glob c (ConditionPayload (te_event ev) (te_branch ev) files)); intuition congruence.
    + split; [discriminate|]. intros H. exfalso. eapply H, Hl.
  - assert (N : forall files, ~ last_fetched glob m ev ops files) by (intros files Hl; assert (E := proj2 (L _) (ex_intro _ files (conj Hl eq_refl))); discriminate E).
    split; [|split; auto]. intros b. split; [discriminate|]. intros (files & Hl & _). exfalso. eapply N, Hl.
Qed.
End Files.
