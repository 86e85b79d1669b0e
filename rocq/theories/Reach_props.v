(** C120: the states a workflow run can end in, exactly. *)
From Verif Require Import Base Types Signals_model Stream_model Cond_model Config_model Plugins_model Exec_model Exec_spec Step_proof Step_props Job_proof Job_props
  Workflow_model Workflow_spec Workflow_proof Workflow_inv Workflow_term Workflow_props Outcome_spec Outcome_proof Outcome_props Reach_spec Reach_proof.

(** Any order compatible with the dependencies is one in which the results of a finished run can come in, whatever the steps come to and the conditions say:
    a run in a new context (nothing has been read from GitHub yet), undisturbed by anybody. *)
Theorem C120_every_order : forall glob cx wf matches res order now,
  NoDup (keys (wf_jobs wf)) -> own_steps wf -> (forall k n, step_end (res k n)) -> judged glob cx matches -> allowed matches (wf_on wf) = true ->
  job_order wf order -> order <> [] ->
  exists ls s tr r, undisturbed_run glob cx wf now ls s tr /\ ws_main s = WpDone r /\ came_out matches res tr /\ map fst (received tr) = order.
Proof.
  intros glob cx wf matches res L now Hnd Own Hres J A Ho Ne. assert (D := judged_decides _ _ _ now J).
  destruct (order_run glob cx matches res Hres wf _ L D Own Hnd Ho Ne A) as (s & tr & r & G & Ed & Co & Em). destruct (goes_undisturbed _ _ _ _ _ _ G) as (ls & U). exists ls, s, tr, r. auto.
Qed.
Print Assumptions C120_every_order.

(** And only such orders, when no result comes in twice. *)
Theorem C120_only_such_orders : forall glob cx wf ls s tr r,
  NoDup (keys (wf_jobs wf)) -> wrun glob cx wf ls s tr -> ws_main s = WpDone r -> wr_state r <> Skipped -> NoDup (map fst (received tr)) ->
  job_order wf (map fst (received tr)).
Proof.
  intros glob cx wf ls s tr r Hnd R Em Ns Hn. split; [exact Hn|]. split.
  - intros k. assert (L := C37_life_cycle _ _ _ _ _ _ _ Hnd R Em). destruct (C36_final_state _ _ _ _ _ _ _ Hnd R Em) as [_ [(X & _)|(_ & _ & F)]]; [congruence|].
    inversion L as [c Ho Ev Er|check recs ws t0 t1 jobs Hl Ht Hf Hla Hk Hnj r' Ev Er]; subst; [cbn in Ns; congruence|].
    rewrite <- Hk. cbn [wr_jobs] in F. split.
    + intros H. apply lookup_is_Some. clear -H F. assert (G : exists x, latest (received tr) k x).
      { revert H. generalize (received tr) as l. intros l. induction l as [|[k' x] l IH]; cbn [map fst]; [intros []|]. intros H.
        destruct (in_dec string_dec k (map fst l)) as [Hi|Hi].
        - destruct (IH Hi) as (y & b & a & -> & N). exists y, ((k', x) :: b), a. auto.
        - destruct H as [->|H]; [|contradiction]. exists x, [], l. auto. }
      destruct G as (x & G). exists x. apply F, G.
    + intros H. apply lookup_is_Some in H as (x & H). apply F in H as (b & a & E & _). rewrite E, map_app. apply in_or_app. right. left. reflexivity.
  - intros a k b d E Hd. destruct (map_eq_app fst _ _ _ E) as (ra & rb & Er & <- & E2). destruct rb as [|[k' x] rb]; [discriminate E2|]. cbn [map fst] in E2. injection E2 as -> _.
    exact (received_after_deps glob cx wf Hnd _ _ _ R _ _ _ _ _ Er Hd).
Qed.
Print Assumptions C120_only_such_orders.

(** Every possible state is reached by an undisturbed run in a new context. *)
Theorem C120_reached : forall glob cx wf matches res now,
  NoDup (keys (wf_jobs wf)) -> wf_jobs wf <> [] -> acyclic wf -> own_steps wf -> (forall k n, step_end (res k n)) -> judged glob cx matches ->
  forall st, possible_state matches res wf st ->
  exists ls s tr r, undisturbed_run glob cx wf now ls s tr /\ ws_main s = WpDone r /\ came_out matches res tr /\ NoDup (map fst (received tr)) /\ wr_state r = st.
Proof.
  intros glob cx wf matches res now Hnd Hne (level & Hlevel) Own Hres J st.
  unfold possible_state. destruct (allowed matches (wf_on wf)) eqn:A.
    + assert (Go : forall k0, In k0 (keys (wf_jobs wf)) -> exists ls s tr r a b, undisturbed_run glob cx wf now ls s tr /\ ws_main s = WpDone r /\ came_out matches res tr /\
        NoDup (map fst (received tr)) /\ map fst (received tr) = a ++ k0 :: b /\ (forall x, In x b -> depends_trans wf x k0) /\ wr_state r <> Skipped).
      { intros k0 Hk0. assert (Ho := order_ok wf Hnd level Hlevel k0). assert (Hp := order_perm wf level k0).
        assert (Hi : In k0 (order wf level k0)) by (apply (Permutation_in _ (Permutation_sym Hp)); exact Hk0).
        assert (Ne : order wf level k0 <> []) by (intros X; rewrite X in Hi; destruct Hi).
        destruct (C120_every_order glob cx wf matches res _ now Hnd Own Hres J A Ho Ne) as (ls & s & tr & r & U & Em & Co & Ek). assert (R := undisturbed_wrun _ _ _ _ _ _ _ U).
        apply in_split in Hi as (a & b & Eo). exists ls, s, tr, r, a, b. split; [exact U|]. split; [exact Em|]. split; [exact Co|].
        split; [rewrite Ek; apply Ho|]. split; [congruence|]. split; [intros x; exact (order_after wf Hnd level Hlevel k0 a b x Eo)|].
        destruct (C36_final_state _ _ _ _ _ _ _ Hnd R Em) as [_ [(_ & _ & X & _)|(F & _)]].
        - rewrite X in Ek. cbn in Ek. congruence.
        - destruct F as [[_ ->]|(? & x & ? & _ & [Q|Q] & _ & ->)]; [discriminate|rewrite Q; discriminate..]. }
      intros [[N ->]|(k & [Hb (j & Hj & Ej)] & Last)].
      * destruct (wf_jobs wf) as [|[k0 j0] l] eqn:Ew; [congruence|]. rewrite <- Ew in *. destruct (Go k0) as (ls & s & tr & r & a & b & U & Em & Co & Hn & _ & _ & Ns); [rewrite Ew; left; reflexivity|]. assert (R := undisturbed_wrun _ _ _ _ _ _ _ U).
        exists ls, s, tr, r. split; [exact U|]. split; [exact Em|]. split; [exact Co|]. split; [exact Hn|].
        destruct (C36_final_state _ _ _ _ _ _ _ Hnd R Em) as [_ [(X & _)|([[_ X]|(b' & [k x] & a' & Er & Hb & _ & _)] & _)]]; [congruence|exact X|].
        exfalso. destruct (received_outcome glob cx wf Hnd matches res _ _ _ R Co k x) as (j & Hj & Ej); [rewrite Er; apply in_or_app; right; left; reflexivity|].
        apply (N k (jr_state x)). split; [exact Hb|]. exists j. auto.
      * destruct (Go k) as (ls & s & tr & r & a & b & U & Em & Co & Hn & Ek & Hdep & Ns); [apply in_map with (f := fst) in Hj; exact Hj|]. assert (R := undisturbed_wrun _ _ _ _ _ _ _ U).
        exists ls, s, tr, r. split; [exact U|]. split; [exact Em|]. split; [exact Co|]. split; [exact Hn|].
        assert (Bk : forall y, In (k, y) (received tr) -> jr_state y = st).
        { intros y Hy. destruct (received_outcome glob cx wf Hnd matches res _ _ _ R Co k y Hy) as (j2 & Hj2 & E2). rewrite (job_unique wf Hnd _ _ _ Hj2 Hj) in E2. congruence. }
        assert (Ik : exists y, In (k, y) (received tr)).
        { assert (H : In k (map fst (received tr))) by (rewrite Ek; apply in_or_app; right; left; reflexivity). apply in_map_iff in H as ([k' y] & <- & H). exists y. exact H. }
        destruct Ik as (y & Hy). destruct (C36_final_state _ _ _ _ _ _ _ Hnd R Em) as [_ [(X & _)|([[N _]|(b' & [k1 x] & a' & Er & Hbx & Ha & Es)] & _)]]; [congruence| |].
        { exfalso. apply (N _ Hy). cbn [snd]. rewrite (Bk _ Hy). exact Hb. }
        cbn [snd] in *. rewrite Es. destruct (string_dec k1 k) as [->|Nk].
        { apply Bk. rewrite Er. apply in_or_app. right. left. reflexivity. }
        exfalso. assert (H1 : In k1 (map fst (received tr))) by (rewrite Er, map_app; apply in_or_app; right; left; reflexivity).
        rewrite Ek in H1. apply in_app_or in H1 as [H1|[H1|H1]]; [|congruence|].
        -- (* k1 before k: then k is in a', which has no bad state *)
           assert (Hk : In (k, y) a').
           { rewrite Er in Hy. apply in_app_or in Hy as [Hy|[Hy|Hy]]; [|congruence|exact Hy]. exfalso.
             apply in_split in Hy as (b1 & b2 & ->). rewrite Er, map_app in Ek. cbn [map fst] in Ek. rewrite map_app in Ek. cbn [map fst] in Ek. rewrite <- app_assoc in Ek. cbn [app] in Ek.
             assert (Hn2 := Hn). rewrite Er, map_app in Hn2. cbn [map fst] in Hn2. rewrite map_app in Hn2. cbn [map fst] in Hn2. rewrite <- app_assoc in Hn2. cbn [app] in Hn2.
             assert (a = map fst b1).
             { clear -Ek Hn2 Nk. revert b1 Hn2 Ek. induction a as [|z a IH]; intros [|[z' w] b1] Hn Ek; cbn [map fst app] in *.
               - reflexivity.
               - injection Ek as E1 E2. subst. inversion Hn as [|? ? N' _]; subst. destruct N'. apply in_or_app. right. left. reflexivity.
               - injection Ek as E1 E2. subst. inversion Hn as [|? ? N' _]; subst. destruct N'. rewrite E2. apply in_or_app. right. left. reflexivity.
               - injection Ek as E1 E2. subst. f_equal. apply IH; [inversion Hn; assumption|exact E2]. }
             subst a. apply NoDup_remove in Hn2 as [Hn2 _]. rewrite app_assoc in Hn2. apply NoDup_remove_2 in Hn2. apply Hn2. apply in_or_app. left. apply in_or_app. left. exact H1. }
           apply (Ha _ Hk). cbn [snd]. rewrite (Bk y). { exact Hb. } rewrite Er. apply in_or_app. right. right. exact Hk.
        -- destruct (received_outcome glob cx wf Hnd matches res _ _ _ R Co k1 x) as (j1 & Hj1 & E1); [rewrite Er; apply in_or_app; right; left; reflexivity|].
           apply (Last k1 (jr_state x)); [split; [exact Hbx|exists j1; auto]|exact (Hdep _ H1)].
    + intros ->. destruct (check_goes glob cx matches res wf _ (judged_decides _ _ _ now J)) as (t & sh' & (F1 & F2 & F3) & _ & _ & _ & G). rewrite A in G.
      assert (G2 : goes glob cx wf (winit (Shared now sm_init None)) (t ++ wf_obs wf Skipped ++ []) (WState sh' (WpDone (WorkflowRunResult (wf_id wf) Skipped None None [])) [] [])).
      { eapply goes_trans; [exact G|]. eapply (goes_step _ _ _ _ WMain); [reflexivity|reflexivity|apply goes_refl]. }
      destruct (goes_undisturbed _ _ _ _ _ _ G2) as (ls & U). eexists ls, _, _, _. split; [exact U|]. split; [reflexivity|].
      assert (Rc : received (t ++ wf_obs wf Skipped ++ []) = []) by (rewrite received_app, F1; reflexivity). split; [split|].
      * intros w c b Hin. apply in_app_or in Hin as [Hin|[X|[]]]; [exact (F2 _ _ _ Hin)|discriminate X].
      * rewrite Rc. intros k r n x [].
      * rewrite Rc. split; [constructor|reflexivity].
Qed.
Print Assumptions C120_reached.

(** The states a finished run in which no job's result comes in twice can have are exactly the possible ones. *)
Theorem C120_states : forall glob cx wf matches res,
  NoDup (keys (wf_jobs wf)) -> wf_jobs wf <> [] -> acyclic wf -> own_steps wf -> (forall k n, step_end (res k n)) -> judged glob cx matches ->
  forall st,
    (exists ls s tr r, wrun glob cx wf ls s tr /\ ws_main s = WpDone r /\ came_out matches res tr /\ NoDup (map fst (received tr)) /\ wr_state r = st) <->
    possible_state matches res wf st.
Proof.
  intros glob cx wf matches res Hnd Hne (level & Hlevel) Own Hres J st. split.
  - intros (ls & s & tr & r & R & Em & Co & Hn & <-).
    assert (O := C116_outcome _ _ _ _ _ _ _ _ _ Hnd R Em Co). unfold outcome in O. unfold possible_state. destruct (allowed matches (wf_on wf)); [|exact (proj1 O)].
    destruct O as (_ & _ & [[N ->]|[B (k0 & j0 & Hj0 & E0)]]).
    { left. split; [|reflexivity]. intros k s' [Hb (j & Hj & E)]. apply (N k j Hj). rewrite E. exact Hb. }
    right. destruct (C36_final_state _ _ _ _ _ _ _ Hnd R Em) as [_ [(X & _)|([[_ X]|(b & [k x] & a & Er & Hb & Ha & Es)] & _)]].
    1: rewrite X in B; destruct B as [B|B]; discriminate B.
    1: rewrite X in B; destruct B as [B|B]; discriminate B.
    cbn [snd] in *. destruct (received_outcome glob cx wf Hnd matches res _ _ _ R Co k x) as (j & Hj & Ej); [rewrite Er; apply in_or_app; right; left; reflexivity|].
    exists k. split.
    { split; [exact B|]. exists j. split; [exact Hj|]. congruence. }
    intros k' s' [Hb' (j' & Hj' & Ej')] Hd.
    (* k' has been received, after k *)
    assert (Hk' : In k' (map fst (received tr))).
    { apply (C120_only_such_orders _ _ _ _ _ _ _ Hnd R Em); [destruct B as [-> | ->]; discriminate|exact Hn|]. apply in_map with (f := fst) in Hj'. exact Hj'. }
    apply in_map_iff in Hk' as ([k2 x'] & E2 & Hin). cbn [fst] in E2. subst k2.
    destruct (received_outcome glob cx wf Hnd matches res _ _ _ R Co _ _ Hin) as (j2 & Hj2 & Ej2). rewrite (job_unique wf Hnd _ _ _ Hj2 Hj') in Ej2.
    assert (Bx : bad_state (jr_state x')) by (rewrite <- Ej2, Ej'; exact Hb').
    rewrite Er in Hin. apply in_app_or in Hin as [Hin|[Hin|Hin]].
    + apply in_split in Hin as (b1 & b2 & ->). rewrite <- app_assoc in Er. cbn [app] in Er.
      assert (X := received_after_trans glob cx wf Hnd _ _ _ R _ _ Hd _ _ _ Er).
      rewrite Er in Hn. rewrite map_app in Hn. cbn [map] in Hn. rewrite map_app in Hn. cbn [map fst] in Hn. rewrite app_comm_cons, app_assoc in Hn. apply NoDup_remove_2 in Hn.
      apply Hn. apply in_or_app. left. apply in_or_app. left. exact X.
    + injection Hin as -> ->. apply (trans_level wf level Hlevel) in Hd. lia.
    + apply (Ha _ Hin). exact Bx.
  - intros P. destruct (C120_reached glob cx wf matches res 0%N Hnd Hne (ex_intro _ level Hlevel) Own Hres J st P) as (ls & s & tr & r & U & Rest). exists ls, s, tr, r. split; [exact (undisturbed_wrun _ _ _ _ _ _ _ U)|exact Rest].
Qed.
Print Assumptions C120_states.

(** When a job is started twice (C33, C91) the second result counts too: the run can end in a state that is not possible otherwise. *)
Definition c120_wf : workflow := Workflow (WorkflowId "id") (Some "w") None
  [("a", c33_jb "a" "x" []); ("b", c33_jb "b" "y" []); ("c", c33_jb "c" "z" ["a"]); ("e", c33_jb "e" "u" ["c"]); ("d", c33_jb "d" "v" [])].
Definition c120_res (k : string) (n : nat) : wf_state := if eqb k "c" then Failed else if eqb k "e" then Cancelled else Succeeded.
Definition c120_run : list wop :=
  repeat WMain 10 ++ whole_job 0 RSucceeded ++ repeat WMain 4 ++ whole_job 1 RSucceeded ++ repeat WMain 4 ++ whole_job 3 (RFailed 2) ++ repeat WMain 3 ++
  whole_job 5 RCancelled ++ repeat WMain 2 ++ whole_job 4 (RFailed 2) ++ repeat WMain 2 ++ whole_job 2 RSucceeded ++ repeat WMain 4.

Lemma c120_hyps : NoDup (keys (wf_jobs c120_wf)) /\ wf_jobs c120_wf <> [] /\ acyclic c120_wf /\ own_steps c120_wf /\
  (forall k n, step_end (c120_res k n)) /\ judged (fun _ => None) c26_cx (fun _ => true).
Proof.
  split; [|split; [discriminate|split; [|split; [|split]]]].
  - change (keys (wf_jobs c120_wf)) with (nodup string_dec (keys (wf_jobs c120_wf))). apply NoDup_nodup.
  - exists (fun k => if eqb k "c" then 1 else if eqb k "e" then 2 else 0). intros k d (j & Hj & Hd). cbn [c120_wf wf_jobs In] in Hj.
    repeat (destruct Hj as [Hj|Hj]; [injection Hj as <- <-; cbn in Hd; first [solve [destruct Hd]|destruct Hd as [<-|[]]; vm_compute; split; [tauto|lia]]|]). destruct Hj.
  - intros k j Hj st Hst. cbn [c120_wf wf_jobs In] in Hj.
    repeat (destruct Hj as [Hj|Hj]; [injection Hj as <- <-; cbn in Hst; destruct Hst as [<-|[]]; reflexivity|]). destruct Hj.
  - intros k n. unfold c120_res, step_end. destruct (eqb k "c"); [tauto|]. destruct (eqb k "e"); tauto.
  - left. reflexivity.
Qed.
(** Only [Cancelled] is possible for it: the failed job is a dependency of the cancelled one. *)
Example C120_nonvacuous : forall st, possible_state (fun _ => true) c120_res c120_wf st <-> st = Cancelled.
Proof.
  assert (Bad : forall k s, comes_to_bad (fun _ => true) c120_res c120_wf k s <-> (k = "c" /\ s = Failed) \/ (k = "e" /\ s = Cancelled)).
  { intros k s. split.
    - intros [B (j & Hj & E)]. cbn [c120_wf wf_jobs In] in Hj.
      repeat (destruct Hj as [Hj|Hj]; [injection Hj as <- <-; vm_compute in E; subst s; first [tauto|destruct B as [B|B]; discriminate B]|]). destruct Hj.
    - intros [[-> ->]|[-> ->]]; (split; [unfold bad_state; tauto|]); eexists; (split; [cbn [c120_wf wf_jobs In]; first [right; right; left; reflexivity|right; right; right; left; reflexivity]|reflexivity]). }
  intros st. unfold possible_state. cbn [c120_wf wf_on allowed]. split.
  - intros [[N _]|(k & B & L)]; [destruct (N "c" Failed); apply Bad; tauto|].
    apply Bad in B as [[-> ->]|[-> ->]]; [|reflexivity]. exfalso. apply (L "e" Cancelled); [apply Bad; tauto|]. apply dt_one. eexists. split; [right; right; right; left; reflexivity|left; reflexivity].
  - intros ->. right. exists "e". split; [apply Bad; tauto|]. intros k s B D.
    assert (K : k = "e" \/ k = "c") by (apply Bad in B; tauto).
    assert (Le : (if eqb "e" "c" then 1 else if eqb "e" "e" then 2 else 0) < (if eqb k "c" then 1 else if eqb k "e" then 2 else 0)).
    { revert D. clear. assert (H : forall k d, depends c120_wf k d -> In d (keys (wf_jobs c120_wf)) /\
        (if eqb d "c" then 1 else if eqb d "e" then 2 else 0) < (if eqb k "c" then 1 else if eqb k "e" then 2 else 0)).
      { intros k2 d (j & Hj & Hd). cbn [c120_wf wf_jobs In] in Hj.
        repeat (destruct Hj as [Hj|Hj]; [injection Hj as <- <-; cbn in Hd; first [solve [destruct Hd]|destruct Hd as [<-|[]]; vm_compute; split; [tauto|lia]]|]). destruct Hj. }
      apply (trans_level c120_wf (fun k => if eqb k "c" then 1 else if eqb k "e" then 2 else 0) H). }
    destruct K as [-> | ->]; vm_compute in Le; lia.
Qed.
(** What conditions say can be decided by the files of a push: here one holds and another does not. *)
Definition c120_push : trigger_event := TriggerEvent "push" "owner" "repo" None "sha" "main" "refs/heads/main".
Definition c120_glob : glob_oracle := fun p => Some (fun s => eqb p s).
Definition c120_on (path : string) : condition := CConfig (ConditionConfig (Some (PushCondition None (Some [path]))) None).
Example C120_judged_nonvacuous :
  let matches := fun c => cond_is_match c120_glob c (ConditionPayload "push" "main" ["src"]) in
  judged c120_glob (ECtx (Matcher true (Some c120_push)) None) matches /\ matches (c120_on "src") = true /\ matches (c120_on "doc") = false.
Proof.
  intros matches. split; [|split; reflexivity]. right. split; [reflexivity|]. exists c120_push, ["src"]. split; [reflexivity|]. split; [left; reflexivity|].
  intros c. apply (Cond_proof.cond_is_match_spec c120_glob c).
Qed.
Theorem C120_second_result_counts :
  exists s tr r, wrun (fun _ => None) c26_cx c120_wf c120_run s tr /\ ws_main s = WpDone r /\ came_out (fun _ => true) c120_res tr /\
    map fst (received tr) = ["a"; "b"; "c"; "e"; "c"; "d"] /\ wr_state r = Failed /\ ~ possible_state (fun _ => true) c120_res c120_wf (wr_state r).
Proof.
  do 3 eexists. split; [eapply (wexec_run (fun _ => None) c26_cx c120_wf c120_run [] (winit c33_sh) []); [constructor|vm_compute; reflexivity]|].
  split; [reflexivity|]. split; [|split; [reflexivity|split; [reflexivity|]]].
  - split.
    + intros w c b Hin. cbn [app] in Hin. repeat (destruct Hin as [Hin|Hin]; [discriminate Hin|]). destruct Hin.
    + intros k r n x Hin; vm_compute in Hin. repeat (destruct Hin as [E|Hin]; [injection E as <- <-; destruct n as [|[|n]]; cbn; intros Hx _; try discriminate Hx; injection Hx as <-; reflexivity|]). destruct Hin.
  - rewrite C120_nonvacuous. discriminate.
Qed.
Print Assumptions C120_second_result_counts.
