(** Theorems about the runner's directories and container names (C44, C45, C53, C68). *)
From Verif Require Import Base Types Ids_model Ids_spec Ids_proof Paths_model Paths_spec Paths_proof.

Theorem C44_contained : forall base r id, ordinary_repo r -> ordinary_id id ->
  let m := build_metadata base r id in
  within base (md_step_dir m) /\ within base (md_data_dir m) /\ within base (md_cache_dir m) /\ within (md_step_dir m) (md_entrypoint m).
Proof.
  intros base r id Hr Hid m. assert (B : components base = (fst (components base), snd (components base))) by (destruct (components base); reflexivity).
  assert (R := repo_names_ordinary _ Hr). assert (Hid' := Hid). destruct Hid' as [Hw Hj]. unfold m.
  split; [|split; [|split]].
  - eapply within_base; [exact B|rewrite (step_dir_components _ _ _ Hr Hid), <- app_assoc; reflexivity|]. apply Forall_app. split; [exact R|]. ordl.
  - eapply within_base; [exact B|rewrite (data_dir_components _ _ _ Hr Hid), <- app_assoc; reflexivity|]. apply Forall_app. split; [exact R|]. ordl.
  - eapply within_base; [exact B|rewrite (cache_dir_components _ _ id Hr), <- app_assoc; reflexivity|]. apply Forall_app. split; [exact R|]. ordl.
  - eapply within_base; [apply (step_dir_components _ _ _ Hr Hid)|rewrite (entrypoint_components _ _ _ Hr Hid)|].
    + instantiate (1 := ["entrypoint"]). rewrite <- !app_assoc. reflexivity.
    + ordl.
Qed.
(** Where exactly everything of a step is: under the base directory, below owner and name of the event's repository if there is an event. *)
Theorem C44_places : forall base ev id, ordinary_repo (event_repo ev) -> ordinary_id id ->
  let m := step_metadata base ev id in
  let at_ names p := components p = (fst (components base), snd (components base) ++ match ev with Some e => [te_repo_owner e; te_repo_name e] | None => [] end ++ names) in
  at_ [sid_0 id; sid_1 id; show_usize (sid_2 id)] (md_step_dir m) /\
  at_ [sid_0 id; sid_1 id; show_usize (sid_2 id); "entrypoint"] (md_entrypoint m) /\
  at_ [sid_0 id; sid_1 id; "data"] (md_data_dir m) /\
  at_ ["caches"] (md_cache_dir m) /\
  md_docker_name m = sid_0 id +++ "-" +++ sid_1 id +++ "-" +++ show_usize (sid_2 id) /\
  md_docker_workdir m = "/home/runner/work".
Proof.
  intros base ev id Hr Hid m at_. assert (E : repo_names (event_repo ev) = match ev with Some e => [te_repo_owner e; te_repo_name e] | None => [] end) by (destruct ev; reflexivity).
  unfold at_, m, step_metadata. rewrite <- E.
  rewrite (step_dir_components _ _ _ Hr Hid), (entrypoint_components _ _ _ Hr Hid), (data_dir_components _ _ _ Hr Hid), (cache_dir_components _ _ id Hr), <- !app_assoc.
  repeat split; reflexivity.
Qed.
Print Assumptions C44_places.
Theorem C44_step_directories_distinct : forall base r r' id id', ordinary_repo r -> ordinary_repo r' -> ordinary_id id -> ordinary_id id' ->
  same_place (md_step_dir (build_metadata base r id)) (md_step_dir (build_metadata base r' id')) <-> r = r' /\ id = id'.
Proof.
  intros base r r' id id' Hr Hr' Hi Hi'. unfold same_place. rewrite (step_dir_components _ _ _ Hr Hi), (step_dir_components _ _ _ Hr' Hi'). split; [|intros [-> ->]; reflexivity].
  intros [= E]. rewrite <- !app_assoc in E. apply app_inv_head in E. apply names_eq in E as [-> E]; [|reflexivity]. split; [reflexivity|].
  injection E as E0 E1 E2. apply show_usize_inj in E2. destruct id, id'; cbn in *; congruence.
Qed.
Theorem C44_data_shared_iff_same_job : forall base r r' id id', ordinary_repo r -> ordinary_repo r' -> ordinary_id id -> ordinary_id id' ->
  same_place (md_data_dir (build_metadata base r id)) (md_data_dir (build_metadata base r' id')) <-> r = r' /\ step_id_job_id id = step_id_job_id id'.
Proof.
  intros base r r' id id' Hr Hr' Hi Hi'. unfold same_place. rewrite (data_dir_components _ _ _ Hr Hi), (data_dir_components _ _ _ Hr' Hi'). unfold step_id_job_id. split.
  - intros [= E]. rewrite <- !app_assoc in E. apply app_inv_head in E. apply names_eq in E as [-> E]; [|reflexivity]. split; [reflexivity|]. congruence.
  - intros [-> E]. injection E as -> ->. reflexivity.
Qed.
Theorem C44_step_directory_is_no_data_directory : forall base r r' id id', ordinary_repo r -> ordinary_repo r' -> ordinary_id id -> ordinary_id id' ->
  ~ same_place (md_step_dir (build_metadata base r id)) (md_data_dir (build_metadata base r' id')).
Proof.
  intros base r r' id id' Hr Hr' Hi Hi'. unfold same_place. rewrite (step_dir_components _ _ _ Hr Hi), (data_dir_components _ _ _ Hr' Hi').
  intros [= E]. rewrite <- !app_assoc in E. apply app_inv_head in E. apply names_eq in E as [_ E]; [|reflexivity]. injection E as _ _ E.
  apply (data_not_decimal (sid_2 id)). rewrite <- E. apply show_usize_decimal.
Qed.
(** Among steps that all have a trigger event, or all have none, no step directory lies in another step's step or data directory. *)
Theorem C44_not_nested : forall base r r' id id', ordinary_repo r -> ordinary_repo r' -> ordinary_id id -> ordinary_id id' -> same_kind r r' ->
  (within (md_step_dir (build_metadata base r id)) (md_step_dir (build_metadata base r' id')) -> r = r' /\ id = id') /\
  ~ within (md_data_dir (build_metadata base r id)) (md_step_dir (build_metadata base r' id')) /\
  ~ within (md_step_dir (build_metadata base r id)) (md_data_dir (build_metadata base r' id')).
Proof.
  intros base r r' id id' Hr Hr' Hi Hi' K. split; [|split].
  - intros (rest & E & _). rewrite (step_dir_components _ _ _ Hr' Hi'), (step_dir_components _ _ _ Hr Hi) in E. cbn [fst snd] in E. injection E as E.
    rewrite <- !app_assoc in E. apply app_inv_head in E. apply names_prefix in E as [-> E]; [|exact K|cbn; lia]. split; [reflexivity|].
    injection E as E0 E1 E2 _. apply show_usize_inj in E2. destruct id, id'; cbn in *; congruence.
  - intros (rest & E & _). rewrite (step_dir_components _ _ _ Hr' Hi'), (data_dir_components _ _ _ Hr Hi) in E. cbn [fst snd] in E. injection E as E.
    rewrite <- !app_assoc in E. apply app_inv_head in E. apply names_prefix in E as [-> E]; [|exact K|cbn; lia]. injection E as _ _ E _.
    apply (data_not_decimal (sid_2 id')). rewrite <- E. apply show_usize_decimal.
  - intros (rest & E & _). rewrite (data_dir_components _ _ _ Hr' Hi'), (step_dir_components _ _ _ Hr Hi) in E. cbn [fst snd] in E. injection E as E.
    rewrite <- !app_assoc in E. apply app_inv_head in E. apply names_prefix in E as [-> E]; [|exact K|cbn; lia]. injection E as _ _ E _.
    apply (data_not_decimal (sid_2 id)). rewrite E. apply show_usize_decimal.
Qed.
Print Assumptions C44_contained.
Print Assumptions C44_step_directories_distinct.
Print Assumptions C44_data_shared_iff_same_job.
Print Assumptions C44_step_directory_is_no_data_directory.
Print Assumptions C44_not_nested.

Example paths_nonvacuous :
  ordinary_repo (Some ("panghu-huang", "astro-run")) /\ ordinary_id (StepId "wf-1" "build" 12) /\
  build_metadata "/home/runner/" (Some ("panghu-huang", "astro-run")) (StepId "wf-1" "build" 12) =
  Metadata "/home/runner/panghu-huang/astro-run/wf-1/build/12" "/home/runner/panghu-huang/astro-run/wf-1/build/data"
    "/home/runner/panghu-huang/astro-run/caches" "/home/runner/panghu-huang/astro-run/wf-1/build/12/entrypoint" "wf-1-build-12" "/home/runner/work".
Proof. split; [|split; [|reflexivity]]; vm_compute; repeat split; discriminate. Qed.
(** Ordinary names are needed: an id of ".." or with a leading slash leaves the working directory. *)
Example ordinary_needed : ~ within "/base" (md_step_dir (build_metadata "/base" None (StepId "/etc" "j" 0))).
Proof. intros (rest & E & _). vm_compute in E. discriminate. Qed.
(** The same kind is needed in C44_not_nested. *)
Example kind_needed : within (md_step_dir (build_metadata "/b" None (StepId "a" "b" 1))) (md_step_dir (build_metadata "/b" (Some ("a", "b")) (StepId "1" "j" 0))).
Proof. exists ["j"; "0"]. split; [reflexivity|]. ordl. Qed.

(** ** C45: container names *)
Theorem C45_refuted : ~ (forall id id', docker_name id = docker_name id' -> id = id').
Proof. intros H. specialize (H (StepId "a" "b-c" 1) (StepId "a-b" "c" 1) eq_refl). discriminate H. Qed.
Definition dash_free (s : string) : Prop := free_of "-"%char s.
Lemma docker_name_inj_number id id' : docker_name id = docker_name id' -> sid_0 id +++ String "-" (sid_1 id) = sid_0 id' +++ String "-" (sid_1 id') /\ sid_2 id = sid_2 id'.
Proof.
  unfold docker_name. intros E.
  assert (A : forall x, sid_0 x +++ "-" +++ sid_1 x +++ "-" +++ show_usize (sid_2 x) = (sid_0 x +++ String "-" (sid_1 x)) +++ String "-" (show_usize (sid_2 x))).
  { intros x. rewrite append_assoc_s. reflexivity. }
  rewrite !A in E. apply append_cons_free_r_inj in E.
  - destruct E as [E1 E2]. split; [exact E1|]. apply show_usize_inj, E2.
  - eapply decimal_dash_free, show_usize_decimal.
  - eapply decimal_dash_free, show_usize_decimal.
Qed.
Lemma append_inj_length a : forall b x y, String.length a = String.length b -> a +++ x = b +++ y -> a = b /\ x = y.
Proof.
  induction a as [|c a IH]; intros [|d b] x y L E; try discriminate L; [auto|]. injection E as -> E. injection L as L.
  destruct (IH b x y L E) as [-> ->]. auto.
Qed.
Theorem C45_unique_partial : forall id id', docker_name id = docker_name id' ->
  (String.length (sid_0 id) = String.length (sid_0 id') \/ (dash_free (sid_0 id) /\ dash_free (sid_0 id')) \/ (dash_free (sid_1 id) /\ dash_free (sid_1 id'))) -> id = id'.
Proof.
  intros id id' E H. apply docker_name_inj_number in E as [E En]. assert (E2 : sid_0 id = sid_0 id' /\ sid_1 id = sid_1 id').
  { destruct H as [H|[[H H']|[H H']]].
    - apply append_inj_length in E as [E1 E2]; [|exact H]. injection E2 as E2. auto.
    - apply free_app_inj in E as [E1 E2]; auto.
    - apply append_cons_free_r_inj in E; auto. }
  destruct id, id'; cbn in *; destruct E2; congruence.
Qed.
(** C68: as it holds. *)
Theorem C68_names_unique_within_a_workflow : forall w j n j' n', docker_name (StepId w j n) = docker_name (StepId w j' n') -> j = j' /\ n = n'.
Proof. intros w j n j' n' E. apply C45_unique_partial in E; [injection E as -> ->; auto|left; reflexivity]. Qed.
Theorem C68_names_unique_for_equally_long_ids : forall id id', String.length (sid_0 id) = String.length (sid_0 id') -> docker_name id = docker_name id' -> id = id'.
Proof. intros id id' L E. apply C45_unique_partial in E; auto. Qed.
Print Assumptions C45_unique_partial.
Print Assumptions C68_names_unique_within_a_workflow.

(** ** C53: clean-up of a workflow *)
(** [runs]: every run call the runner has seen, in order. The workflow's steps all came with the event [ev]. *)
Theorem C53_contains_own_directories : forall base runs w ev id, ordinary (wid_0 w) -> ordinary_repo (event_repo ev) ->
  (forall id e, In (id, e) runs -> step_id_workflow_id id = w -> e = ev) ->
  In (id, ev) runs -> step_id_workflow_id id = w -> ordinary (sid_1 id) ->
  let d := cleanup_dir base (events_after runs) w in
  within d (md_step_dir (step_metadata base ev id)) /\ within d (md_data_dir (step_metadata base ev id)) /\ within d (md_entrypoint (step_metadata base ev id)).
Proof.
  intros base runs w ev id Hw Hr Hu Hin Hid Hj d.
  assert (L : lookup w (events_after runs) = ev) by (apply events_uniform; eauto).
  assert (O : ordinary_id id) by (split; [rewrite <- Hid in Hw; exact Hw|exact Hj]).
  assert (D : components d = (fst (components base), snd (components base) ++ repo_names (event_repo ev) ++ [wid_0 w])) by (unfold d; rewrite cleanup_components; rewrite ?L; auto).
  assert (W : wid_0 w = sid_0 id) by (rewrite <- Hid; reflexivity). unfold step_metadata.
  split; [|split]; eexists; rewrite D; cbn [fst snd].
  - rewrite (step_dir_components _ _ _ Hr O), W. split; [rewrite <- !app_assoc; reflexivity|]. ordl.
  - rewrite (data_dir_components _ _ _ Hr O), W. split; [rewrite <- !app_assoc; reflexivity|]. ordl.
  - rewrite (entrypoint_components _ _ _ Hr O), W. split; [rewrite <- !app_assoc; reflexivity|]. ordl.
Qed.
Theorem C53_contains_no_other_directory : forall base runs w ev id' ev', ordinary (wid_0 w) -> ordinary_repo (event_repo ev) ->
  (forall id e, In (id, e) runs -> step_id_workflow_id id = w -> e = ev) -> (exists id, In (id, ev) runs /\ step_id_workflow_id id = w) ->
  ordinary_id id' -> ordinary_repo (event_repo ev') -> same_kind (event_repo ev) (event_repo ev') ->
  let d := cleanup_dir base (events_after runs) w in
  (step_id_workflow_id id' <> w \/ event_repo ev' <> event_repo ev ->
   ~ within d (md_step_dir (step_metadata base ev' id')) /\ ~ within d (md_data_dir (step_metadata base ev' id'))) /\
  (wid_0 w <> "caches" -> ~ within d (md_cache_dir (step_metadata base ev' id'))).
Proof.
  intros base runs w ev id' ev' Hw Hr Hu He Hid Hr' K d.
  assert (L : lookup w (events_after runs) = ev) by (apply events_uniform; [exact Hu|destruct He as (i & ? & ?); eauto]).
  assert (D : components d = (fst (components base), snd (components base) ++ repo_names (event_repo ev) ++ [wid_0 w])) by (unfold d; rewrite cleanup_components; rewrite ?L; auto).
  unfold step_metadata. split.
  - intros Hne. split; intros (rest & E & _).
    + rewrite (step_dir_components _ _ _ Hr' Hid), D in E. cbn [fst snd] in E. injection E as E. rewrite <- !app_assoc in E. apply app_inv_head in E.
      apply names_prefix in E as [E1 E2]; [|exact K|cbn; lia]. injection E2 as E2 _. destruct Hne as [Hne|Hne]; [|congruence]. apply Hne. destruct w; unfold step_id_workflow_id; cbn in *; congruence.
    + rewrite (data_dir_components _ _ _ Hr' Hid), D in E. cbn [fst snd] in E. injection E as E. rewrite <- !app_assoc in E. apply app_inv_head in E.
      apply names_prefix in E as [E1 E2]; [|exact K|cbn; lia]. injection E2 as E2 _. destruct Hne as [Hne|Hne]; [|congruence]. apply Hne. destruct w; unfold step_id_workflow_id; cbn in *; congruence.
  - intros Hc (rest & E & _). rewrite (cache_dir_components _ _ _ Hr'), D in E. cbn [fst snd] in E. injection E as E. rewrite <- !app_assoc in E. apply app_inv_head in E.
    apply names_prefix in E as [E1 E2]; [|exact K|cbn; lia]. injection E2 as E2 _. congruence.
Qed.
Print Assumptions C53_contains_own_directories.
Print Assumptions C53_contains_no_other_directory.
Definition ev0 : trigger_event := TriggerEvent "push" "o" "r" None "s" "main" "refs".
Example C53_nonvacuous :
  cleanup_dir "/b" (events_after [(StepId "w" "j" 0, Some ev0); (StepId "w" "j" 1, Some ev0); (StepId "v" "j" 1, None)]) (WorkflowId "w") = "/b/o/r/w" /\
  cleanup_dir "/b" (events_after [(StepId "w" "j" 0, Some ev0); (StepId "v" "j" 1, None)]) (WorkflowId "v") = "/b/v".
Proof. split; reflexivity. Qed.
(** The hypotheses are needed: a workflow without event and named like a repository owner removes that owner's directories,
    and a workflow named "caches" removes the cache. *)
Example C53_mixed_events : within (cleanup_dir "/b" (events_after [(StepId "o" "j" 0, None)]) (WorkflowId "o")) (md_step_dir (step_metadata "/b" (Some ev0) (StepId "w" "j" 0))).
Proof. exists ["r"; "w"; "j"; "0"]. split; [reflexivity|]. ordl. Qed.
Example C53_caches : same_place (cleanup_dir "/b" (events_after [(StepId "caches" "j" 0, None)]) (WorkflowId "caches")) (md_cache_dir (step_metadata "/b" None (StepId "w" "j" 0))).
Proof. reflexivity. Qed.
