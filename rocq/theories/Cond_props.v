(** Properties C12-C14 (conditions). *)
From Verif Require Import Base Types Cond_model Cond_spec Cond_proof.

(** C12 *)
Theorem C12_filter : forall glob values patterns,
  is_match_patterns glob values patterns = true <-> filter_accepts glob values patterns.
Proof. exact is_match_patterns_spec. Qed.
Print Assumptions C12_filter.

Theorem C12_order_irrelevant : forall glob values patterns values' patterns',
  (forall p, In p patterns -> valid glob p) ->
  Permutation values values' -> Permutation patterns patterns' ->
  is_match_patterns glob values patterns = is_match_patterns glob values' patterns'.
Proof.
  intros glob values patterns values' patterns' Hv Pv Pp.
  assert (Hv' : forall p, In p patterns' -> valid glob p).
  { intros p Hp. apply Hv. eapply Permutation_in; [apply Permutation_sym; exact Pp|exact Hp]. }
  assert (forall a b, (a = true <-> b = true) -> a = b) as Hb by (intros [] []; intuition congruence).
  apply Hb. rewrite !is_match_patterns_spec. split.
  - intros [_ (v & p & H1 & H2 & H3)|pre bad post v vs E _ Hn _ _].
    + apply fa_valid; [exact Hv'|]. exists v, p. split; [eapply Permutation_in; eauto|]. split; [eapply Permutation_in; eauto|exact H3].
    + exfalso; apply Hn, Hv. rewrite E; apply in_or_app; cbn; auto.
  - apply Permutation_sym in Pv; apply Permutation_sym in Pp.
    intros [_ (v & p & H1 & H2 & H3)|pre bad post v vs E _ Hn _ _].
    + apply fa_valid; [exact Hv|]. exists v, p. split; [eapply Permutation_in; eauto|]. split; [eapply Permutation_in; eauto|exact H3].
    + exfalso; apply Hn, Hv'. rewrite E; apply in_or_app; cbn; auto.
Qed.
Print Assumptions C12_order_irrelevant.

Theorem C12_empty : forall glob l, is_match_patterns glob [] l = false /\ is_match_patterns glob l [] = false.
Proof. intros glob l; split; [reflexivity|induction l; cbn; auto]. Qed.
Print Assumptions C12_empty.

Definition demo_glob : glob_oracle := fun p =>
  if eqb p "[" then None else if eqb p "*" then Some (fun _ => true) else Some (eqb p).
Example C12_nonvacuous :
  is_match_patterns demo_glob ["a"; "b"] ["x"; "b"; "["] = false /\
  is_match_patterns demo_glob ["b"; "a"] ["x"; "b"; "["] = true /\
  is_match_patterns demo_glob ["a"; "b"] ["x"; "b"] = true.
Proof. repeat split. Qed.

(** C13 *)
Theorem C13_condition : forall glob c p, cond_is_match glob c p = true <-> condition_holds glob c p.
Proof. exact cond_is_match_spec. Qed.
Print Assumptions C13_condition.

Example C13_nonvacuous :
  condition_holds demo_glob
    (CConfig (ConditionConfig (Some (PushCondition (Some ["main"]) (Some ["src"]))) None))
    (ConditionPayload "push" "main" ["doc"; "src"]).
Proof. apply cond_is_match_spec; reflexivity. Qed.

(** C14 *)
Theorem C14_skip_iff : forall glob m gh cache on,
  snd (should_skip glob m gh cache on) = true <->
  exists c ev p, on = Some c /\ cm_auth m = true /\ cm_event m = Some ev /\
    (cache = Some p \/
     (cache = None /\ exists files, files_fetched gh ev files /\ p = ConditionPayload (te_event ev) (te_branch ev) files)) /\
    ~ condition_holds glob c p.
Proof. exact should_skip_spec. Qed.
Print Assumptions C14_skip_iff.

(** Under every interleaving of concurrent checks: the cached payload is one GitHub delivered for the trigger event, *)
Theorem C14_cache_is_fetched : forall glob m ops p,
  cms_cache (cm_after glob m ops) = Some p ->
  exists ev files, cm_event m = Some ev /\ fetched_in glob m ops files /\
    p = ConditionPayload (te_event ev) (te_branch ev) files.
Proof. exact cache_from. Qed.
Print Assumptions C14_cache_is_fetched.

(** a call answers "no match" only if the condition fails on the cached or just fetched files, *)
Theorem C14_start_answer : forall glob m ops call c b,
  cm_output glob m ops (CmStart call c) = CmAnswer b ->
  (b = false <-> cm_auth m = true /\ cm_event m <> None /\
     exists p, cms_cache (cm_after glob m ops) = Some p /\ ~ condition_holds glob c p).
Proof. exact start_answer. Qed.
Print Assumptions C14_start_answer.

Theorem C14_finish_answer : forall glob m ops call gh b c ev,
  lookup call (cms_inflight (cm_after glob m ops)) = Some (c, ev) ->
  cm_output glob m ops (CmFinish call gh) = CmAnswer b ->
  (b = false <-> exists files, files_fetched gh ev files /\
     ~ condition_holds glob c (ConditionPayload (te_event ev) (te_branch ev) files)).
Proof. exact finish_answer. Qed.
Print Assumptions C14_finish_answer.

(** after one successful fetch no later call ever asks GitHub, *)
Theorem C14_no_fetch_after_success : forall glob m ops call gh c ev files ops' call' c',
  lookup call (cms_inflight (cm_after glob m ops)) = Some (c, ev) -> files_fetched gh ev files ->
  exists b, cm_output glob m ((ops ++ [CmFinish call gh]) ++ ops') (CmStart call' c') = CmAnswer b.
Proof.
  intros glob m ops call gh c ev files ops' call' c' Hl Hf. apply no_fetch_after_success.
  apply cache_mono_app. rewrite (success_sets_cache glob m ops call gh c ev files Hl Hf). discriminate.
Qed.
Print Assumptions C14_no_fetch_after_success.

(** and if no other fetch was in flight then, all later decisions use that same file list. *)
Theorem C14_same_files_partial : forall glob m ops ops' p,
  cms_cache (cm_after glob m ops) = Some p -> cms_inflight (cm_after glob m ops) = [] ->
  cms_cache (cm_after glob m (ops ++ ops')) = Some p.
Proof. exact cache_stable. Qed.
Print Assumptions C14_same_files_partial.

Definition demo_event : trigger_event := TriggerEvent "push" "o" "r" None "sha" "main" "refs/heads/main".
Definition demo_gh (l : list string) : github := GitHub (Ok tt) (Ok (Some l)) (fun _ => Ok l).

(** Two concurrent first fetches may answer differently, and the later answer replaces the earlier. *)
Theorem C14_same_files_refuted : exists glob m ops o p p',
  p <> p' /\ cms_cache (cm_after glob m ops) = Some p /\ cms_cache (cm_after glob m (ops ++ [o])) = Some p'.
Proof.
  exists demo_glob, (Matcher true (Some demo_event)),
    [CmStart 0 (CEvent ["push"]); CmStart 1 (CEvent ["push"]); CmFinish 0 (demo_gh ["a"])],
    (CmFinish 1 (demo_gh ["b"])),
    (ConditionPayload "push" "main" ["a"]), (ConditionPayload "push" "main" ["b"]).
  repeat split. discriminate.
Qed.
Print Assumptions C14_same_files_refuted.

Example C14_nonvacuous :
  snd (should_skip demo_glob (Matcher true (Some demo_event)) (demo_gh ["doc"]) None
     (Some (CConfig (ConditionConfig (Some (PushCondition None (Some ["src"]))) None)))) = true /\
  snd (should_skip demo_glob (Matcher true (Some demo_event)) (GitHub (Err (OtherError "net")) (Ok None) (fun _ => Ok [])) None
     (Some (CConfig (ConditionConfig (Some (PushCondition None (Some ["src"]))) None)))) = false.
Proof. split; reflexivity. Qed.

(** Finding: for an event other than push / pull_request nothing is ever skipped, not even by an event list
    that does not contain it. *)
Theorem C14_unsupported_event_never_skips : forall glob m gh on ev,
  cm_event m = Some ev -> te_event ev <> "push" -> te_event ev <> "pull_request" ->
  should_skip glob m gh None on = (None, false).
Proof.
  intros glob m gh [c|] ev He H1 H2; [|reflexivity]. unfold should_skip, is_match, is_match_first. rewrite He.
  destruct (cm_auth m); cbn; [|reflexivity]. unfold fetch_payload, get_changed_files.
  apply eqb_false in H1; apply eqb_false in H2. rewrite H1, H2. reflexivity.
Qed.
Print Assumptions C14_unsupported_event_never_skips.
