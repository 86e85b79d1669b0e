(** The documents of messages. *)
From Verif Require Import Base Types Plugins_model Exec_model Sched_model Config_model Serde_model Serde_spec Serde_proof Json_model Json_spec Json_proof.
From Verif Require Text_model Text_proof.

Definition shaped (k : nat) (v : value) : Prop := document v /\ nesting v <= k.
Lemma shaped_le k k' v : k <= k' -> shaped k v -> shaped k' v.
Proof. intros L [D N]. split; [exact D|lia]. Qed.
Lemma max_list_le l k : Forall (fun x => x <= k) l -> max_list l <= k.
Proof. induction 1; cbn; [lia|]. unfold max_list in *. lia. Qed.
Lemma shaped_str k s : is_text s -> shaped k (VStr s).
Proof. intros T. split; [constructor; exact T|cbn; lia]. Qed.
Lemma shaped_null k : shaped k VNull.
Proof. split; [constructor|cbn; lia]. Qed.
Lemma shaped_bool k b : shaped k (VBool b).
Proof. split; [constructor|cbn; lia]. Qed.
Lemma shaped_int k z : (- 2 ^ 63 <= z < 2 ^ 64)%Z -> shaped k (VInt z).
Proof. split; [constructor; assumption|cbn; lia]. Qed.
Lemma shaped_f64 k f : shaped k (put_f64 f).
Proof. unfold put_f64. destruct (is_finite f) eqn:E; [split; [constructor; apply is_finite_spec, E|cbn; lia]|apply shaped_null]. Qed.
Lemma shaped_seq' k l : Forall (shaped k) l -> shaped (S k) (VSeq l).
Proof.
  intros H. split; [constructor; rewrite Forall_forall in *; intros x Hx; apply H, Hx|]. cbn. apply le_n_S, max_list_le. rewrite Forall_forall in *. intros n Hn. apply in_map_iff in Hn as (x & <- & Hx). apply H, Hx.
Qed.
Lemma shaped_seq {A} k (e : A -> value) l : Forall (fun x => shaped k (e x)) l -> shaped (S k) (put_seq e l).
Proof. intros H. apply shaped_seq'. rewrite Forall_forall in *. intros v Hv. apply in_map_iff in Hv as (x & <- & Hx). apply H, Hx. Qed.
Lemma lit_text s : Text_model.utf8_ok s = true -> is_text s.
Proof. apply Text_proof.utf8_ok_spec. Qed.
Lemma shaped_fields k fs : Forall (fun x => is_text (fst x)) fs -> Forall (fun x => shaped k (snd x)) fs -> shaped (S k) (put_struct fs).
Proof.
  intros T H. unfold put_struct. split.
  - constructor. rewrite Forall_forall in *. intros e He. apply in_map_iff in He as (x & <- & Hx). split; [eexists; split; [reflexivity|apply T, Hx]|apply H, Hx].
  - cbn. apply le_n_S, max_list_le. rewrite Forall_forall in *. intros n Hn. rewrite map_map in Hn. apply in_map_iff in Hn as (x & <- & Hx). apply H, Hx.
Qed.
Lemma lit_texts l : forallb Text_model.utf8_ok l = true -> Forall is_text l.
Proof. intros T. apply Forall_forall. intros x Hx. rewrite forallb_forall in T. apply lit_text, T, Hx. Qed.
(** The names of fields are texts. *)
Lemma shaped_struct k fs : forallb (fun x => Text_model.utf8_ok (fst x)) fs = true -> Forall (fun x => shaped k (snd x)) fs -> shaped (S k) (put_struct fs).
Proof. intros T. apply shaped_fields. apply Forall_forall. intros x Hx. rewrite forallb_forall in T. apply lit_text, T, Hx. Qed.
Lemma shaped_map {A} k (e : A -> value) m : Forall (fun x => is_text (fst x)) m -> Forall (fun x => shaped k (e (snd x))) m -> shaped (S k) (put_map e m).
Proof.
  intros T H. change (put_map e m) with (VMap (map (fun x => (VStr (fst x), e (snd x))) m)).
  replace (map (fun x => (VStr (fst x), e (snd x))) m) with (map (fun x : string * value => (VStr (fst x), snd x)) (map (fun x => (fst x, e (snd x))) m)) by (rewrite map_map; reflexivity).
  apply (shaped_fields k); rewrite Forall_forall in *; intros y Hy; apply in_map_iff in Hy as (x & <- & Hx); [apply T, Hx|apply H, Hx].
Qed.
Lemma shaped_variant k t v : Text_model.utf8_ok t = true -> shaped k v -> shaped (S k) (put_variant t v).
Proof. intros T H. apply (shaped_struct k [(t, v)]); [cbn [forallb fst]; rewrite T; reflexivity|]. constructor; [exact H|constructor]. Qed.
Lemma shaped_option {A} k (e : A -> value) x : for_some (fun a => shaped k (e a)) x -> shaped k (put_option e x).
Proof. intros H. destruct x; [apply H; reflexivity|apply shaped_null]. Qed.
Lemma shaped_strings k l : Forall is_text l -> shaped (S k) (put_seq VStr l).
Proof. intros H. apply shaped_seq. rewrite Forall_forall in *. intros s Hs. apply shaped_str, H, Hs. Qed.
Lemma shaped_option_strings k x : Forall is_text (texts_of self x) -> shaped (S k) (put_option (put_seq VStr) x).
Proof. intros H. apply shaped_option. intros a ->. apply shaped_strings, H. Qed.
Lemma shaped_option_str k x : Forall is_text (texts_of (fun n => [n]) x) -> shaped k (put_option VStr x).
Proof. intros H. apply shaped_option. intros a ->. apply shaped_str. inversion H. assumption. Qed.
Lemma texts_of_some {A} (f : A -> list string) x a : x = Some a -> Forall is_text (texts_of f x) -> Forall is_text (f a).
Proof. intros ->. exact (fun H => H). Qed.
Lemma texts_in {A} (f : A -> list string) l x : In x l -> Forall is_text (flat_map f l) -> Forall is_text (f x).
Proof. intros Hx H. rewrite Forall_forall in *. intros s Hs. apply H, in_flat_map. eauto. Qed.
Ltac fields := apply shaped_struct; [reflexivity|]; repeat (apply Forall_cons; [cbn [snd]|]); [..|apply Forall_nil].
Ltac texts H := repeat first [rewrite Forall_app in H|rewrite Forall_cons_iff in H]; repeat match goal with X : _ /\ _ |- _ => destruct X end.

Section Shapes.
Variable show_time : time -> string.
Hypothesis times : forall t, is_text (show_time t).
Variable put_payload : payload -> value.
Lemma shaped_N k n : fits_usize n -> shaped k (put_N n).
Proof. intros H. unfold fits_usize in H. apply shaped_int. lia. Qed.
Lemma shaped_step_id k i : valid_step_id i -> Forall is_text (texts_step_id i) -> shaped (S k) (put_step_id i).
Proof. intros H T. unfold texts_step_id in T. texts T. apply shaped_seq'. constructor; [apply shaped_str; assumption|]. constructor; [apply shaped_str; assumption|]. constructor; [apply shaped_N, H|constructor]. Qed.
Lemma shaped_job_id k i : Forall is_text (texts_job_id i) -> shaped (S k) (put_job_id i).
Proof. intros T. unfold texts_job_id in T. texts T. apply shaped_seq'. constructor; [apply shaped_str; assumption|]. constructor; [apply shaped_str; assumption|constructor]. Qed.
Lemma shaped_duration k d : valid_duration d -> shaped (S k) (put_duration d).
Proof. intros [H1 H2]. fields; apply shaped_N; [exact H1|unfold fits_usize; lia]. Qed.
Lemma shaped_environments k m : Forall is_text (texts_env m) -> shaped (S k) (put_environments m).
Proof.
  intros T. apply shaped_map; apply Forall_forall; intros [n v] Hx; apply (texts_in _ _ _ Hx) in T; cbn [fst snd] in *; rewrite Forall_cons_iff in T; [apply T|].
  destruct v as [s|f|b]; cbn; [apply shaped_str; destruct T as [_ T]; inversion T; assumption|apply shaped_f64|apply shaped_bool].
Qed.
Lemma shaped_container k c : Forall is_text (texts_container c) -> shaped (S (S k)) (put_container_options c).
Proof. intros T. unfold texts_container in T. texts T. fields; [apply shaped_str; assumption|apply shaped_option_strings; assumption|apply shaped_option_strings; assumption]. Qed.
Lemma shaped_branches k b p : Forall is_text (texts_of self b ++ texts_of self p) -> shaped (S (S k)) (put_branches_paths b p).
Proof. intros T. texts T. fields; apply shaped_option_strings; assumption. Qed.
Lemma shaped_condition k c : Forall is_text (texts_condition c) -> shaped (S (S (S k))) (put_condition c).
Proof.
  destruct c as [l|c]; cbn [texts_condition put_condition]; intros T; [apply shaped_strings, T|]. rewrite Forall_app in T. destruct T as [T1 T2].
  fields; apply shaped_option; intros a Ha; apply shaped_branches; [exact (texts_of_some _ _ _ Ha T1)|exact (texts_of_some _ _ _ Ha T2)].
Qed.
Lemma shaped_option_condition k x : Forall is_text (texts_of texts_condition x) -> shaped (S (S (S k))) (put_option put_condition x).
Proof. intros T. apply shaped_option. intros a Ha. apply shaped_condition. exact (texts_of_some _ _ _ Ha T). Qed.
Lemma shaped_option_container k x : Forall is_text (texts_of texts_container x) -> shaped (S (S k)) (put_option put_container_options x).
Proof. intros T. apply shaped_option. intros a Ha. apply shaped_container. exact (texts_of_some _ _ _ Ha T). Qed.
Lemma shaped_trigger k e : valid_trigger e -> Forall is_text (texts_trigger e) -> shaped (S k) (put_trigger e).
Proof. intros H T. unfold texts_trigger in T. texts T. fields; try (apply shaped_str; assumption). apply shaped_option. intros a Ha. specialize (H a Ha). unfold fits_i64 in H. apply shaped_int. lia. Qed.
Lemma shaped_option_trigger k x : for_some valid_trigger x -> Forall is_text (texts_of texts_trigger x) -> shaped (S k) (put_option put_trigger x).
Proof. intros H T. apply shaped_option. intros a Ha. apply shaped_trigger; [exact (H a Ha)|exact (texts_of_some _ _ _ Ha T)]. Qed.
Ltac easy_fields := first [apply shaped_str; assumption|apply shaped_bool|apply shaped_option_str; assumption|apply shaped_strings; assumption|apply shaped_environments; assumption|
  apply shaped_option_condition; assumption|apply shaped_option_container; assumption|apply shaped_duration; assumption|apply shaped_step_id; assumption|apply shaped_job_id; assumption|apply shaped_option_trigger; assumption|idtac].
Lemma shaped_step k s : valid_step s -> Forall is_text (texts_step s) -> shaped (S (S (S (S k)))) (put_step s).
Proof. intros (H1 & H2 & H3) T. unfold texts_step in T. texts T. fields; easy_fields. Qed.
Lemma shaped_command k s : valid_command s -> Forall is_text (texts_command s) -> shaped (S (S (S k))) (put_command s).
Proof. intros (H1 & H2 & H3) T. unfold texts_command in T. texts T. fields; easy_fields. Qed.
Lemma shaped_job k j : valid_job j -> Forall is_text (texts_job j) -> shaped (6 + k) (put_job j).
Proof.
  intros H T. unfold texts_job in T. texts T. fields; easy_fields.
  apply shaped_seq. unfold valid_job in H. rewrite Forall_forall in H. apply Forall_forall. intros s Hs. apply shaped_step; [apply H, Hs|]. eapply texts_in; eassumption.
Qed.
Lemma shaped_workflow k x : valid_workflow x -> Forall is_text (texts_workflow x) -> shaped (8 + k) (put_workflow x).
Proof.
  intros [_ H] T. unfold texts_workflow in T. texts T. fields; easy_fields.
  rewrite Forall_forall in H. apply shaped_map; apply Forall_forall; intros e He; match goal with X : Forall is_text (flat_map _ (wf_jobs x)) |- _ => apply (texts_in _ _ _ He) in X; rewrite Forall_cons_iff in X end; [tauto|apply shaped_job; [apply H, He|tauto]].
Qed.
Lemma shaped_option_time k x : shaped k (put_option (put_time show_time) x).
Proof. apply shaped_option. intros a _. apply shaped_str, times. Qed.
Lemma shaped_state k s : shaped k (put_state s).
Proof. apply shaped_str, lit_text. destruct s; reflexivity. Qed.
Lemma shaped_step_result k r : valid_step_result r -> Forall is_text (texts_step_id (sr_id r)) -> shaped (2 + k) (put_step_result show_time r).
Proof.
  intros [H1 H2] T. fields; try apply shaped_option_time; try apply shaped_state; [apply shaped_step_id; assumption|].
  apply shaped_option. intros a Ha. specialize (H2 a Ha). unfold fits_i32 in H2. apply shaped_int. lia.
Qed.
Lemma shaped_job_result k r : valid_job_result r -> Forall is_text (texts_job_result r) -> shaped (4 + k) (put_job_result show_time r).
Proof.
  intros H T. unfold texts_job_result in T. texts T. fields; try apply shaped_option_time; try apply shaped_state; [apply shaped_job_id; assumption|].
  apply shaped_seq. unfold valid_job_result in H. rewrite Forall_forall in H. apply Forall_forall. intros x Hx. apply shaped_step_result; [apply H, Hx|]. eapply (texts_in (fun s => texts_step_id (sr_id s))); eassumption.
Qed.
Lemma shaped_workflow_result k r : valid_workflow_result r -> Forall is_text (texts_workflow_result r) -> shaped (6 + k) (put_workflow_result show_time r).
Proof.
  intros [_ H] T. unfold texts_workflow_result in T. texts T. fields; try apply shaped_option_time; try apply shaped_state; try (apply shaped_str; assumption).
  rewrite Forall_forall in H. apply shaped_map; apply Forall_forall; intros e He; match goal with X : Forall is_text (flat_map _ (wr_jobs r)) |- _ => apply (texts_in _ _ _ He) in X; rewrite Forall_cons_iff in X end; [tauto|apply shaped_job_result; [apply H, He|tauto]].
Qed.
Lemma shaped_state_event k e : valid_state_event e -> Forall is_text (texts_state_event e) -> shaped (3 + k) (put_state_event e).
Proof.
  intros H T. destruct e; cbn [texts_state_event] in T; (apply shaped_variant; [reflexivity|]); fields; try apply shaped_state; [apply shaped_str; inversion T; assumption|apply shaped_job_id, T|apply shaped_step_id; [apply H|exact T]].
Qed.
Lemma shaped_log_type k t : shaped k (put_log_type t).
Proof. apply shaped_str, lit_text. destruct t; reflexivity. Qed.
Lemma shaped_run_event {A} (e : A -> value) (f : A -> list string) r : (Forall is_text (f (re_source r)) -> shaped 124 (e (re_source r))) -> for_some valid_trigger (re_trigger_event r) -> for_some (fun p => shaped 125 (put_payload p)) (re_payload r) ->
  Forall is_text (texts_run_event f r) -> shaped 126 (put_run_event put_payload e r).
Proof.
  intros H1 H2 H3 T. unfold texts_run_event in T. texts T. fields; [eapply shaped_le; [|apply H1; assumption]; lia| |].
  - apply shaped_option_trigger; assumption.
  - apply shaped_option, H3.
Qed.
Lemma shaped_message m : valid_message m -> for_some (fun p => shaped 125 (put_payload p)) (payload_of m) -> shaped 127 (put_message show_time put_payload m).
Proof.
  intros [V T] P. destruct m as [|r|c|[i l|i r]|[e|i s]|c]; cbn [put_message texts] in *.
  - apply (shaped_struct 126); [reflexivity|constructor].
  - cbn in V. unfold fits_i32 in V. texts T. fields; easy_fields. apply shaped_int. lia.
  - destruct V as (V1 & V2 & V3). rewrite !Forall_app in T. destruct T as (T1 & T2 & T3 & T4). fields; easy_fields. apply shaped_command; assumption.
  - rewrite Forall_cons_iff in T. destruct T as [T1 T2]. cbn [put_run_response]. apply shaped_variant; [reflexivity|]. fields; [apply shaped_step_id; [apply V|exact T2]|]. fields; [apply shaped_log_type|apply shaped_str; assumption].
  - destruct V as [V1 V2]. cbn [put_run_response]. apply shaped_variant; [reflexivity|]. fields; [apply shaped_step_id; assumption|]. destruct r as [|c|]; cbn [put_run_result]; try (apply shaped_str, lit_text; reflexivity).
    apply shaped_variant; [reflexivity|]. fields. cbn in V2. unfold fits_i32 in V2. apply shaped_int. lia.
  - cbn [in_bounds] in V. destruct e as [x|x|x|x|x|x|x|x]; cbn [valid_hook_event payload_of put_protocol_event] in *; (apply shaped_variant; [reflexivity|]).
    + destruct V as [V1 V2]. apply (shaped_run_event _ texts_workflow); [apply (shaped_workflow 116), V1|exact V2|exact P|exact T].
    + destruct V as [V1 V2]. apply (shaped_run_event _ texts_job); [apply (shaped_job 118), V1|exact V2|exact P|exact T].
    + destruct V as [V1 V2]. apply (shaped_run_event _ texts_step); [apply (shaped_step 120), V1|exact V2|exact P|exact T].
    + apply (shaped_state_event 123); assumption.
    + rewrite Forall_cons_iff in T. destruct T as [T1 T2]. fields; [apply shaped_step_id; [apply V|exact T2]|apply shaped_log_type|apply shaped_str; assumption|apply shaped_str, times].
    + apply (shaped_step_result 124); assumption.
    + apply (shaped_job_result 122); assumption.
    + apply (shaped_workflow_result 120); assumption.
  - cbn [put_protocol_event]. apply shaped_variant; [reflexivity|]. fields; [apply shaped_step_id; [apply V|exact T]|apply shaped_str, lit_text; destruct s; reflexivity].
  - apply (shaped_command 124); assumption.
Qed.
End Shapes.
