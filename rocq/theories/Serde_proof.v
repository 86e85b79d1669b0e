(** Proofs about the encoding of messages as values. *)
From Verif Require Import Base Types Plugins_model Exec_model Sched_model Config_model Serde_model Serde_spec.

Lemma is_finite_spec f : is_finite f = true <-> finite_number f.
Proof. destruct f; cbn; intuition discriminate. Qed.
Lemma map_all_map {A B C} (f : B -> option C) (g : A -> B) l : map_all f (map g l) = map_all (fun x => f (g x)) l.
Proof. induction l as [|x l IH]; cbn; [reflexivity|]. rewrite IH. reflexivity. Qed.
Lemma map_all_ext {A B} (f g : A -> option B) l : (forall x, In x l -> f x = g x) -> map_all f l = map_all g l.
Proof. induction l as [|x l IH]; intros H; cbn; [reflexivity|]. rewrite (H x (or_introl eq_refl)), IH; [reflexivity|]. intros y Hy. apply H; right; exact Hy. Qed.
Lemma map_all_some {A B} (f : A -> option B) (g : A -> B) l : (forall x, In x l -> f x = Some (g x)) -> map_all f l = Some (map g l).
Proof. induction l as [|x l IH]; intros H; cbn; [reflexivity|]. rewrite (H x (or_introl eq_refl)). cbn. rewrite IH; [reflexivity|]. intros y Hy. apply H; right; exact Hy. Qed.
Lemma map_all_if {A B} (f : A -> option B) (b : A -> bool) (g : A -> B) l : (forall x, In x l -> f x = if b x then Some (g x) else None) ->
  map_all f l = if forallb b l then Some (map g l) else None.
Proof.
  induction l as [|x l IH]; intros H; cbn; [reflexivity|]. rewrite (H x (or_introl eq_refl)), IH by (intros y Hy; apply H; right; exact Hy).
  destruct (b x); cbn; [|reflexivity]. destruct (forallb b l); reflexivity.
Qed.

(** ** Structs *)
Lemma index_of_nth fields i s : NoDup fields -> nth_error fields i = Some s -> index_of s fields = Some i.
Proof.
  revert i. induction fields as [|f r IH]; intros [|i] N H; cbn in *; try discriminate.
  - injection H as ->. rewrite eqb_refl. reflexivity.
  - inv N. destruct (eqb s f) eqn:E; [apply (proj1 (eqb_true _ _)) in E; subst; apply nth_error_In in H; contradiction|]. rewrite (IH i); auto.
Qed.
Lemma index_of_some s fields i : index_of s fields = Some i -> nth_error fields i = Some s.
Proof.
  revert i. induction fields as [|f r IH]; intros i H; cbn in H; [discriminate|]. destruct (eqb s f) eqn:E.
  - apply (proj1 (eqb_true _ _)) in E. injection H as <-. subst. reflexivity.
  - destruct (index_of s r) as [j|]; [|discriminate]. injection H as <-. cbn. auto.
Qed.
Lemma filter_unique {A} (p : A -> bool) (a : list A) x b : p x = true -> (forall y, In y (a ++ b) -> p y = false) -> filter p (a ++ x :: b) = [x].
Proof.
  intros Hx H. assert (F : forall l, (forall y, In y l -> p y = false) -> filter p l = []).
  { induction l as [|y l IH]; intros Hl; cbn; [reflexivity|]. rewrite (Hl y (or_introl eq_refl)). apply IH. intros z Hz; apply Hl; right; exact Hz. }
  rewrite filter_app. cbn. rewrite Hx, !F; [reflexivity| |]; intros y Hy; apply H, in_or_app; auto.
Qed.
Lemma slot_put fields vs i f v : NoDup fields -> length vs = length fields -> nth_error fields i = Some f -> nth_error vs i = Some v ->
  slot fields (map (fun x => (VStr (fst x), snd x)) (combine fields vs)) i = Some (Some v).
Proof.
  intros N L Hf Hv. unfold slot.
  assert (Hc : nth_error (combine fields vs) i = Some (f, v)).
  { clear N. revert vs i L Hf Hv. induction fields as [|f0 r IH]; intros [|v0 vs] [|i] L Hf Hv; cbn in *; try discriminate; [congruence|]. apply IH; auto; lia. }
  apply nth_error_split in Hc as (l1 & l2 & Hc & Hl). rewrite Hc, map_app. cbn [map fst snd].
  rewrite filter_unique; [reflexivity| |].
  - cbn [fst names_field]. rewrite (index_of_nth _ _ _ N Hf). apply eqb_refl.
  - intros y Hy. apply in_app_or in Hy. assert (Hy' : exists s w, y = (VStr s, w) /\ In (s, w) (l1 ++ l2)).
    { destruct Hy as [Hy|Hy]; apply in_map_iff in Hy as ((s & w) & <- & Hs); exists s, w; (split; [reflexivity|apply in_or_app; auto]). }
    destruct Hy' as (s & w & -> & Hs). cbn [fst names_field]. apply eqb_false. intros Hi. apply index_of_some in Hi.
    assert (Nd : NoDup (map fst (combine fields vs))).
    { replace (map fst (combine fields vs)) with fields; [exact N|]. clear -L. revert vs L. induction fields as [|f0 r IH]; intros [|v0 vs] L; cbn in *; try discriminate; [reflexivity|]. f_equal. apply IH. lia. }
    rewrite Hc, map_app in Nd. cbn [map fst] in Nd. apply NoDup_remove_2 in Nd. apply Nd. rewrite <- map_app. apply in_map_iff. exists (s, w). split; [cbn; congruence|exact Hs].
Qed.
Lemma slots_struct fields vs : NoDup fields -> length vs = length fields -> slots fields (put_struct (combine fields vs)) = Some (map Some vs).
Proof.
  intros N L. unfold slots, put_struct.
  replace (forallb (fun e => is_identifier (fst e)) (map (fun x : string * value => (VStr (fst x), snd x)) (combine fields vs))) with true
    by (symmetry; apply forallb_forall; intros x Hx; apply in_map_iff in Hx as (y & <- & _); reflexivity).
  assert (G : forall n k, k + n = length fields -> map_all (slot fields (map (fun x => (VStr (fst x), snd x)) (combine fields vs))) (seq k n) = Some (map Some (skipn k vs))).
  { induction n as [|n IH]; intros k Hk; cbn [seq map_all].
    - rewrite skipn_all2 by lia. reflexivity.
    - destruct (nth_error fields k) as [f|] eqn:Hf; [|apply nth_error_None in Hf; lia]. destruct (nth_error vs k) as [v|] eqn:Hv; [|apply nth_error_None in Hv; lia].
      rewrite (slot_put _ _ _ _ _ N L Hf Hv). cbn [bind_opt]. rewrite IH by lia. cbn [bind_opt]. f_equal.
      apply nth_error_split in Hv as (l1 & l2 & -> & <-). rewrite !skipn_app, Nat.sub_diag, (skipn_all2 (n := length l1) l1), (skipn_all2 (n := S (length l1)) l1) by lia. replace (S (length l1) - length l1) with 1 by lia. reflexivity. }
  apply (G (length fields) 0). reflexivity.
Qed.

Section Proofs.
Variable show_time : time -> string.
Variable read_time_text : string -> option time.
Variable put_payload : payload -> value.
Variable read_payload : value -> option payload.
Variable rf : spec_float -> spec_float.
Hypothesis times : forall t, read_time_text (show_time t) = Some t.
Notation w := (wire rf).

Lemma wire_struct fs : w (put_struct fs) = put_struct (map (fun x => (fst x, w (snd x))) fs).
Proof. unfold put_struct. cbn [wire]. rewrite !map_map. reflexivity. Qed.
Lemma slots_wire fields fs : NoDup fields -> map fst fs = fields -> slots fields (w (put_struct fs)) = Some (map (fun x => Some (w (snd x))) fs).
Proof.
  intros N E. rewrite wire_struct. replace (map (fun x => (fst x, w (snd x))) fs) with (combine fields (map (fun x => w (snd x)) fs)).
  - rewrite slots_struct; [rewrite map_map; reflexivity|exact N|]. rewrite map_length, <- E, map_length. reflexivity.
  - rewrite <- E. clear. induction fs as [|[a b] fs IH]; cbn; [reflexivity|]. rewrite IH. reflexivity.
Qed.
Ltac nodup := repeat (constructor; [cbn; intuition discriminate|]); constructor.
Ltac struct := rewrite slots_wire; [|nodup|reflexivity]; cbn [map snd].

Lemma w_option {A} (e : A -> value) (d : value -> option A) x : (forall a, x = Some a -> d (w (e a)) = Some a /\ w (e a) <> VNull) -> opt d (Some (w (put_option e x))) = Some x.
Proof.
  intros H. destruct x as [a|]; [|reflexivity]. cbn [put_option opt]. destruct (H a eq_refl) as [H1 H2]. unfold read_option. rewrite H1. destruct (w (e a)); try reflexivity. contradiction.
Qed.
Lemma w_option_str x : opt read_string (Some (w (put_option VStr x))) = Some x.
Proof. apply w_option. intros a _. split; [reflexivity|discriminate]. Qed.
Lemma w_strings l : read_seq read_string (w (put_seq VStr l)) = Some l.
Proof. unfold put_seq. cbn [wire read_seq]. rewrite map_map, map_all_map. rewrite (map_all_some _ (fun x => x)); [rewrite map_id; reflexivity|reflexivity]. Qed.
Lemma w_option_strings x : opt (read_seq read_string) (Some (w (put_option (put_seq VStr) x))) = Some x.
Proof. apply w_option. intros a _. split; [apply w_strings|discriminate]. Qed.
Lemma w_int lo hi z : (lo <= z <= hi)%Z -> read_int lo hi (w (VInt z)) = Some z.
Proof. intros [H1 H2]. cbn. apply Z.leb_le in H1, H2. rewrite H1, H2. reflexivity. Qed.
Lemma w_usize n : fits_usize n -> read_usize (w (put_N n)) = Some n.
Proof. intros H. unfold read_usize, put_N, fits_usize in *. rewrite w_int by lia. cbn. rewrite N2Z.id. reflexivity. Qed.
Lemma w_step_id i : valid_step_id i -> read_step_id (w (put_step_id i)) = Some i.
Proof. intros H. destruct i as [a b n]. unfold put_step_id. cbn [wire map read_step_id read_string bind_opt sid_0 sid_1 sid_2]. rewrite w_usize by exact H. reflexivity. Qed.
Lemma w_job_id i : read_job_id (w (put_job_id i)) = Some i.
Proof. destruct i. reflexivity. Qed.
Lemma w_workflow_id i : read_workflow_id (w (put_workflow_id i)) = Some i.
Proof. destruct i. reflexivity. Qed.
Lemma w_state s : read_state (w (put_state s)) = Some s.
Proof. destruct s; reflexivity. Qed.
Lemma w_log_type s : read_log_type (w (put_log_type s)) = Some s.
Proof. destruct s; reflexivity. Qed.
Lemma w_signal s : read_signal (w (put_signal s)) = Some s.
Proof. destruct s; reflexivity. Qed.
Lemma w_log l : read_log (w (put_log l)) = Some l.
Proof. unfold read_log, put_log. struct. cbn [req]. rewrite w_log_type. destruct l. reflexivity. Qed.
Lemma w_variant {A} tag v (vs : list (string * variant A)) d : lookup tag vs = Some (VtNew d) -> read_enum vs (w (put_variant tag v)) = d (w v).
Proof. intros H. unfold put_variant. cbn [wire map fst snd read_enum]. rewrite H. reflexivity. Qed.
Lemma w_run_result r : valid_run_result r -> read_run_result (w (put_run_result r)) = Some r.
Proof.
  destruct r as [|c|]; intros H; try reflexivity. unfold put_run_result. unfold read_run_result. erewrite w_variant by reflexivity. cbn beta. struct. cbn [req].
  unfold read_i32. cbn in H. unfold fits_i32 in H. rewrite w_int by lia. reflexivity.
Qed.
Lemma w_option_time x : opt (read_time read_time_text) (Some (w (put_option (put_time show_time) x))) = Some x.
Proof. apply w_option. intros a _. split; [unfold read_time, put_time; cbn; apply times|discriminate]. Qed.
Lemma w_duration d : valid_duration d -> read_duration (w (put_duration d)) = Some d.
Proof.
  intros [H1 H2]. unfold read_duration, put_duration. rewrite slots_wire; [|nodup|reflexivity]. rewrite wire_struct. unfold put_struct. cbn [map fst snd forallb].
  cbn [memb existsb]. change (eqb "secs" "secs") with true. change (eqb "nanos" "nanos") with true. rewrite ?orb_true_r, ?orb_true_l. cbn [andb orb map snd req].
  rewrite w_usize by exact H1. cbn [bind_opt]. unfold read_u32, put_N. rewrite w_int by lia. cbn [bind_opt]. rewrite N2Z.id.
  rewrite N.div_small by exact H2. rewrite N.mod_small by exact H2. rewrite N.add_0_r. unfold fits_usize in H1. apply N.ltb_lt in H1. rewrite H1. destruct d. reflexivity.
Qed.
Lemma fold_insert {A} (m : map_ string A) : forall acc, NoDup (keys (acc ++ m)) -> fold_left (fun h e => insert (fst e) (snd e) h) m acc = acc ++ m.
Proof.
  induction m as [|[k v] m IH]; intros acc N; cbn [fold_left fst snd]; [rewrite app_nil_r; reflexivity|].
  assert (I : insert k v acc = acc ++ [(k, v)]).
  { unfold keys in N. rewrite map_app in N. cbn in N. apply NoDup_remove_2 in N. assert (Hk : ~ In k (map fst acc)) by (intros C; apply N, in_or_app; auto).
    clear -Hk. induction acc as [|[k' v'] acc IHa]; cbn in *; [reflexivity|]. destruct (eq_dec k k'); [subst; tauto|]. rewrite IHa; tauto. }
  rewrite I. rewrite IH; rewrite <- app_assoc; [reflexivity|exact N].
Qed.
Lemma w_map_if {A} (e : A -> value) (d : value -> option A) (b : A -> bool) (g : A -> A) m : NoDup (keys m) ->
  (forall x, In x m -> d (w (e (snd x))) = if b (snd x) then Some (g (snd x)) else None) ->
  read_map d (w (put_map e m)) = if forallb (fun x => b (snd x)) m then Some (map (fun x => (fst x, g (snd x))) m) else None.
Proof.
  intros N H. unfold put_map. cbn [wire read_map]. rewrite map_map, map_all_map. cbn [fst snd].
  rewrite (map_all_if _ (fun x => b (snd x)) (fun x => (fst x, g (snd x)))).
  - destruct (forallb (fun x => b (snd x)) m); [|reflexivity]. cbn [bind_opt]. f_equal. apply (fold_insert _ []). cbn [app]. unfold keys in *. rewrite map_map. exact N.
  - intros x Hx. unfold read_entry. cbn [fst snd read_string bind_opt]. rewrite H by exact Hx. destruct (b (snd x)); reflexivity.
Qed.
Lemma w_map {A} (e : A -> value) (d : value -> option A) m : NoDup (keys m) -> (forall x, In x m -> d (w (e (snd x))) = Some (snd x)) -> read_map d (w (put_map e m)) = Some m.
Proof.
  intros N H. rewrite (w_map_if e d (fun _ => true) (fun x => x)); [|exact N|exact H].
  replace (forallb (fun _ => true) m) with true by (clear; induction m; auto). f_equal. rewrite <- (map_id m) at 2. apply map_ext. intros []. reflexivity.
Qed.

Definition fin_env (m : environments) : bool := forallb is_finite (numbers_env m).
Lemma w_env e : read_env (w (put_env e)) = if match e with EnvNumber f => is_finite f | _ => true end then Some (match e with EnvNumber f => EnvNumber (rf f) | x => x end) else None.
Proof. destruct e as [s|f|b]; try reflexivity. unfold put_env, put_f64. destruct (is_finite f); reflexivity. Qed.
Lemma w_environments m : NoDup (keys m) -> read_environments (w (put_environments m)) = if fin_env m then Some (on_env rf m) else None.
Proof.
  intros N. unfold read_environments, put_environments. rewrite (w_map_if put_env read_env (fun e => match e with EnvNumber f => is_finite f | _ => true end) (fun e => match e with EnvNumber f => EnvNumber (rf f) | x => x end)); [|exact N|intros x _; apply w_env]. unfold on_env.
  replace (forallb _ m) with (fin_env m); [destruct (fin_env m); [apply (f_equal Some), map_ext; intros [? []]; reflexivity|reflexivity]|]. unfold fin_env, numbers_env. clear. induction m as [|[k v] m IH]; cbn; [reflexivity|]. rewrite forallb_app, IH. destruct v; cbn; try rewrite andb_true_r; reflexivity.
Qed.
Lemma w_container_options c : read_container_options (w (put_container_options c)) = Some c.
Proof. unfold read_container_options, put_container_options. struct. rewrite !w_option_strings. destruct c. reflexivity. Qed.
Lemma w_option_container x : opt read_container_options (Some (w (put_option put_container_options x))) = Some x.
Proof. apply w_option. intros a _. split; [apply w_container_options|unfold put_container_options; rewrite wire_struct; discriminate]. Qed.
Lemma w_branches_paths b p : read_branches_paths (w (put_branches_paths b p)) = Some (b, p).
Proof. unfold read_branches_paths, put_branches_paths. struct. rewrite !w_option_strings. reflexivity. Qed.
Lemma w_condition_config c : read_condition_config (w (put_condition_config c)) = Some c.
Proof.
  unfold read_condition_config, put_condition_config. struct. rewrite w_option; [|intros a _; split; [unfold read_push, put_push; rewrite w_branches_paths; destruct a; reflexivity|discriminate]].
  cbn [bind_opt]. rewrite w_option; [|intros a _; split; [unfold read_pull_request, put_pull_request; rewrite w_branches_paths; destruct a; reflexivity|discriminate]]. destruct c. reflexivity.
Qed.
Lemma w_condition c : read_condition (w (put_condition c)) = Some c.
Proof.
  unfold read_condition. destruct c as [l|c]; cbn [put_condition].
  - rewrite w_strings. reflexivity.
  - rewrite w_condition_config. reflexivity.
Qed.
Lemma w_option_condition x : opt read_condition (Some (w (put_option put_condition x))) = Some x.
Proof. apply w_option. intros a _. split; [apply w_condition|destruct a; discriminate]. Qed.
Lemma w_trigger e : valid_trigger e -> read_trigger (w (put_trigger e)) = Some e.
Proof.
  intros H. unfold read_trigger, put_trigger. struct. cbn [req wire read_string bind_opt].
  rewrite w_option; [destruct e; reflexivity|]. intros a Ha. specialize (H a Ha). unfold fits_i64 in H. split; [unfold read_i64; rewrite w_int by lia; reflexivity|discriminate].
Qed.
Lemma w_option_trigger x : for_some valid_trigger x -> opt read_trigger (Some (w (put_option put_trigger x))) = Some x.
Proof. intros H. apply w_option. intros a Ha. split; [apply w_trigger, H, Ha|discriminate]. Qed.
Lemma w_step s : valid_step s -> read_step (w (put_step s)) = if fin_env (st_environments s) then Some (on_step rf s) else None.
Proof.
  intros (H1 & H2 & H3). unfold read_step, put_step. struct. cbn [req]. rewrite w_step_id by exact H1. cbn [bind_opt]. rewrite w_option_str. cbn [bind_opt]. rewrite w_option_condition. cbn [bind_opt].
  rewrite w_option_container. cbn [bind_opt wire read_string read_bool]. rewrite w_environments by exact H2. destruct (fin_env (st_environments s)); [|reflexivity]. cbn [bind_opt].
  rewrite w_strings. cbn [bind_opt]. rewrite w_duration by exact H3. reflexivity.
Qed.
Lemma w_command s : valid_command s -> read_command (w (put_command s)) = if fin_env (cmd_environments s) then Some (on_command rf s) else None.
Proof.
  intros (H1 & H2 & H3). unfold read_command, put_command. struct. cbn [req]. rewrite w_step_id by exact H1. cbn [bind_opt]. rewrite w_option_str. cbn [bind_opt].
  rewrite w_option_container. cbn [bind_opt wire read_string read_bool]. rewrite w_environments by exact H2. destruct (fin_env (cmd_environments s)); [|reflexivity]. cbn [bind_opt].
  rewrite w_strings. cbn [bind_opt]. rewrite w_duration by exact H3. reflexivity.
Qed.
Lemma w_context c : in_bounds (MContext c) -> read_context (w (put_context c)) =
  if fin_env (cmd_environments (rx_command c)) then Some (RunContext (rx_id c) (on_command rf (rx_command c)) (rx_event c) (rx_payload c)) else None.
Proof.
  intros (H1 & H2 & H3). unfold read_context, put_context. struct. cbn [req]. rewrite w_step_id by exact H1. cbn [bind_opt]. rewrite w_command by exact H2. destruct (fin_env _); [|reflexivity]. cbn [bind_opt].
  rewrite w_option_trigger by exact H3. cbn [bind_opt]. rewrite w_option_str. reflexivity.
Qed.
Lemma w_seq_if {A} (e : A -> value) (d : value -> option A) (b : A -> bool) (g : A -> A) l : (forall x, In x l -> d (w (e x)) = if b x then Some (g x) else None) ->
  read_seq d (w (put_seq e l)) = if forallb b l then Some (map g l) else None.
Proof. intros H. unfold put_seq. cbn [wire read_seq]. rewrite map_map, map_all_map. apply map_all_if, H. Qed.
Lemma w_seq {A} (e : A -> value) (d : value -> option A) l : (forall x, In x l -> d (w (e x)) = Some x) -> read_seq d (w (put_seq e l)) = Some l.
Proof. intros H. rewrite (w_seq_if e d (fun _ => true) (fun x => x)); [|exact H]. replace (forallb (fun _ => true) l) with true by (clear; induction l; auto). rewrite map_id. reflexivity. Qed.
Definition fin_job (j : job) : bool := forallb is_finite (numbers_job j).
Lemma w_job j : valid_job j -> read_job (w (put_job j)) = if fin_job j then Some (on_job rf j) else None.
Proof.
  intros H. unfold valid_job in H. rewrite Forall_forall in H. unfold read_job, put_job. struct. cbn [req]. rewrite w_job_id. cbn [bind_opt]. rewrite w_option_str. cbn [bind_opt]. rewrite w_option_condition. cbn [bind_opt].
  rewrite (w_seq_if put_step read_step (fun s => fin_env (st_environments s)) (on_step rf)) by (intros s Hs; apply w_step, H, Hs).
  replace (forallb (fun s => fin_env (st_environments s)) (jb_steps j)) with (fin_job j).
  - destruct (fin_job j); [|reflexivity]. cbn [bind_opt]. rewrite !w_strings. reflexivity.
  - unfold fin_job, numbers_job. clear. induction (jb_steps j) as [|s l IH]; cbn; [reflexivity|]. rewrite forallb_app, IH. reflexivity.
Qed.
Definition fin_workflow (wf : workflow) : bool := forallb (fun x => fin_job (snd x)) (wf_jobs wf).
Lemma w_workflow wf : valid_workflow wf -> read_workflow (w (put_workflow wf)) = if fin_workflow wf then Some (on_workflow rf wf) else None.
Proof.
  intros [N H]. rewrite Forall_forall in H. unfold read_workflow, put_workflow. struct. cbn [req]. rewrite w_workflow_id. cbn [bind_opt]. rewrite w_option_str. cbn [bind_opt]. rewrite w_option_condition. cbn [bind_opt].
  rewrite (w_map_if put_job read_job fin_job (on_job rf)); [|exact N|intros x Hx; apply w_job, H, Hx]. unfold fin_workflow. destruct (forallb _ (wf_jobs wf)); reflexivity.
Qed.
Lemma w_option_i32 x : for_some fits_i32 x -> opt read_i32 (Some (w (put_option VInt x))) = Some x.
Proof. intros H. apply w_option. intros a Ha. specialize (H a Ha). unfold fits_i32 in H. split; [unfold read_i32; rewrite w_int by lia; reflexivity|discriminate]. Qed.
Lemma w_step_result r : valid_step_result r -> read_step_result read_time_text (w (put_step_result show_time r)) = Some r.
Proof.
  intros [H1 H2]. unfold read_step_result, put_step_result. struct. cbn [req]. rewrite w_step_id by exact H1. cbn [bind_opt]. rewrite w_state. cbn [bind_opt]. rewrite w_option_i32 by exact H2. cbn [bind_opt].
  rewrite !w_option_time. destruct r. reflexivity.
Qed.
Lemma w_job_result r : valid_job_result r -> read_job_result read_time_text (w (put_job_result show_time r)) = Some r.
Proof.
  intros H. unfold valid_job_result in H. rewrite Forall_forall in H. unfold read_job_result, put_job_result. struct. cbn [req]. rewrite w_job_id. cbn [bind_opt]. rewrite w_state. cbn [bind_opt].
  rewrite !w_option_time. cbn [bind_opt]. rewrite w_seq; [destruct r; reflexivity|]. intros x Hx. apply w_step_result, H, Hx.
Qed.
Lemma w_workflow_result r : valid_workflow_result r -> read_workflow_result read_time_text (w (put_workflow_result show_time r)) = Some r.
Proof.
  intros [N H]. rewrite Forall_forall in H. unfold read_workflow_result, put_workflow_result. struct. cbn [req]. rewrite w_workflow_id. cbn [bind_opt]. rewrite w_state. cbn [bind_opt].
  rewrite !w_option_time. cbn [bind_opt]. rewrite w_map; [destruct r; reflexivity|exact N|]. intros x Hx. apply w_job_result, H, Hx.
Qed.
Lemma w_workflow_log l : valid_step_id (wl_step_id l) -> read_workflow_log read_time_text (w (put_workflow_log show_time l)) = Some l.
Proof.
  intros H. unfold read_workflow_log, put_workflow_log. struct. cbn [req]. rewrite w_step_id by exact H. cbn [bind_opt]. rewrite w_log_type. cbn [bind_opt wire read_string].
  unfold read_time, put_time. cbn [wire read_string bind_opt]. rewrite times. destruct l. reflexivity.
Qed.
Lemma w_id_state {A B} (rd : value -> option A) (pt : A -> value) (mk : A -> wf_state -> B) i s : rd (w (pt i)) = Some i -> read_id_state rd mk (w (put_struct [("id", pt i); ("state", put_state s)])) = Some (mk i s).
Proof. intros H. unfold read_id_state. struct. cbn [req]. rewrite H. cbn [bind_opt]. rewrite w_state. reflexivity. Qed.
Lemma w_state_event e : valid_state_event e -> read_state_event (w (put_state_event e)) = Some e.
Proof.
  intros H. unfold read_state_event. destruct e as [i s|i s|i s]; cbn [put_state_event]; (erewrite w_variant by reflexivity).
  - apply (w_id_state _ put_workflow_id), w_workflow_id.
  - apply (w_id_state _ put_job_id), w_job_id.
  - apply (w_id_state _ put_step_id), w_step_id, H.
Qed.
Lemma w_run_event {A} (e : A -> value) (d : value -> option A) (b : bool) (g : A -> A) r : for_some valid_trigger (re_trigger_event r) ->
  for_some (fun p => read_payload (w (put_payload p)) = Some p /\ w (put_payload p) <> VNull) (re_payload r) ->
  d (w (e (re_source r))) = (if b then Some (g (re_source r)) else None) ->
  read_run_event read_payload d (w (put_run_event put_payload e r)) = if b then Some (on_source g r) else None.
Proof.
  intros H1 H2 H3. unfold read_run_event, put_run_event. struct. cbn [req]. rewrite H3. destruct b; [|reflexivity]. cbn [bind_opt]. rewrite w_option_trigger by exact H1. cbn [bind_opt].
  rewrite w_option by exact H2. reflexivity.
Qed.

Lemma w_message m : in_bounds m -> for_some (fun p => read_payload (w (put_payload p)) = Some p /\ w (put_payload p) <> VNull) (payload_of m) ->
  read_message read_time_text read_payload (kind_of m) (w (put_message show_time put_payload m)) = if forallb is_finite (numbers m) then Some (with_numbers rf m) else None.
Proof.
  intros V P. destruct m as [|r|c|[i l|i r]|[e|i s]|c]; cbn [kind_of read_message put_message numbers with_numbers forallb].
  - reflexivity.
  - unfold via. unfold read_metadata, put_metadata. struct. cbn [req wire read_string bind_opt read_bool]. unfold read_i32. cbn in V. unfold fits_i32 in V. change (VInt (rm_max_runs r)) with (w (VInt (rm_max_runs r))). rewrite w_int by lia. destruct r. reflexivity.
  - unfold via. rewrite w_context by exact V. unfold fin_env. destruct (forallb _ _); reflexivity.
  - unfold via, put_run_response, read_run_response. erewrite w_variant by reflexivity. cbn beta. struct. cbn [req]. rewrite w_step_id by exact V. cbn [bind_opt]. rewrite w_log. reflexivity.
  - destruct V as [V1 V2]. unfold via, put_run_response, read_run_response. erewrite w_variant by reflexivity. cbn beta. struct. cbn [req]. rewrite w_step_id by exact V1. cbn [bind_opt]. rewrite w_run_result by exact V2. reflexivity.
  - unfold via, put_protocol_event, read_protocol_event. cbn [in_bounds] in V. destruct e as [x|x|x|x|x|x|x|x]; cbn [valid_hook_event payload_of] in V, P; cbn [forallb]; (erewrite w_variant by reflexivity); unfold via.
    + destruct V as [V1 V2]. erewrite w_run_event; [|exact V2|exact P|apply w_workflow, V1]. unfold fin_workflow.
      replace (forallb is_finite (flat_map (fun x0 => numbers_job (snd x0)) (wf_jobs (re_source x)))) with (forallb (fun x0 => fin_job (snd x0)) (wf_jobs (re_source x))).
      * destruct (forallb _ (wf_jobs (re_source x))); reflexivity.
      * clear. induction (wf_jobs (re_source x)) as [|y l IH]; cbn; [reflexivity|]. rewrite forallb_app, IH. reflexivity.
    + destruct V as [V1 V2]. erewrite w_run_event; [|exact V2|exact P|apply w_job, V1]. unfold fin_job. destruct (forallb _ _); reflexivity.
    + destruct V as [V1 V2]. erewrite w_run_event; [|exact V2|exact P|apply w_step, V1]. unfold fin_env. destruct (forallb _ _); reflexivity.
    + rewrite w_state_event by exact V. reflexivity.
    + rewrite w_workflow_log by exact V. reflexivity.
    + rewrite w_step_result by exact V. reflexivity.
    + rewrite w_job_result by exact V. reflexivity.
    + rewrite w_workflow_result by exact V. reflexivity.
  - unfold via, put_protocol_event, read_protocol_event. cbn [forallb]. erewrite w_variant by reflexivity. unfold read_signal_event. struct. cbn [req]. rewrite w_step_id by exact V. cbn [bind_opt]. rewrite w_signal. reflexivity.
  - unfold via. rewrite w_command by exact V. unfold fin_env. destruct (forallb _ _); reflexivity.
Qed.
End Proofs.
