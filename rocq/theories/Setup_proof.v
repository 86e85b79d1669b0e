(** Proofs about builders, errors, the logger and payload cloning. *)
From Verif Require Import Base Types Ids_model Ids_spec Ids_proof Cond_model Config_model Plugins_model Paths_model Sched_model Sched_proof Serde_model Serde_spec Json_model Json_spec Json_proof Json_limit Setup_model Setup_spec.

(** ** Last given *)
Lemma last_given_exists {C X} (g : C -> option X) calls : exists v, last_given g calls v.
Proof.
  induction calls as [|c calls [v IH]] using list_ind; [exists None; constructor; intros ? []|].
  destruct IH as [calls H|before c' x after Hx H].
  - destruct (g c) as [x|] eqn:E.
    + exists (Some x). apply (last_given_some g [] c x calls E H).
    + exists None. constructor. intros c' [<-|Hc]; auto.
  - exists (Some x). apply (last_given_some g (c :: before) c' x after Hx H).
Qed.
Lemma fold_last {B C X} (step : B -> C -> B) (proj : B -> option X) (g : C -> option X) calls v b :
  (forall b c, proj (step b c) = match g c with Some x => Some x | None => proj b end) -> last_given g calls v ->
  proj (fold_left step calls b) = match v with Some x => Some x | None => proj b end.
Proof.
  intros Hs. assert (N : forall l b, (forall c, In c l -> g c = None) -> proj (fold_left step l b) = proj b).
  { induction l as [|c l IH]; intros b0 H; [reflexivity|]. cbn [fold_left]. rewrite IH by (intros; apply H; right; assumption). rewrite Hs, (H c) by (left; reflexivity). reflexivity. }
  intros [l H|before c x after Hx H]; [apply N, H|]. rewrite fold_left_app. cbn [fold_left]. rewrite N by exact H. rewrite Hs, Hx. reflexivity.
Qed.
Lemma last_given_unique {C X} (g : C -> option X) calls v v' : last_given g calls v -> last_given g calls v' -> v = v'.
Proof.
  intros H H'. assert (F : forall u, last_given g calls u -> fold_left (fun (b : option X) c => match g c with Some x => Some x | None => b end) calls None = u).
  { intros u Hu. assert (E := fold_last (fun (b : option X) c => match g c with Some x => Some x | None => b end) (fun b => b) g calls u None ltac:(reflexivity) Hu). cbn in E. rewrite E. destruct u; reflexivity. }
  rewrite <- (F v H). apply (F v' H').
Qed.
Lemma fold_all {B C X} (step : B -> C -> B) (proj : B -> list X) (g : C -> option X) calls :
  (forall b c, proj (step b c) = match g c with Some x => proj b ++ [x] | None => proj b end) -> forall b, proj (fold_left step calls b) = proj b ++ all_given g calls.
Proof.
  intros Hs. induction calls as [|c calls IH]; intros b; cbn [fold_left all_given flat_map]; [rewrite app_nil_r; reflexivity|].
  rewrite IH, Hs. fold (all_given g calls). destruct (g c); [rewrite <- app_assoc; reflexivity|reflexivity].
Qed.
Lemma fold_default {B C X} (step : B -> C -> B) (proj : B -> X) (g : C -> option X) calls v b :
  (forall b c, proj (step b c) = match g c with Some x => x | None => proj b end) -> last_given g calls v -> proj (fold_left step calls b) = or_else v (proj b).
Proof.
  intros Hs. assert (N : forall l b, (forall c, In c l -> g c = None) -> proj (fold_left step l b) = proj b).
  { induction l as [|c l IH]; intros b0 H; [reflexivity|]. cbn [fold_left]. rewrite IH by (intros; apply H; right; assumption). rewrite Hs, (H c) by (left; reflexivity). reflexivity. }
  intros [l H|before c x after Hx H]; [apply N, H|]. rewrite fold_left_app. cbn [fold_left]. rewrite N by exact H. rewrite Hs, Hx. reflexivity.
Qed.

(** ** Errors *)
Lemma error_eq_spec a b : proper_error a -> proper_error b -> (error_eq a b = true <-> same_error a b).
Proof.
  intros Ha Hb. unfold same_error. split.
  - destruct a as [k t|[]], b as [k' t'|[]]; cbn [error_eq]; intros E; try discriminate E; try (apply (proj1 (eqb_true _ _)) in E; subst; eauto 6).
  - intros [(k & t & t' & -> & ->)|(e & -> & ->)]; cbn [error_eq]; [apply eqb_true; reflexivity|]. destruct e; try (apply eqb_true; reflexivity). exfalso. eapply Ha; reflexivity.
Qed.
Lemma show_error_inj a b : proper_error a -> proper_error b -> show_error a = show_error b -> match a, b with EvIo _ t, EvIo _ t' => t = t' | EvOther e, EvOther e' => e = e' | _, _ => False end.
Proof.
  intros Ha Hb. destruct a as [k t|[]], b as [k' t'|[]]; cbn [show_error append]; intros E; try discriminate E; try (injection E as ->; reflexivity); try (exfalso; eapply Ha; reflexivity); try (exfalso; eapply Hb; reflexivity).
  injection E as E. f_equal. assert (D := show_usize_decimal code). assert (D' := show_usize_decimal code0). rewrite E in D. eapply decimal_fun; eauto.
Qed.

(** ** AstroRun *)
Section AstroRunProofs.
Variables R P A : Type.
Lemma build_astro_run_spec (calls : list (run_call R P A)) fresh :
  (last_given gives_runner calls None -> build_astro_run calls fresh = None) /\
  (forall r, last_given gives_runner calls (Some r) -> exists a, build_astro_run calls fresh = Some a /\
     ar_runner a = r /\ last_given gives_auth calls (ar_auth a) /\ ar_plugins a = all_given gives_plugin calls /\
     (forall name, last_given (gives_action name) calls (lookup name (ar_actions a))) /\ ar_signals a = fresh).
Proof.
  assert (F : forall v, last_given gives_runner calls v -> rb_runner _ _ _ (fold_left run_call_step calls (run_builder_new R P A)) = v).
  { intros v Hv. rewrite (fold_last run_call_step (rb_runner R P A) gives_runner calls v _) by (try exact Hv; intros b []; reflexivity). destruct v; reflexivity. }
  split.
  - intros H. unfold build_astro_run. rewrite (F _ H). reflexivity.
  - intros r H. unfold build_astro_run. rewrite (F _ H). eexists. split; [reflexivity|]. cbn [ar_runner ar_auth ar_plugins ar_actions ar_signals]. split; [reflexivity|]. repeat split.
    + destruct (last_given_exists gives_auth calls) as [v Hv]. rewrite (fold_last run_call_step (rb_auth R P A) gives_auth calls v _) by (try exact Hv; intros b []; reflexivity). destruct v; exact Hv.
    + rewrite (fold_all run_call_step (rb_plugins R P A) gives_plugin calls) by (intros b []; reflexivity). reflexivity.
    + intros name. destruct (last_given_exists (gives_action name) calls) as [v Hv].
      rewrite (fold_last run_call_step (fun b => lookup name (rb_actions R P A b)) (gives_action name) calls v _); [destruct v; exact Hv| |exact Hv].
      intros b []; cbn [run_call_step rb_actions gives_action]; try reflexivity. rewrite lookup_insert. destruct (eq_dec name name0), (string_dec name0 name); congruence.
Qed.
Lemma execution_context_set (a : astro_run R P A) calls (g : ctx_builder R P) : g = fold_left ctx_call_step calls (execution_context a) ->
  (forall v, last_given sets_runner calls v -> cb_runner _ _ g = Some (or_else v (ar_runner a))) /\
  (forall v, last_given sets_plugins calls v -> cb_plugins _ _ g = Some (or_else v (ar_plugins a))) /\
  (forall v, last_given sets_signals calls v -> cb_signals _ _ g = Some (or_else v (ar_signals a))) /\
  (forall v, last_given sets_auth calls v -> cb_auth _ _ g = match v with Some x => Some x | None => ar_auth a end) /\
  (forall v, last_given sets_event calls v -> cb_event _ _ g = v) /\
  (forall v, last_given sets_payload calls v -> cb_payload _ _ g = v).
Proof.
  intros ->. assert (E0 : execution_context a = CtxBuilder (Some (ar_runner a)) (Some (ar_plugins a)) (Some (ar_signals a)) None (ar_auth a) None) by (unfold execution_context; destruct (ar_auth a); reflexivity).
  rewrite E0. repeat split; intros v Hv.
  - rewrite (fold_last ctx_call_step (cb_runner R P) sets_runner calls v _) by (try exact Hv; intros b []; reflexivity). destruct v; reflexivity.
  - rewrite (fold_last ctx_call_step (cb_plugins R P) sets_plugins calls v _) by (try exact Hv; intros b []; reflexivity). destruct v; reflexivity.
  - rewrite (fold_last ctx_call_step (cb_signals R P) sets_signals calls v _) by (try exact Hv; intros b []; reflexivity). destruct v; reflexivity.
  - rewrite (fold_last ctx_call_step (cb_auth R P) sets_auth calls v _) by (try exact Hv; intros b []; reflexivity). destruct v; reflexivity.
  - rewrite (fold_last ctx_call_step (cb_event R P) sets_event calls v _) by (try exact Hv; intros b []; reflexivity). destruct v; reflexivity.
  - rewrite (fold_last ctx_call_step (cb_payload R P) sets_payload calls v _) by (try exact Hv; intros b []; reflexivity). destruct v; reflexivity.
Qed.
Lemma make_context_spec (a : astro_run R P A) calls : exists c, make_context a calls = Some c /\
  (forall v, last_given sets_runner calls v -> xt_runner c = or_else v (ar_runner a)) /\
  (forall v, last_given sets_plugins calls v -> xt_plugins c = or_else v (ar_plugins a)) /\
  (forall v, last_given sets_signals calls v -> xt_signals c = or_else v (ar_signals a)) /\
  (forall v, last_given sets_auth calls v -> xt_auth c = match v with Some x => Some x | None => ar_auth a end) /\
  (forall v, last_given sets_event calls v -> xt_event c = v) /\
  (forall v, last_given sets_payload calls v -> xt_payload c = v).
Proof.
  destruct (execution_context_set a calls _ eq_refl) as (H1 & H2 & H3 & H4 & H5 & H6). unfold make_context. set (g := fold_left ctx_call_step calls (execution_context a)) in *. clearbody g.
  destruct (last_given_exists sets_runner calls) as [v1 L1], (last_given_exists sets_plugins calls) as [v2 L2], (last_given_exists sets_signals calls) as [v3 L3].
  unfold build_context. rewrite (H1 _ L1), (H2 _ L2), (H3 _ L3). eexists. split; [reflexivity|]. cbn [xt_runner xt_plugins xt_signals xt_auth xt_event xt_payload].
  repeat split; intros v Hv; auto; f_equal; eapply last_given_unique; eassumption.
Qed.
Lemma build_context_panics calls : (exists c, build_context (fold_left ctx_call_step calls (ctx_builder_new R P)) = Some c) <->
  ~ last_given sets_runner calls None /\ ~ last_given sets_plugins calls None /\ ~ last_given sets_signals calls None.
Proof.
  destruct (last_given_exists sets_runner calls) as [v1 L1], (last_given_exists sets_plugins calls) as [v2 L2], (last_given_exists sets_signals calls) as [v3 L3].
  unfold build_context.
  rewrite (fold_last ctx_call_step (cb_runner R P) sets_runner calls v1 _) by (try exact L1; intros b []; reflexivity).
  rewrite (fold_last ctx_call_step (cb_plugins R P) sets_plugins calls v2 _) by (try exact L2; intros b []; reflexivity).
  rewrite (fold_last ctx_call_step (cb_signals R P) sets_signals calls v3 _) by (try exact L3; intros b []; reflexivity). cbn [ctx_builder_new cb_runner cb_plugins cb_signals].
  split.
  - destruct v1, v2, v3; intros [c E]; try discriminate E. repeat split; intros H; [assert (X := last_given_unique _ _ _ _ L1 H)|assert (X := last_given_unique _ _ _ _ L2 H)|assert (X := last_given_unique _ _ _ _ L3 H)]; discriminate X.
  - intros (N1 & N2 & N3). destruct v1, v2, v3; try contradiction. eauto.
Qed.
End AstroRunProofs.

(** ** Plugin builder *)
Section PluginProofs.
Variable W : Type.
Lemma behaves_event {X} (g : hook_call W -> option (X -> W -> W * result unit)) (proj : plugin_builder W -> option (X -> W -> W * result unit)) calls :
  (forall b c, proj (hook_call_step b c) = match g c with Some x => Some x | None => proj b end) -> proj (plugin_builder_new W) = None ->
  behaves g calls (fun _ => tt) (event_hook (proj (fold_left hook_call_step calls (plugin_builder_new W)))).
Proof.
  intros Hs H0. split.
  - intros f Hf x w. rewrite (fold_last hook_call_step proj g calls _ _ Hs Hf). unfold event_hook. destruct (f x w) as [w' [[]|e]]; reflexivity.
  - intros Hf x w. rewrite (fold_last hook_call_step proj g calls _ _ Hs Hf), H0. reflexivity.
Qed.
Lemma build_plugin_spec (calls : list (hook_call W)) : exists r resolve, build_plugin calls = (r, resolve) /\
  behaves hook_run_workflow calls (fun _ => tt) (on_run_workflow r) /\ behaves hook_run_job calls (fun _ => tt) (on_run_job r) /\
  behaves hook_run_step calls (fun _ => tt) (on_run_step r) /\ behaves hook_state calls (fun _ => tt) (on_state_change r) /\
  behaves hook_log calls (fun _ => tt) (on_log r) /\ behaves hook_step_completed calls (fun _ => tt) (Plugins_model.on_step_completed r) /\
  behaves hook_job_completed calls (fun _ => tt) (Plugins_model.on_job_completed r) /\ behaves hook_workflow_completed calls (fun _ => tt) (on_workflow_completed r) /\
  behaves hook_before calls (fun st => st) (on_before_run_step r) /\ behaves hook_resolve calls (fun _ => None) resolve.
Proof.
  unfold build_plugin. eexists _, _. split; [reflexivity|]. cbn [built_receiver on_run_workflow on_run_job on_run_step on_state_change on_log Plugins_model.on_step_completed Plugins_model.on_job_completed on_workflow_completed on_before_run_step].
  split; [apply (behaves_event hook_run_workflow (pb_run_workflow W)); [intros [] []; reflexivity|reflexivity]|].
  split; [apply (behaves_event hook_run_job (pb_run_job W)); [intros [] []; reflexivity|reflexivity]|].
  split; [apply (behaves_event hook_run_step (pb_run_step W)); [intros [] []; reflexivity|reflexivity]|].
  split; [apply (behaves_event hook_state (pb_state W)); [intros [] []; reflexivity|reflexivity]|].
  split; [apply (behaves_event hook_log (pb_log W)); [intros [] []; reflexivity|reflexivity]|].
  split; [apply (behaves_event hook_step_completed (pb_step_completed W)); [intros [] []; reflexivity|reflexivity]|].
  split; [apply (behaves_event hook_job_completed (pb_job_completed W)); [intros [] []; reflexivity|reflexivity]|].
  split; [apply (behaves_event hook_workflow_completed (pb_workflow_completed W)); [intros [] []; reflexivity|reflexivity]|].
  split; split.
  - intros f Hf x w. rewrite (fold_last hook_call_step (pb_before W) hook_before calls _ _ ltac:(intros [] []; reflexivity) Hf). unfold before_hook. destruct (f x w) as [w' []]; reflexivity.
  - intros Hf x w. rewrite (fold_last hook_call_step (pb_before W) hook_before calls _ _ ltac:(intros [] []; reflexivity) Hf). reflexivity.
  - intros f Hf x w. rewrite (fold_last hook_call_step (pb_resolve W) hook_resolve calls _ _ ltac:(intros [] []; reflexivity) Hf). reflexivity.
  - intros Hf x w. rewrite (fold_last hook_call_step (pb_resolve W) hook_resolve calls _ _ ltac:(intros [] []; reflexivity) Hf). reflexivity.
Qed.
End PluginProofs.

(** ** Server builder *)
Section ServerProofs.
Variables R P : Type.
Lemma build_server_spec (calls : list (server_call R P)) probe os arch version :
  (last_given server_runner calls None -> build_server calls probe os arch version = Err (InitError "Runner is not set")) /\
  (forall r, last_given server_runner calls (Some r) -> last_given server_id calls None -> build_server calls probe os arch version = Err (InitError "Id is not set")) /\
  (forall r i, last_given server_runner calls (Some r) -> last_given server_id calls (Some i) -> forall n d h,
     last_given server_max_runs calls n -> last_given server_docker calls d -> last_given server_host calls h ->
     build_server calls probe os arch version = Ok (BuiltServer r (all_given server_plugin calls) (RunnerMeta i os arch (or_else d probe) (or_else h true) version (or_else n 5%Z)))).
Proof.
  set (b0 := server_builder_new R P).
  assert (Fr : forall v, last_given server_runner calls v -> sb_runner _ _ (fold_left server_call_step calls b0) = v).
  { intros v Hv. rewrite (fold_last server_call_step (sb_runner R P) server_runner calls v _) by (try exact Hv; intros b []; reflexivity). destruct v; reflexivity. }
  assert (Fi : forall v, last_given server_id calls v -> sb_id _ _ (fold_left server_call_step calls b0) = v).
  { intros v Hv. rewrite (fold_last server_call_step (sb_id R P) server_id calls v _) by (try exact Hv; intros b []; reflexivity). destruct v; reflexivity. }
  unfold build_server. fold b0. split; [|split].
  - intros H. rewrite (Fr _ H). reflexivity.
  - intros r H H'. rewrite (Fr _ H), (Fi _ H'). reflexivity.
  - intros r i H H' n d h Hn Hd Hh. rewrite (Fr _ H), (Fi _ H').
    rewrite (fold_last server_call_step (sb_docker R P) server_docker calls d _) by (try exact Hd; intros b []; reflexivity).
    rewrite (fold_all server_call_step (sb_plugins R P) server_plugin calls) by (intros b []; reflexivity).
    rewrite (fold_default server_call_step (sb_host R P) server_host calls h _) by (try exact Hh; intros b []; reflexivity).
    rewrite (fold_default server_call_step (sb_max_runs R P) server_max_runs calls n _) by (try exact Hn; intros b []; reflexivity).
    cbn [b0 server_builder_new sb_docker sb_plugins sb_host sb_max_runs app]. destruct d; reflexivity.
Qed.
End ServerProofs.
Lemma runner_directory_spec given home :
  (forall before d, given = before ++ [d] -> runner_directory given home = Ok d) /\
  (given = [] -> runner_directory given home = match home with Some h => Ok (path_join h "astro-run") | None => Err (InitError "AstroRunnerBuilder: working_directory is required") end).
Proof. unfold runner_directory. split; [intros before d ->; rewrite fold_left_app; reflexivity|intros ->; reflexivity]. Qed.

(** ** Logger *)
Lemma level_num_severe l m : level_num l <= level_num m <-> severe_as l m.
Proof.
  split.
  - destruct l, m; cbn; intros H; try (exfalso; lia); constructor; auto; try congruence.
  - intros H; inversion H as [x|x ?|x ? ?|x [-> | ->]|]; subst; cbn; try lia; destruct m; cbn; try lia; congruence.
Qed.
Lemma lower_spec a b : same_letters (String a "") (String b "") -> lower a = b \/ lower a = lower b.
Proof.
  intros H. inversion H as [|? ? ? ? [->|(i & Hi & -> & ->)] _]; subst; [right; reflexivity|]. left. do 26 (destruct i as [|i]; [reflexivity|]). lia.
Qed.
Definition lower_fix (s : string) : Prop := lower_all s = s.
Lemma lower_all_same s t : same_letters s t -> lower_all t = t -> lower_all s = t.
Proof.
  induction 1 as [|a b s t H Hs IH]; [reflexivity|]. cbn [lower_all]. intros E. injection E as E1 E2. rewrite IH by exact E2. f_equal.
  destruct H as [->|(i & Hi & -> & ->)]; [exact E1|]. do 26 (destruct i as [|i]; [reflexivity|]). lia.
Qed.
Lemma lower_same a : lower a = a \/ exists i, i < 26 /\ a = ascii_of_nat (65 + i) /\ lower a = ascii_of_nat (97 + i).
Proof.
  unfold lower. destruct (Nat.leb 65 (nat_of_ascii a) && Nat.leb (nat_of_ascii a) 90) eqn:E; [|left; reflexivity]. right. apply andb_prop in E as [E1 E2]. apply Nat.leb_le in E1, E2.
  exists (nat_of_ascii a - 65). split; [lia|]. replace (65 + (nat_of_ascii a - 65)) with (nat_of_ascii a) by lia. rewrite ascii_nat_embedding. split; [reflexivity|]. f_equal. lia.
Qed.
Lemma lower_all_letters s : same_letters s (lower_all s).
Proof.
  induction s as [|a s IH]; cbn [lower_all]; constructor; [|exact IH]. destruct (lower_same a) as [E|(i & Hi & E & E')]; [left; congruence|right; exists i; auto].
Qed.
Lemma level_of_string_spec s l : level_of_string s = Some l <-> same_letters s (level_name l).
Proof.
  split.
  - intros H. assert (E : lower_all s = level_name l).
    { unfold level_of_string in H. cbn [lookup] in H. repeat (match type of H with context [eq_dec ?a ?b] => destruct (eq_dec a b) end; [inv H; assumption|]). discriminate H. }
    rewrite <- E. apply lower_all_letters.
  - intros H. unfold level_of_string. rewrite (lower_all_same s (level_name l) H) by (destruct l; reflexivity). destruct l; reflexivity.
Qed.

(** In a closure run by [get_or_init]: the call that runs it, and whether it has installed the logger. *)
Definition in_closure (k : lcall) : Prop := match k with LcSet _ | LcMax _ => True | _ => False end.
Definition once_inv (s : lstate) : Prop :=
  match ls_once s with
  | OnceEmpty => ls_logger s = None /\ ls_max s = 0 /\ (forall c k, lookup c (ls_calls s) = Some k -> ~ in_closure k /\ k <> LcReturned)
  | OnceRunning c0 =>
      ls_max s = 0 /\ (exists lv, (lookup c0 (ls_calls s) = Some (LcSet lv) /\ ls_logger s = None) \/ (lookup c0 (ls_calls s) = Some (LcMax lv) /\ ls_logger s = Some lv)) /\
      (forall c k, lookup c (ls_calls s) = Some k -> (c <> c0 -> ~ in_closure k) /\ k <> LcReturned)
  | OnceFull => (exists lv, ls_logger s = Some lv /\ ls_max s = level_num lv) /\ (forall c k, lookup c (ls_calls s) = Some k -> ~ in_closure k)
  end /\ (forall c, lookup c (ls_calls s) = Some LcPanicked -> ls_foreign s = true).
Lemma once_inv_run ops s : lrun ops s -> once_inv s.
Proof.
  induction 1 as [|ops s o s' Hr [IH IP] Hs]; [unfold once_inv; cbn; repeat split; try discriminate; intros; discriminate|].
  assert (Q : forall (c c' : nat) (k : lcall) m, lookup c (insert c' k m) = if eqb c c' then Some k else lookup c m) by (intros; apply lookup_insert_b).
  destruct o as [c lv|c var|].
  - cbn [lstep] in Hs. destruct (contains_key c (ls_calls s)) eqn:Ec; [discriminate|]. inv Hs. unfold once_inv, lset. cbn [ls_once ls_calls ls_logger ls_max ls_foreign].
    assert (Nc : lookup c (ls_calls s) = None) by (unfold contains_key in Ec; destruct (lookup c (ls_calls s)); [discriminate|reflexivity]).
    split.
    + destruct (ls_once s) as [|c0|].
      * destruct IH as (I1 & I2 & I3). repeat split; auto; rewrite Q in *; destruct (eqb c0 c); intros; try (inv H; cbn; tauto || discriminate); try (eapply I3; eassumption).
        all: match goal with H : Some (LcCheck _) = Some _ |- _ => inv H end; [tauto|discriminate].
      * destruct IH as (I1 & (lv0 & I2) & I3). split; [exact I1|]. split.
        -- exists lv0. rewrite Q. destruct (eqb c0 c) eqn:E; [apply (proj1 (eqb_true _ _)) in E; subst; destruct I2 as [[I2 _]|[I2 _]]; rewrite I2 in Nc; discriminate Nc|exact I2].
        -- intros c1 k. rewrite Q. destruct (eqb c1 c); [intros H; inv H; cbn; split; [tauto|discriminate]|apply I3].
      * destruct IH as (I1 & I2). split; [exact I1|]. intros c1 k. rewrite Q. destruct (eqb c1 c); [intros H; inv H; cbn; tauto|apply I2].
    + intros c1. rewrite Q. destruct (eqb c1 c); [discriminate|apply IP].
  - cbn [lstep] in Hs. destruct (lookup c (ls_calls s)) as [k|] eqn:Ec; [|discriminate]. destruct k as [lv|lv|lv|lv| |]; try discriminate Hs.
    + (* check *) inv Hs. unfold once_inv, lset. cbn [ls_once ls_calls ls_logger ls_max ls_foreign]. split.
      * destruct (ls_once s) as [|c0|] eqn:Eo.
        -- destruct IH as (I1 & I2 & I3). split; [exact I1|]. split; [exact I2|]. intros c1 k. rewrite Q. destruct (eqb c1 c); [intros H; inv H; cbn; split; [tauto|discriminate]|apply I3].
        -- destruct IH as (I1 & (lv0 & I2) & I3). split; [exact I1|]. split.
           ++ exists lv0. rewrite Q. destruct (eqb c0 c) eqn:E; [apply (proj1 (eqb_true _ _)) in E; subst; destruct I2 as [[I2 _]|[I2 _]]; rewrite I2 in Ec; discriminate Ec|exact I2].
           ++ intros c1 k. rewrite Q. destruct (eqb c1 c); [intros H; inv H; cbn; split; [tauto|discriminate]|apply I3].
        -- destruct IH as (I1 & I2). split; [exact I1|]. intros c1 k. rewrite Q. destruct (eqb c1 c); [intros H; inv H; cbn; tauto|apply I2].
      * intros c1. rewrite Q. destruct (eqb c1 c); [destruct (ls_once s); discriminate|apply IP].
    + (* init *) destruct (ls_once s) as [|c0|] eqn:Eo; inv Hs; unfold once_inv, lset; cbn [ls_once ls_calls ls_logger ls_max ls_foreign]; try rewrite Eo.
      * destruct IH as (I1 & I2 & I3). split.
        -- split; [exact I2|]. split; [eexists; left; rewrite Q; rewrite (proj2 (eqb_true c c) eq_refl); split; [reflexivity|exact I1]|].
           intros c1 k. rewrite Q. destruct (eqb c1 c) eqn:E; [apply (proj1 (eqb_true _ _)) in E; intros H; inv H; split; [congruence|discriminate]|]. intros H. apply I3 in H. tauto.
        -- intros c1. rewrite Q. destruct (eqb c1 c); [discriminate|apply IP].
      * destruct IH as (I1 & I2). split.
        -- split; [exact I1|]. intros c1 k. rewrite Q. destruct (eqb c1 c); [intros H; inv H; cbn; tauto|apply I2].
        -- intros c1. rewrite Q. destruct (eqb c1 c); [discriminate|apply IP].
    + (* set *) destruct (ls_once s) as [|c0|] eqn:Eo.
      * exfalso. destruct IH as (_ & _ & I3). destruct (I3 _ _ Ec) as [X _]. apply X. exact I.
      * destruct IH as (I1 & (lv0 & I2) & I3). assert (c = c0) by (destruct (eq_dec c c0); [assumption|exfalso; destruct (I3 _ _ Ec) as [X _]; apply X; [assumption|exact I]]). subst c0.
        destruct I2 as [[I2 I4]|[I2 I4]]; rewrite I2 in Ec; [|discriminate Ec]. inv Ec. rewrite I4 in Hs. cbn [is_some orb] in Hs. destruct (ls_foreign s) eqn:Ef; inv Hs; unfold once_inv; cbn [ls_once ls_calls ls_logger ls_max ls_foreign].
        -- split; [|intros; reflexivity]. split; [reflexivity|]. split; [exact I1|]. intros c1 k. rewrite Q. destruct (eqb c1 c) eqn:E; [intros H; inv H; cbn; split; [tauto|discriminate]|]. intros H. destruct (I3 _ _ H) as [X Y]. split; [|exact Y]. apply X. intros ->. rewrite (proj2 (eqb_true c c) eq_refl) in E. discriminate.
        -- split.
           ++ split; [exact I1|]. split; [exists lv; right; rewrite Q; rewrite (proj2 (eqb_true c c) eq_refl); split; reflexivity|]. intros c1 k. rewrite Q. destruct (eqb c1 c) eqn:E; [apply (proj1 (eqb_true _ _)) in E; intros H; inv H; split; [congruence|discriminate]|apply I3].
           ++ intros c1. rewrite Q. destruct (eqb c1 c); [discriminate|intros H; exact (IP _ H)].
      * exfalso. destruct IH as (_ & I2). apply (I2 _ _ Ec). exact I.
    + (* max *) destruct (ls_once s) as [|c0|] eqn:Eo.
      * exfalso. destruct IH as (_ & _ & I3). destruct (I3 _ _ Ec) as [X _]. apply X. exact I.
      * destruct IH as (I1 & (lv0 & I2) & I3). assert (c = c0) by (destruct (eq_dec c c0); [assumption|exfalso; destruct (I3 _ _ Ec) as [X _]; apply X; [assumption|exact I]]). subst c0.
        destruct I2 as [[I2 I4]|[I2 I4]]; rewrite I2 in Ec; [discriminate Ec|]. inv Ec. inv Hs. unfold once_inv. cbn [ls_once ls_calls ls_logger ls_max ls_foreign]. split.
        -- split; [exists lv; auto|]. intros c1 k. rewrite Q. destruct (eqb c1 c) eqn:E; [intros H; inv H; cbn; tauto|]. intros H. destruct (I3 _ _ H) as [X _]. apply X. intros ->. rewrite (proj2 (eqb_true c c) eq_refl) in E. discriminate.
        -- intros c1. rewrite Q. destruct (eqb c1 c); [discriminate|apply IP].
      * exfalso. destruct IH as (_ & I2). apply (I2 _ _ Ec). exact I.
  - cbn [lstep] in Hs. destruct (is_some (ls_logger s) || ls_foreign s); [discriminate|]. inv Hs. unfold once_inv in *. cbn [ls_once ls_calls ls_logger ls_max ls_foreign]. split; [exact IH|]. intros; reflexivity.
Qed.
Lemma lrun_snoc ops o s' : lrun (ops ++ [o]) s' -> exists s, lrun ops s /\ lstep s o = Some s'.
Proof. intros H. inversion H as [E|ops0 s o0 s0 Hr Hs E]; subst; [destruct ops; discriminate|]. apply app_inj_tail in E as [-> ->]. eauto. Qed.
Lemma lrun_fun ops : forall s s', lrun ops s -> lrun ops s' -> s = s'.
Proof.
  induction ops as [|o ops IH] using rev_ind; intros s s' H H'.
  - inversion H as [E|ops0 ? ? ? ? ? E]; [|destruct ops0; discriminate]. inversion H' as [E'|ops0 ? ? ? ? ? E']; [reflexivity|destruct ops0; discriminate].
  - apply lrun_snoc in H as (t & Ht & Hs). apply lrun_snoc in H' as (t' & Ht' & Hs'). rewrite (IH _ _ Ht Ht') in Hs. congruence.
Qed.
Lemma full_frozen s o s' : ls_once s = OnceFull -> once_inv s -> lstep s o = Some s' -> ls_once s' = OnceFull /\ ls_logger s' = ls_logger s /\ ls_max s' = ls_max s.
Proof.
  intros F [I _] Hs. rewrite F in I. destruct I as [_ I]. destruct o as [c lv|c var|]; cbn [lstep] in Hs.
  - destruct (contains_key c (ls_calls s)); inv Hs. auto.
  - destruct (lookup c (ls_calls s)) as [[lv|lv|lv|lv| |]|] eqn:E; try discriminate Hs; rewrite ?F in Hs; try (inv Hs; cbn; rewrite F; auto; fail); try (exfalso; apply (I _ _ E); exact Logic.I).
  - destruct (is_some _ || _); inv Hs. auto.
Qed.
Lemma full_stays ops s more s' : lrun ops s -> ls_once s = OnceFull -> lrun (ops ++ more) s' -> ls_once s' = OnceFull /\ ls_logger s' = ls_logger s /\ ls_max s' = ls_max s.
Proof.
  intros Hr F. revert s'. induction more as [|o more IH] using rev_ind; intros s' H.
  - rewrite app_nil_r in H. rewrite (lrun_fun _ _ _ Hr H) in *. auto.
  - rewrite app_assoc in H. apply lrun_snoc in H as (t & Ht & Hs). destruct (IH _ Ht) as (F1 & F2 & F3). destruct (full_frozen _ _ _ F1 (once_inv_run _ _ Ht) Hs) as (G1 & G2 & G3). repeat split; congruence.
Qed.
Lemma asked_more ops o lv : asked_for ops lv -> asked_for (ops ++ [o]) lv.
Proof. intros (c & H). exists c. destruct H as [H|(H & var & Hv & E)]; [left|right; split; [|exists var; split; [|exact E]]]; apply in_or_app; left; assumption. Qed.
Definition asked_inv (ops : list lop) (s : lstate) : Prop :=
  (forall c k, lookup c (ls_calls s) = Some k -> match k with LcCheck lv0 | LcInit lv0 => In (LoCall c lv0) ops | LcSet lv | LcMax lv => asked_for ops lv | _ => True end) /\
  (forall lv, ls_logger s = Some lv -> asked_for ops lv).
Lemma asked_inv_run ops s : lrun ops s -> asked_inv ops s.
Proof.
  induction 1 as [|ops s o s' Hr [IC IL] Hs]; [split; intros; discriminate|].
  assert (Q : forall (c c' : nat) (k : lcall) m, lookup c (insert c' k m) = if eqb c c' then Some k else lookup c m) by (intros; apply lookup_insert_b).
  assert (IC' : forall c k, lookup c (ls_calls s) = Some k -> match k with LcCheck lv0 | LcInit lv0 => In (LoCall c lv0) (ops ++ [o]) | LcSet lv | LcMax lv => asked_for (ops ++ [o]) lv | _ => True end).
  { intros c k Hk. specialize (IC _ _ Hk). destruct k; try exact I; try (apply in_or_app; left; exact IC); apply asked_more, IC. }
  assert (IL' : forall lv, ls_logger s = Some lv -> asked_for (ops ++ [o]) lv) by (intros; apply asked_more; auto).
  destruct o as [c lv|c var|]; cbn [lstep] in Hs.
  - destruct (contains_key c (ls_calls s)); inv Hs. unfold lset. split; cbn [ls_calls ls_logger]; [|exact IL']. intros c1 k. rewrite Q. destruct (eqb c1 c) eqn:E; [|apply IC'].
    apply (proj1 (eqb_true _ _)) in E. intros H. inv H. apply in_or_app. right. left. reflexivity.
  - destruct (lookup c (ls_calls s)) as [k|] eqn:Ec; [|discriminate]. assert (Hk := IC _ _ Ec). assert (Hk' := IC' _ _ Ec). destruct k as [lv|lv|lv|lv| |]; try discriminate Hs.
    + inv Hs. split; cbn [lset ls_calls ls_logger]; [|exact IL']. intros c1 k. rewrite Q. destruct (eqb c1 c) eqn:E; [|apply IC']. apply (proj1 (eqb_true _ _)) in E. subst c1. intros H. destruct (ls_once s); inv H; try exact I; exact Hk'.
    + destruct (ls_once s); inv Hs; split; cbn [lset ls_calls ls_logger]; try exact IL'; intros c1 k; rewrite Q; destruct (eqb c1 c) eqn:E; try apply IC'; apply (proj1 (eqb_true _ _)) in E; subst c1; intros H; inv H; [|exact I].
      destruct lv as [lv|]; cbn [option_default].
      * exists c. left. exact Hk'.
      * exists c. right. split; [exact Hk'|]. exists var. split; [apply in_or_app; right; left; reflexivity|reflexivity].
    + destruct (is_some (ls_logger s) || ls_foreign s); inv Hs; split; cbn [ls_calls ls_logger].
      * intros c1 k. rewrite Q. destruct (eqb c1 c) eqn:E; [|apply IC']. intros H; inv H. exact I.
      * exact IL'.
      * intros c1 k. rewrite Q. destruct (eqb c1 c) eqn:E; [|apply IC']. intros H; inv H. exact Hk'.
      * intros lv' E. inv E. exact Hk'.
    + inv Hs. split; cbn [ls_calls ls_logger]; [|exact IL']. intros c1 k. rewrite Q. destruct (eqb c1 c) eqn:E; [|apply IC']. intros H; inv H. exact I.
  - destruct (is_some (ls_logger s) || ls_foreign s); inv Hs. split; cbn [ls_calls ls_logger]; assumption.
Qed.
Lemma printed_full s l : once_inv s -> printed s l = true -> ls_once s = OnceFull.
Proof.
  intros [I _] P. unfold printed in P. apply andb_prop in P as [P _]. apply Nat.leb_le in P. destruct (ls_once s); [destruct I as (_ & I & _)|destruct I as (I & _)|reflexivity]; rewrite I in P; destruct l; cbn in P; lia.
Qed.
Lemma full_printed s : once_inv s -> ls_once s = OnceFull -> exists lv, ls_logger s = Some lv /\ forall l, printed s l = true <-> severe_as l lv.
Proof.
  intros [I _] F. rewrite F in I. destruct I as [(lv & E & M) _]. exists lv. split; [exact E|]. intros l. unfold printed. rewrite E, M, <- level_num_severe. rewrite Bool.andb_diag. apply Nat.leb_le.
Qed.
Lemma returned_full s c : once_inv s -> lookup c (ls_calls s) = Some LcReturned -> ls_once s = OnceFull.
Proof. intros [I _] H. destruct (ls_once s); [destruct I as (_ & _ & I)|destruct I as (_ & _ & I)|reflexivity]; destruct (I _ _ H) as [_ X]; contradiction. Qed.
Lemma logger_after_init ops s c : lrun ops s -> lookup c (ls_calls s) = Some LcReturned ->
  exists lv, asked_for ops lv /\ forall more s', lrun (ops ++ more) s' -> forall l, printed s' l = true <-> severe_as l lv.
Proof.
  intros Hr Hc. assert (Iv := once_inv_run _ _ Hr). assert (F := returned_full _ _ Iv Hc). destruct (full_printed _ Iv F) as (lv & E & _). exists lv. split; [apply (asked_inv_run _ _ Hr), E|].
  intros more s' Hr' l. destruct (full_stays _ _ _ _ Hr F Hr') as (F' & L' & _). destruct (full_printed _ (once_inv_run _ _ Hr') F') as (lv' & E' & P'). rewrite P'. replace lv' with lv by congruence. tauto.
Qed.
Lemma logger_before_init ops s l : lrun ops s -> printed s l = true -> exists lv, asked_for ops lv /\ forall more s', lrun (ops ++ more) s' -> forall l', printed s' l' = true <-> severe_as l' lv.
Proof.
  intros Hr P. assert (Iv := once_inv_run _ _ Hr). assert (F := printed_full _ _ Iv P). destruct (full_printed _ Iv F) as (lv & E & _). exists lv. split; [apply (asked_inv_run _ _ Hr), E|].
  intros more s' Hr' l'. destruct (full_stays _ _ _ _ Hr F Hr') as (F' & L' & _). destruct (full_printed _ (once_inv_run _ _ Hr') F') as (lv' & E' & P'). rewrite P'. replace lv' with lv by congruence. tauto.
Qed.
Lemma foreign_op ops s : lrun ops s -> ls_foreign s = true -> In LoForeign ops.
Proof.
  induction 1 as [|ops s o s' Hr IH Hs]; [discriminate|]. intros F. apply in_or_app. destruct (ls_foreign s) eqn:Ef; [left; auto|right]. left.
  destruct o as [c lv|c var|]; [| |reflexivity]; exfalso; cbn [lstep] in Hs.
  - destruct (contains_key c (ls_calls s)); inv Hs. cbn [lset ls_foreign] in F. rewrite F in Ef. discriminate Ef.
  - destruct (lookup c (ls_calls s)) as [[lv|lv|lv|lv| |]|]; try discriminate Hs; [inv Hs|destruct (ls_once s); inv Hs| |inv Hs]; cbn [lset ls_foreign] in F; try (rewrite F in Ef; discriminate Ef).
    destruct (is_some (ls_logger s) || ls_foreign s); inv Hs; cbn [ls_foreign] in F; rewrite F in Ef; discriminate Ef.
Qed.
Definition weight (k : option lcall) : nat := match k with None | Some (LcCheck _) => 0 | Some (LcInit _) => 1 | Some (LcSet _) => 2 | Some (LcMax _) => 3 | _ => 4 end.
Lemma steps_bound ops s c : lrun ops s -> steps_of c ops <= weight (lookup c (ls_calls s)).
Proof.
  intros Hr. induction Hr as [|ops s o s' Hr IH Hs]; [cbn; lia|]. unfold steps_of in *. rewrite filter_app, app_length.
  assert (Q : forall (c c' : nat) (k : lcall) m, lookup c (insert c' k m) = if eqb c c' then Some k else lookup c m) by (intros; apply lookup_insert_b).
  destruct o as [c' lv|c' var|]; cbn [filter length]; cbn [lstep] in Hs.
  - destruct (contains_key c' (ls_calls s)) eqn:E; inv Hs. cbn [lset ls_calls]. rewrite Q. destruct (eqb c c') eqn:Ec; [|lia]. apply (proj1 (eqb_true _ _)) in Ec. subst c'. unfold contains_key in E. destruct (lookup c (ls_calls s)); [discriminate|]. cbn in *. lia.
  - assert (X : forall k', weight (lookup c' (ls_calls s)) + 1 <= weight (Some k') -> forall s2, ls_calls s2 = insert c' k' (ls_calls s) ->
       length (filter (fun o => match o with LoNext c'0 _ => Nat.eqb c'0 c | _ => false end) ops) + length (if Nat.eqb c' c then [LoNext c' var] else []) <= weight (lookup c (ls_calls s2))).
    { intros k' Hk s2 E2. rewrite E2, Q. destruct (Nat.eqb_spec c' c) as [->|N]; [rewrite (proj2 (eqb_true c c) eq_refl); cbn [length]; lia|]. destruct (eqb c c') eqn:Ec; [apply (proj1 (eqb_true _ _)) in Ec; congruence|]. cbn [length]. lia. }
    destruct (lookup c' (ls_calls s)) as [[lv|lv|lv|lv| |]|] eqn:E; try discriminate Hs.
    + inv Hs. eapply X; [|reflexivity]. destruct (ls_once s); cbn; lia.
    + destruct (ls_once s); inv Hs; (eapply X; [|reflexivity]); cbn; lia.
    + destruct (is_some (ls_logger s) || ls_foreign s); inv Hs; (eapply X; [|reflexivity]); cbn; lia.
    + inv Hs. eapply X; [|reflexivity]. cbn; lia.
  - destruct (is_some (ls_logger s) || ls_foreign s); inv Hs. cbn [ls_calls]. lia.
Qed.
Lemma no_step_all_over ops s : lrun ops s -> (forall c var, lstep s (LoNext c var) = None) -> forall c k, lookup c (ls_calls s) = Some k -> call_over s c.
Proof.
  intros Hr N c k Hc. destruct (once_inv_run _ _ Hr) as [I _]. assert (Nc := N c None). cbn [lstep] in Nc. rewrite Hc in Nc. unfold call_over. rewrite Hc.
  destruct k as [lv|lv|lv|lv| |]; try discriminate Nc; auto.
  - exfalso. destruct (ls_once s) as [|c0|]; try discriminate Nc. destruct I as (_ & (lv0 & [[H _]|[H _]]) & _); assert (Nc0 := N c0 None); cbn [lstep] in Nc0; rewrite H in Nc0; [destruct (is_some _ || _) in Nc0; discriminate|discriminate].
  - exfalso. destruct (is_some _ || _) in Nc; discriminate.
Qed.

(** ** Payloads *)
Section PayloadProofs.
Variable show_f64 : spec_float -> string.
Variable read_f64_text : string -> option spec_float.
Variable rf : spec_float -> spec_float.
Hypothesis codec : float_codec show_f64 read_f64_text rf.
Variable D : Type.
Variable put_data : string -> D -> value.
Variable read_data : string -> value -> option D.
Lemma clone_exact p : is_text (ob_tag D p) -> document (put_data (ob_tag D p) (ob_data D p)) ->
  clone_payload show_f64 read_f64_text D put_data read_data p =
  if Nat.leb (nesting (put_data (ob_tag D p) (ob_data D p))) 126 then match read_data (ob_tag D p) (wire rf (put_data (ob_tag D p) (ob_data D p))) with Some d => Some (Object D (ob_tag D p) d) | None => None end else None.
Proof.
  intros Ht Hd. destruct p as [t d]. cbn [ob_tag ob_data] in *. unfold clone_payload. cbn [ob_tag ob_data]. rewrite (parse_print_exact _ _ _ codec).
  2: { unfold put_variant. constructor. constructor; [|constructor]. split; [eexists; split; [reflexivity|exact Ht]|exact Hd]. }
  unfold put_variant. cbn [nesting map max_list fold_right snd]. rewrite Nat.max_0_r.
  destruct (Nat.leb_spec (nesting (put_data t d)) 126) as [H|H]; destruct (Nat.leb_spec (S (nesting (put_data t d))) 127) as [H'|H']; try lia; [|reflexivity].
  cbn [wire map fst snd bind_opt]. destruct (read_data t (wire rf (put_data t d))); reflexivity.
Qed.
End PayloadProofs.
