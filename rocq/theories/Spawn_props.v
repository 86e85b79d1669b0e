(** C118: what the built-in runner starts and kills, exactly. *)
From Verif Require Import Base Types Signals_model Stream_model Cond_model Plugins_model Exec_model Ids_model Ids_spec Paths_model Docker_model Docker_spec Docker_proof Docker_props Runner_model Runner_spec Runner_proof Runner_props
  Text_model Text_spec Text_proof Text_props Local_model Spawn_model.
From Coq Require Import Permutation.

(** A host step: [sh -c] with exactly its script, in the data directory of its job, with exactly its environment variables, as text, added to the runner's own. *)
Theorem C118_host_process : forall show_f64 os arch base rc,
  let cmd := rx_command rc in
  uses_host os arch (cmd_container cmd) = true -> NoDup (keys (cmd_environments cmd)) ->
  let sp := executor_spawn show_f64 os arch base rc in
  sp_program sp = "sh" /\ sp_args sp = ["-c"; Types.cmd_run cmd] /\ sp_dir sp = Some (md_data_dir (step_metadata base (rx_event rc) (cmd_id cmd))) /\
  (forall k t, lookup k (sp_env sp) = Some t <-> exists v, lookup k (cmd_environments cmd) = Some v /\ env_text show_f64 v t).
Proof.
  intros show os arch base rc cmd Hh Hn sp. unfold sp, executor_spawn. fold cmd. rewrite Hh. unfold host_into_command.
  set (m := step_metadata base (rx_event rc) (cmd_id cmd)). set (calls := Dir (md_data_dir m) :: map (fun kv => Env (fst kv) (show_env show (snd kv))) (cmd_environments cmd)).
  assert (E : fold_left (fun c kv => rc_env (fst kv) (show_env show (snd kv)) c) (cmd_environments cmd) (rc_set_dir (md_data_dir m) (rc_new (Types.cmd_run cmd))) = build (Types.cmd_run cmd) calls).
  { unfold build, calls. cbn [fold_left apply_call]. generalize (rc_set_dir (md_data_dir m) (rc_new (Types.cmd_run cmd))). generalize (cmd_environments cmd). clear.
    intros l. induction l as [|kv l IH]; intros c; [reflexivity|]. cbn [fold_left map apply_call]. apply IH. }
  rewrite E. destruct (C98_spawned_process (Types.cmd_run cmd) calls) as (H1 & H2 & H3 & H4). split; [exact H1|]. split; [exact H2|]. split.
  - apply H3. exists [], (map (fun kv => Env (fst kv) (show_env show (snd kv))) (cmd_environments cmd)). split; [reflexivity|]. intros d C. apply in_map_iff in C as (kv & C & _). discriminate C.
  - intros k t. rewrite H4. setoid_rewrite env_text_iff. clear -Hn. unfold calls, last_env. split.
    + intros (a & b & Ea & _). assert (Hin : In (Env k t) (Dir (md_data_dir m) :: map (fun kv => Env (fst kv) (show_env show (snd kv))) (cmd_environments cmd))) by (rewrite Ea; apply in_or_app; right; left; reflexivity).
      destruct Hin as [C|Hin]; [discriminate C|]. apply in_map_iff in Hin as ([k' v] & Ek & Hin). injection Ek as <- <-. exists v. split; [|reflexivity]. apply In_lookup; assumption.
    + intros (v & Hl & ->). apply lookup_In in Hl. apply in_split in Hl as (a & b & Ea).
      exists (Dir (md_data_dir m) :: map (fun kv => Env (fst kv) (show_env show (snd kv))) a), (map (fun kv => Env (fst kv) (show_env show (snd kv))) b).
      rewrite Ea, map_app. split; [reflexivity|]. intros v' C. apply in_map_iff in C as ([k' w] & Ek & Hin). injection Ek as -> _.
      rewrite Ea in Hn. unfold keys in Hn. rewrite map_app in Hn. apply NoDup_remove_2 in Hn. apply Hn. apply in_or_app. right. apply in_map with (f := fst) in Hin. exact Hin.
Qed.
Print Assumptions C118_host_process.

(** Any other step: [sh -c] with a docker command line, in the runner's own directory, with no variable set; whatever the order of the environment map, its words (by C46) are
    those of the intended docker call with the variables in that order. *)
Theorem C118_docker_process : forall show_f64 os arch base rc,
  let cmd := rx_command rc in
  uses_host os arch (cmd_container cmd) = false ->
  let sp := executor_spawn show_f64 os arch base rc in
  sp_program sp = "sh" /\ sp_args sp = ["-c"; docker_command_line show_f64 cmd (step_metadata base (rx_event rc) (cmd_id cmd))] /\ sp_dir sp = None /\ sp_env sp = [].
Proof. intros show os arch base rc cmd Hh sp. unfold sp, executor_spawn. fold cmd. rewrite Hh. repeat split. Qed.
Print Assumptions C118_docker_process.
Theorem C118_any_map_order : forall show_f64 cmd m pairs texts envs,
  NoDup (keys (cmd_environments cmd)) -> env_texts show_f64 (cmd_environments cmd) texts -> Permutation envs texts ->
  kept_volumes (match cmd_container cmd with Some c => option_default [] (co_volumes c) | None => [] end) pairs ->
  Forall (fun v => quotable (fst v) /\ quotable (snd v)) pairs ->
  quotable (md_entrypoint m) -> quotable (md_data_dir m) -> quotable (md_cache_dir m) -> quotable (md_docker_workdir m) -> plain_word (md_docker_workdir m) -> plain_word (md_docker_name m) ->
  Forall (fun e => plain (fst e) /\ quotable (snd e)) texts ->
  Forall plain_word (match cmd_container cmd with Some c => option_default [] (co_security_opts c) | None => [] end) ->
  plain_word (match cmd_container cmd with Some c => co_name c | None => "ubuntu" end) ->
  sh_words (generate_docker_command (with_envs envs (docker_of_command show_f64 cmd m))) =
  Some (docker_argv true
    (match cmd_container cmd with Some c => option_default [] (co_security_opts c) | None => [] end)
    ((md_entrypoint m, "/home/work/runner/entrypoint") :: (md_data_dir m, md_docker_workdir m) :: (md_cache_dir m, "/home/work/caches") :: pairs)
    envs
    (Some (md_docker_workdir m)) (Some "/home/work/runner/entrypoint") (Some (md_docker_name m))
    (match cmd_container cmd with Some c => co_name c | None => "ubuntu" end)).
Proof.
  intros show cmd m pairs texts envs ND _ Hp0 Hk Hp He Hd Hc Hw Hw' Hn Hen Hs Hi. apply kept_volumes_iff in Hk. fold (cvolumes cmd) in Hk. fold (csecurity cmd). fold (csecurity cmd) in Hs. fold (cimage cmd). fold (cimage cmd) in Hi.
  rewrite docker_of_command_eq by exact ND. rewrite <- Hk.
  rewrite (C46_docker_argv _ ((md_entrypoint m, "/home/work/runner/entrypoint") :: (md_data_dir m, md_docker_workdir m) :: (md_cache_dir m, "/home/work/caches") :: pairs)); try assumption; try reflexivity.
  - repeat (constructor; [split; try assumption; reflexivity|]). exact Hp.
  - cbn [dk_envs with_envs]. apply (Permutation_Forall (Permutation_sym Hp0)). exact Hen.
  - cbn. intros w [[= <-]|[[= <-]|[[= <-]|[]]]]; auto. split; [discriminate|reflexivity].
Qed.
Print Assumptions C118_any_map_order.

(** In every execution of the task the command of that process is started at most once, and before it, in order: its directory was made (for a host step the one it runs in), and for
    docker the entrypoint was written. *)
Theorem C118_started_once_prepared : forall show_f64 os arch base rc ins x tr,
  let c := runner_conf show_f64 os arch base rc in
  let cmd := rx_command rc in let m := step_metadata base (rx_event rc) (cmd_id cmd) in
  xrun c ins x tr -> forall a t b, tr = a ++ EfSpawn t :: b ->
  sp_args (executor_spawn show_f64 os arch base rc) = ["-c"; t] /\
  a = (if uses_host os arch (cmd_container cmd) then [EfMkdir (md_data_dir m)] else [EfMkdir (md_step_dir m); EfWrite (md_entrypoint m) (entrypoint_content (Types.cmd_run cmd))]) /\
  forall t', ~ In (EfSpawn t') b.
Proof.
  intros show os arch base rc ins x tr c cmd m R a t b E. destruct (x_spawn _ _ _ _ R a t b E) as [H1 H2].
  assert (U : forall t', ~ In (EfSpawn t') b).
  { intros t' C. apply in_split in C as (b1 & b2 & ->). destruct (x_spawn _ _ _ _ R (a ++ EfSpawn t :: b1) t' b2) as [_ H3]; [rewrite E, <- app_assoc; reflexivity|].
    rewrite H2 in H3. apply (f_equal (@length _)) in H3. rewrite app_length in H3. cbn [length] in H3. lia. }
  unfold c, runner_conf, executor_spawn, xc_dir, entry_write in *. fold cmd in H1, H2 |- *. fold m in H1, H2 |- *.
  destruct (uses_host os arch (cmd_container cmd)) eqn:Hh; cbn [xc_spawned xc_host xc_meta xc_script] in *; subst t a; (split; [|split; [reflexivity|exact U]]).
  - unfold build_command. cbn [sp_args]. f_equal. f_equal. unfold host_into_command.
    assert (K : forall l d, rc_command (fold_left (fun c0 (kv : string * env_value) => rc_env (fst kv) (show_env show (snd kv)) c0) l d) = rc_command d).
    { induction l as [|kv l IH]; intros d; [reflexivity|]. cbn [fold_left]. rewrite IH. reflexivity. }
    rewrite K. reflexivity.
  - reflexivity.
Qed.
Print Assumptions C118_started_once_prepared.

(** Killing. A host step's process is never killed. A container is killed exactly when a raised signal was noticed while the command ran (and the task has gone on since), at most once,
    by its own name, before the result is reported. *)
Theorem C118_host_never_killed : forall c ins x tr n, xc_host c = true -> xrun c ins x tr -> ~ In (EfKill n) tr.
Proof.
  intros c ins x tr n Hh R. assert (P : ~ In (EfKill n) tr /\ forall s, xs_phase x <> XKill s); [|exact (proj1 P)].
  assert (Ends : forall r res res' (o : list xeff), x_end r res = (res', o) -> ~ In (EfKill n) o).
  { intros r res res' o E C. apply x_end_ends in E as (_ & _ & E & _). discriminate (E _ C). }
  induction R as [|ins x tr i x' o R [IH1 IH2] E]; [split; [intros []|discriminate]|]. apply xstep_trans in E.
  inv E; (split; [intros C; apply in_app_or in C as [C|C]; [exact (IH1 C)|]|]); cbn [xs_phase] in *; try (intros s'; discriminate); try congruence;
    try (exfalso; exact C); try (destruct C as [C|C]; [discriminate C|exact C]); try (eapply Ends; eassumption); try apply IH2.
  - apply in_map_iff in C as (l & C & _). discriminate C.
Qed.
Print Assumptions C118_host_never_killed.

Definition kills (tr : list xeff) : list string := flat_map (fun e => match e with EfKill n => [n] | _ => [] end) tr.
Lemma kills_app a b : kills (a ++ b) = kills a ++ kills b.
Proof. apply flat_map_app. Qed.
Lemma kills_ends r res res' o : x_end r res = (res', o) -> kills o = [].
Proof. intros E. apply x_end_ends in E as (_ & _ & E & _). induction o as [|e o IH]; [reflexivity|]. cbn. rewrite (E e (or_introl eq_refl)). apply IH. intros e' H. apply E. right. exact H. Qed.
Lemma kills_logs ls : kills (map EfLog ls) = [].
Proof. induction ls; [reflexivity|exact IHls]. Qed.
Definition takes (ins : list xinput) : nat := length (filter (fun i => match i with XITake => true | _ => false end) ins).
Lemma takes_app a b : takes (a ++ b) = takes a + takes b.
Proof. unfold takes. rewrite filter_app, app_length. reflexivity. Qed.
Definition before_take (p : xphase) : bool := match p with XCheck | XMkdir | XWrite | XSelect _ => true | _ => false end.
Lemma docker_kills c ins x tr : xc_host c = false -> xrun c ins x tr ->
  takes ins <= 1 /\ (before_take (xs_phase x) = true -> takes ins = 0) /\
  match xs_phase x with
  | XKill s => takes ins = 1 /\ kills tr = []
  | _ => kills tr = repeat (md_docker_name (xc_meta c)) (takes ins)
  end.
Proof.
  intros Hh. induction 1 as [|ins x tr i x' o R (IH0 & IH1 & IH2) E]; [split; [cbn; lia|split; reflexivity]|]. apply xstep_trans in E.
  rewrite takes_app, kills_app.
  inv E; cbn [xs_phase before_take] in *; cbn [takes filter length]; rewrite ?Nat.add_0_r, ?kills_logs, ?app_nil_r; cbn [kills flat_map app]; rewrite ?app_nil_r;
    try congruence; try (rewrite (kills_ends _ _ _ _ H), ?app_nil_r); try (split; [|split]; auto; try discriminate; fail).
  - assert (E := IH1 eq_refl). rewrite E in *. split; [lia|]. split; [discriminate|]. split; [reflexivity|]. exact IH2.
  - destruct IH2 as [E1 E2]. rewrite E1, E2. split; [lia|]. split; [discriminate|]. apply kills_ends in H. unfold kills in H. cbn. rewrite H. reflexivity.
Qed.
Theorem C118_container_killed : forall c ins x tr, xc_host c = false -> xrun c ins x tr -> settled c x ->
  (In XITake ins -> kills tr = [md_docker_name (xc_meta c)] /\ raised ins <> []) /\ (~ In XITake ins -> kills tr = []).
Proof.
  intros c ins x tr Hh R St. destruct (docker_kills _ _ _ _ Hh R) as (T1 & _ & T2). apply settled_iff in St.
  assert (K : kills tr = repeat (md_docker_name (xc_meta c)) (takes ins)) by (destruct St as [E|(ok & E & _)]; rewrite E in T2; exact T2).
  assert (Hin : In XITake ins <-> takes ins <> 0).
  { unfold takes. split.
    - intros H C. assert (F : In XITake (filter (fun i => match i with XITake => true | _ => false end) ins)) by (apply filter_In; auto).
      destruct (filter _ ins); [destruct F|discriminate C].
    - intros H. destruct (filter (fun i => match i with XITake => true | _ => false end) ins) as [|i l] eqn:E; [destruct (H eq_refl)|].
      assert (F : In i (filter (fun i => match i with XITake => true | _ => false end) ins)) by (rewrite E; left; reflexivity). apply filter_In in F as [F F']. destruct i; try discriminate F'. exact F. }
  split.
  - intros H. apply Hin in H as H'. replace (takes ins) with 1 in K by lia. split; [exact K|].
    clear -R H. induction R as [|ins x tr i x' o R IH E]; [destruct H|]. rewrite raised_app. apply in_app_or in H as [H|[->|[]]].
    + specialize (IH H). intros C. apply app_eq_nil in C as [C _]. exact (IH C).
    + assert (S := x_first_signal _ _ _ _ R). apply xstep_trans in E. intros C. apply app_eq_nil in C as [C _]. rewrite C in S. inv E; cbn in S; discriminate S.
  - intros H. destruct (takes ins) as [|n] eqn:E; [exact K|]. exfalso. apply H. apply Hin. discriminate.
Qed.
Print Assumptions C118_container_killed.
(** The kill is [docker kill NAME]. *)
Theorem C118_kill_command : forall n, plain_word n -> sp_program (kill_spawn n) = "sh" /\ exists t, sp_args (kill_spawn n) = ["-c"; t] /\ sh_words t = Some ["docker"; "kill"; n].
Proof.
  intros n Hn. split; [reflexivity|]. exists ("docker kill " +++ n). split; [reflexivity|]. change ("docker kill " +++ n) with (String.concat " " ["docker"; "kill"; n]).
  apply scan_words; [|discriminate]. repeat constructor; apply reads_plain; try exact Hn; split; try discriminate; reflexivity.
Qed.
Print Assumptions C118_kill_command.

(** A host step with a number in its environment, cancelled while running: the process was started, the step is reported cancelled, nothing is killed. *)
Definition c118_rc : run_context := RunContext (StepId "wf" "build" 2)
  (Command (StepId "wf" "build" 2) None (Some (ContainerOptions "host/linux" None None)) "make" false [("CI", EnvBool true); ("K", EnvString "v")] [] (Duration 60 0)) None None.
Definition c118_ins : list xinput := [XIGo; XIFs true; XICmd (CISpawn true); XISignal SigCancel; XITake; XIFs true; XIGo; XIGo].
Example C118_nonvacuous_host :
  executor_spawn (fun _ => "") "linux" "x86_64" "/base" c118_rc = SpawnSpec "sh" ["-c"; "make"] (Some "/base/wf/build/data") [("CI", "true"); ("K", "v")] /\
  exists x tr, xrun (runner_conf (fun _ => "") "linux" "x86_64" "/base" c118_rc) c118_ins x tr /\ settled (runner_conf (fun _ => "") "linux" "x86_64" "/base" c118_rc) x /\
    tr = [EfMkdir "/base/wf/build/data"; EfSpawn "make"; EfEnd RCancelled; EfRmdir "/base/wf/build/data"; EfAfterRun].
Proof.
  split; [vm_compute; reflexivity|]. eexists _, _. split; [eapply (xexec_run (runner_conf (fun _ => "") "linux" "x86_64" "/base" c118_rc) c118_ins [] xinit []); [constructor|vm_compute; reflexivity]|].
  split; [apply settled_iff; left; reflexivity|reflexivity].
Qed.
(** The same step without a container of its own: docker, killed by name. *)
Definition c118_rc' : run_context := RunContext (StepId "wf" "build" 2) (Command (StepId "wf" "build" 2) None None "make" false [] [] (Duration 60 0)) None None.
Definition c118_ins' : list xinput := [XIGo; XIFs true; XIFs true; XICmd (CISpawn true); XISignal SigCancel; XITake; XIGo; XIFs true; XIGo; XIGo].
Example C118_nonvacuous_docker :
  exists x tr, xrun (runner_conf (fun _ => "") "linux" "x86_64" "/base" c118_rc') c118_ins' x tr /\ settled (runner_conf (fun _ => "") "linux" "x86_64" "/base" c118_rc') x /\
    kills tr = ["wf-build-2"].
Proof.
  eexists _, _. split; [eapply (xexec_run (runner_conf (fun _ => "") "linux" "x86_64" "/base" c118_rc') c118_ins' [] xinit []); [constructor|vm_compute; reflexivity]|].
  split; [apply settled_iff; left; reflexivity|reflexivity].
Qed.
