(** C159: the processes that runner servers start for the runs of a deployment. *)
From Verif Require Import Base Types Config_model Signals_model Stream_model Cond_model Plugins_model Exec_model Exec_spec Workflow_model Workflow_spec
  Runner_model Sched_model Remote_model Local_model Distant_model System_model System_spec System_proof System_inst Step_props System_props Fleet_model Fleet_spec Fleet_proof Fleet_props
  Dispatch_model Dispatch_spec Dispatch_props Worker_model Chain_model Chain_proof Chain_props Farm_model Farm_spec Farm_proof Farm_place Farm_main Farm_serve Farm_props Remote_spec Chainproc_spec Chainproc_proof Chainproc_props Process_proof Process_props Ids_model Ids_spec Paths_model Paths_spec Paths_proof Paths_props Docker_model Machine_spec Farmproc_spec.

(** *** C159. No job of a run has more processes started for it, on all servers together, than it made calls of its runner, and these are for some of its steps, each at most once, in the
    order of the workflow. *)
Theorem C159_count : forall cl sv rhooks conf glob now ops q tr k cx wf s i, farm_run cl sv rhooks conf glob now ops q tr -> named (fm_fleet q) -> run_at (fm_fleet q) k cx wf s ->
  let own := run_events k (farm_seen tr) in
  length (started_for i own) <= length (given_by i own) /\
  (given_by i own <> [] -> exists key j sts0 sts, nth_error (started (flow_of (chained cx cl sv rhooks conf) own)) i = Some key /\ In (key, j) (wf_jobs wf) /\
     subsequence sts0 (jb_steps j) /\ Forall2 hooked sts0 sts /\ given_by i own = map (Local_spec.given cx) sts).
Proof.
  intros cl sv rhooks conf glob now ops q tr k cx wf s i R Hn Ha own.
  destruct (C146_runs _ _ _ _ _ _ _ _ _ R) as (fops & Hf & _). destruct (C127_chained _ _ _ _ _ _ _ _ _ Hf Hn _ _ _ _ Ha) as (sh0 & ops' & S & _).
  assert (Nd : NoDup (keys (wf_jobs wf))). { destruct Ha as (r & ca & E & _ & Ew & _). rewrite <- Ew. exact (Hn _ _ E). }
  exact (C154_count cx cl sv rhooks conf glob wf Nd sh0 ops' s own i S).
Qed.
Print Assumptions C159_count.
(** Each of them is the command of a call that the job made before and that the scheduler placed on the server that starts it, which had connected; with that server's plugins and
    configuration. *)
Theorem C159_placed : forall cl sv rhooks conf glob now ops q tr k w t pre post, farm_run cl sv rhooks conf glob now ops q tr -> tr = pre ++ QSeen k (w, inr (KEff (EfSpawn t))) :: post ->
  exists i rc srv, w = Some i /\ placed (fm_asked q) (client_view pre) k i rc (Some srv) /\ lookup (rm_id srv) (farm_connected ops) = Some srv /\ t = xc_spawned (conf srv (rhooks srv rc)).
Proof.
  intros cl sv rhooks conf glob now ops q tr k w t pre post R E. destruct (C148_only_what_was_sent _ _ _ _ _ _ _ _ _ _ _ _ _ _ R E) as (i & rc & srv & Hw & P & Hl & _ & ins & x & effs & X & Hin).
  exists i, rc, srv. split; [exact Hw|]. split; [exact P|]. split; [exact Hl|]. exact (own_places _ _ _ _ _ X Hin).
Qed.
Print Assumptions C159_placed.

(** *** C160. On servers with the built-in configuration and plugins that leave the command's id and the event alone, what is done for one run and what is done for another, of a
    workflow with a different id or another repository, on the same server or on servers with the same working directory, keeps apart: nothing created, written or removed for the
    one is, contains or lies in something that is for the other. *)
Lemma view_given tr k i rc : In (gives k i rc) (client_view tr) -> In (QSeen k (Some i, inr (KObs (ORun rc)))) tr.
Proof.
  intros H. apply in_flat_map in H as (e & He & Hin). destruct e as [k' [w [x|[x|x]]]|x]; cbn in Hin; try (destruct Hin as [Hin|[]]; try discriminate Hin; injection Hin as -> -> ->; exact He). destruct Hin.
Qed.
Lemma served_beneath cl sv rhooks show_f64 os arch base glob now ops q tr k w r :
  let conf := fun srv : runner_meta => runner_conf show_f64 (os srv) (arch srv) (base srv) in
  (forall srv rc, cmd_id (rx_command (rhooks srv rc)) = cmd_id (rx_command rc) /\ rx_event (rhooks srv rc) = rx_event rc) ->
  farm_run cl sv rhooks conf glob now ops q tr -> ordinary_repo r -> all_for w r k tr ->
  forall who e p pre post, tr = pre ++ QSeen k (who, inr (KEff e)) :: post -> touches e p ->
  exists i rc srv rest, who = Some i /\ placed (fm_asked q) (client_view pre) k i rc (Some srv) /\ components p = (fst (components (base srv)), snd (components (base srv)) ++ repo_names r ++ w :: rest).
Proof.
  intros conf Hk R Or Ho who e p pre post E Ht. destruct (C148_only_what_was_sent _ _ _ _ _ _ _ _ _ _ _ _ _ _ R E) as (i & rc & srv & Hw & P & _ & _ & ins & x & effs & X & Hin).
  assert (G := Ho i rc). rewrite E in G. specialize (G ltac:(apply in_or_app; left; apply view_given; exact (placed_gives _ _ _ _ _ _ P))). destruct G as (Gw & Gi & Gr).
  exists i, rc, srv. cut (exists rest, components p = (fst (components (base srv)), snd (components (base srv)) ++ repo_names r ++ w :: rest)); [intros [rest Hp]; exists rest; auto|].
  assert (Q := own_places _ _ _ _ _ X Hin). destruct (Hk srv rc) as [K1 K2].
  assert (M : xc_meta (conf srv (rhooks srv rc)) = step_metadata (base srv) (rx_event rc) (cmd_id (rx_command rc))).
  { unfold conf, runner_conf. rewrite K1, K2. destruct (uses_host _ _ _); reflexivity. }
  rewrite <- Gr in Or. destruct (C44_places (base srv) (rx_event rc) (cmd_id (rx_command rc)) Or Gi) as (A1 & A2 & A3 & _). cbv zeta in A1, A2, A3.
  assert (N : repo_names r = match rx_event rc with Some ev => [te_repo_owner ev; te_repo_name ev] | None => [] end) by (rewrite <- Gr; destruct (rx_event rc); reflexivity).
  rewrite <- N in A1, A2, A3. rewrite Gw in A1, A2, A3.
  assert (D : exists rest, components (xc_dir (conf srv (rhooks srv rc))) = (fst (components (base srv)), snd (components (base srv)) ++ repo_names r ++ w :: rest)).
  { unfold xc_dir. rewrite M. destruct (xc_host _); [exists [sid_1 (cmd_id (rx_command rc)); "data"]; exact A3|exists [sid_1 (cmd_id (rx_command rc)); show_usize (sid_2 (cmd_id (rx_command rc)))]; exact A1]. }
  destruct e; cbn in Ht; try contradiction; subst p.
  - rewrite Q. exact D.
  - destruct Q as [-> _]. rewrite M. eexists. exact A2.
  - rewrite Q. exact D.
Qed.
Theorem C160_apart : forall cl sv rhooks show_f64 os arch base glob now ops q tr,
  let conf := fun srv : runner_meta => runner_conf show_f64 (os srv) (arch srv) (base srv) in
  (forall srv rc, cmd_id (rx_command (rhooks srv rc)) = cmd_id (rx_command rc) /\ rx_event (rhooks srv rc) = rx_event rc) ->
  farm_run cl sv rhooks conf glob now ops q tr ->
  forall k w r k' w' r', ordinary_repo r -> ordinary_repo r' -> (r = None <-> r' = None) -> all_for w r k tr -> all_for w' r' k' tr -> w <> w' \/ r <> r' ->
  forall who e p pre post who' e' p' pre' post', tr = pre ++ QSeen k (who, inr (KEff e)) :: post -> tr = pre' ++ QSeen k' (who', inr (KEff e')) :: post' -> touches e p -> touches e' p' ->
  exists i rc srv i' rc' srv', who = Some i /\ placed (fm_asked q) (client_view pre) k i rc (Some srv) /\ who' = Some i' /\ placed (fm_asked q) (client_view pre') k' i' rc' (Some srv') /\
    (base srv = base srv' -> ~ within p p').
Proof.
  intros cl sv rhooks show os arch base glob now ops q tr conf Hk R k w r k' w' r' Or Or' K Ho Ho' D who e p pre post who' e' p' pre' post' E E' Ht Ht'.
  destruct (served_beneath _ _ _ _ _ _ _ _ _ _ _ _ _ w r Hk R Or Ho _ _ _ _ _ E Ht) as (i & rc & srv & y & H1 & H2 & Y).
  destruct (served_beneath _ _ _ _ _ _ _ _ _ _ _ _ _ w' r' Hk R Or' Ho' _ _ _ _ _ E' Ht') as (i' & rc' & srv' & y' & H1' & H2' & Y').
  exists i, rc, srv, i', rc', srv'. repeat (split; [assumption|]). intros Eb (rest & B & _). rewrite Y, Y', <- Eb in B. cbn [fst snd] in B. injection B as B. rewrite <- !app_assoc in B. apply app_inv_head in B.
  destruct r as [[a b]|], r' as [[a' b']|]; cbn in B.
  - injection B as -> -> -> _. destruct D as [D|D]; exact (D eq_refl).
  - destruct K as [_ K]. discriminate (K eq_refl).
  - destruct K as [K _]. discriminate (K eq_refl).
  - injection B as -> _. destruct D as [D|D]; exact (D eq_refl).
Qed.
Print Assumptions C160_apart.

(** *** C161, in a deployment. *)
Theorem C161_kill_on_a_server : forall cl sv rhooks show_f64 os arch base glob now ops q tr,
  let conf := fun srv : runner_meta => runner_conf show_f64 (os srv) (arch srv) (base srv) in
  (forall srv rc, cmd_id (rx_command (rhooks srv rc)) = cmd_id (rx_command rc)) ->
  farm_run cl sv rhooks conf glob now ops q tr ->
  forall k who name pre post, tr = pre ++ QSeen k (who, inr (KEff (EfKill name))) :: post ->
  exists i rc srv, let id := cmd_id (rx_command rc) in who = Some i /\ placed (fm_asked q) (client_view pre) k i rc (Some srv) /\
    name = sid_0 id +++ "-" +++ sid_1 id +++ "-" +++ show_usize (sid_2 id) /\
    forall k' i' rc', In (QSeen k' (Some i', inr (KObs (ORun rc')))) tr -> let id' := cmd_id (rx_command rc') in
      String.length (sid_0 id') = String.length (sid_0 id) -> sid_0 id' +++ "-" +++ sid_1 id' +++ "-" +++ show_usize (sid_2 id') = name -> id' = id.
Proof.
  intros cl sv rhooks show os arch base glob now ops q tr conf Hk R k who name pre post E.
  destruct (C148_only_what_was_sent _ _ _ _ _ _ _ _ _ _ _ _ _ _ R E) as (i & rc & srv & Hw & P & _ & _ & ins & x & effs & X & Hin).
  exists i, rc, srv. cbv zeta. split; [exact Hw|]. split; [exact P|].
  assert (N : name = docker_name (cmd_id (rx_command rc))).
  { rewrite <- (Hk srv rc). assert (Q := own_places _ _ _ _ _ X Hin). cbn in Q. rewrite Q. unfold conf, runner_conf. destruct (uses_host _ _ _); reflexivity. }
  split; [exact N|]. intros k' i' rc' _ Hl Hs. rewrite N in Hs. exact (C68_names_unique_for_equally_long_ids _ _ Hl Hs).
Qed.
Print Assumptions C161_kill_on_a_server.

(** Non-vacuity: the deployment of C147: two processes for the two steps of the first run, none (yet) for the step that the second run has given. *)
Example C159_nonvacuous : exists q tr s, fa_run fa_ops q tr /\ named (fm_fleet q) /\ run_at (fm_fleet q) 0 c26_cx (dp_box "w") s /\
  length (started_for 0 (run_events 0 (farm_seen tr))) = 2 /\ map (fun rc => cmd_id (rx_command rc)) (given_by 0 (run_events 0 (farm_seen tr))) = [StepId "w" "a" 0; StepId "w" "a" 1] /\
  started_for 0 (run_events 1 (farm_seen tr)) = [] /\ map (fun rc => cmd_id (rx_command rc)) (given_by 0 (run_events 1 (farm_seen tr))) = [StepId "v" "a" 0].
Proof.
  destruct (fa_state fa_ops) as [[q tr]|] eqn:E; [|vm_compute in E; discriminate E]. assert (R := fa_reach _ _ _ E). exists q, tr.
  assert (N : forall k r, nth_error (fl_runs (fm_fleet q)) k = Some r -> exists id, fr_wf r = dp_box id).
  { clear R. vm_compute in E. injection E as <- <-. intros [|[|k]] r H; [injection H as <-; exists "w"; reflexivity|injection H as <-; exists "v"; reflexivity|destruct k; discriminate H]. }
  assert (G : exists s, run_at (fm_fleet q) 0 c26_cx (dp_box "w") s).
  { clear R N. vm_compute in E. injection E as <- <-. eexists. do 2 eexists. repeat split; reflexivity. }
  destruct G as [s G]. exists s. split; [exact R|]. split; [apply fa_named, N|]. split; [exact G|]. clear R N G. vm_compute in E. injection E as <- <-. repeat split; reflexivity.
Qed.
(** Non-vacuity of C160: the same deployment with all servers in "/s". *)
Definition in_s (m : runner_meta) : run_context -> xconf := runner_conf (fun _ => "") "linux" "x86_64" "/s".
Definition for_w (w : string) (k : nat) (x : qobs) : bool :=
  match x with
  | QSeen k' (Some _, inr (KObs (ORun rc))) => negb (Nat.eqb k' k) || (eqb (sid_0 (cmd_id (rx_command rc))) w && eqb (sid_1 (cmd_id (rx_command rc))) "a" && match rx_event rc with None => true | _ => false end)
  | _ => true
  end.
Lemma for_all w k tr : w = "v" \/ w = "w" -> forallb (for_w w k) tr = true -> all_for w None k tr.
Proof.
  intros Hw H i rc Hin. assert (G := proj1 (forallb_forall _ _) H _ Hin). cbn [for_w] in G. rewrite Nat.eqb_refl in G. cbn [negb orb] in G. apply andb_prop in G as [G G3]. apply andb_prop in G as [G1 G2].
  apply (proj1 (eqb_true _ _)) in G1. apply (proj1 (eqb_true _ _)) in G2. split; [exact G1|]. split; [|destruct (rx_event rc); [discriminate G3|reflexivity]]. split; [rewrite G1|rewrite G2].
  - destruct Hw as [->| ->]; repeat split; try discriminate; reflexivity.
  - repeat split; try discriminate; reflexivity.
Qed.
Example C160_nonvacuous : exists q tr, farm_run (fun t => t + 100) (fun t => t + 200) (fun _ c => c) in_s (fun _ => None) 0%N fa_ops q tr /\ all_for "w" None 0 tr /\ all_for "v" None 1 tr /\
  made tr = [(0, "/s/w/a/0"); (1, "/s/v/a/0"); (0, "/s/w/a/1")].
Proof.
  destruct (qexec (fun t => t + 100) (fun t => t + 200) (fun _ c => c) in_s (fun _ => None) (qinit 0%N) fa_ops) as [[q tr]|] eqn:E; [|vm_compute in E; discriminate E].
  exists q, tr. split; [exact (qexec_run _ _ _ _ _ _ fa_ops [] (qinit 0%N) [] _ _ (farm_init _ _ _ _ _ _) E)|]. vm_compute in E. injection E as _ <-.
  split; [apply for_all; [right|vm_compute]; reflexivity|]. split; [apply for_all; [left|vm_compute]; reflexivity|]. reflexivity.
Qed.
