(** C157, C158: several workflows running at the same time on the built-in runner: what they do on the machine. *)
From Verif Require Import Base Types Config_model Signals_model Stream_model Cond_model
  Plugins_model Plugins_spec Exec_model Exec_spec Job_proof Workflow_model Workflow_spec Workflow_proof Workflow_inv
  Paths_model Docker_model Runner_model Runner_proof Ids_model Ids_spec Local_model Local_spec System_model System_spec System_proof System_flow System_inst Step_props Workflow_props System_props Remote_spec Remote_proof
  Paths_spec Paths_proof Paths_props Process_spec Process_proof Process_props Fleet_model Fleet_spec Fleet_proof Fleet_iso Fleet_main Fleet_props Dispatch_props Machine_spec.

(** *** C157. For each of the runs: the processes of a job are the commands of a part of the calls that the job made of the runner, in their order, one for each call, and the calls
    are those of some of its steps, each at most once, in the order of the workflow. *)
Theorem C157_in_order : forall rhooks conf glob now ops f tr, fleet_run (fun cx => builtin cx rhooks conf) glob now ops f tr -> named f ->
  forall k cx wf s i, run_at f k cx wf s -> let own := run_events k tr in
  subsequence (processes_of i own) (map (fun rc => xc_spawned (conf (rhooks rc))) (calls_of i own)) /\
  (calls_of i own <> [] -> exists key j sts0 sts, nth_error (started (flow_of (builtin cx rhooks conf) own)) i = Some key /\ In (key, j) (wf_jobs wf) /\
     subsequence sts0 (jb_steps j) /\ Forall2 hooked sts0 sts /\ calls_of i own = map (given cx) sts).
Proof.
  intros rhooks conf glob now ops f tr Hr Hn k cx wf s i Ha own. destruct (C127_builtin _ _ _ _ _ _ _ Hr Hn _ _ _ _ Ha) as (sh0 & ops' & S & _).
  assert (Nd : NoDup (keys (wf_jobs wf))). { destruct Ha as (r & ca & E & _ & Ew & _). rewrite <- Ew. exact (Hn _ _ E). }
  exact (C152_in_order cx rhooks conf glob wf Nd sh0 ops' s own i S).
Qed.
Print Assumptions C157_in_order.
(** Whatever is done on the machine for a run is done for a step of that run, which it gave to the runner before; and a process is started only while the step is being prepared. *)
Theorem C157_effects : forall rhooks conf glob now ops f tr, fleet_run (fun cx => builtin cx rhooks conf) glob now ops f tr -> named f ->
  forall k cx wf s, run_at f k cx wf s -> forall pre w e post, run_events k tr = pre ++ (w, inr (LEff e)) :: post ->
  exists i key j st0 st, w = Some i /\ nth_error (started (flow_of (builtin cx rhooks conf) (run_events k tr))) i = Some key /\ In (key, j) (wf_jobs wf) /\ In st0 (jb_steps j) /\ hooked st0 st /\
    In (Some i, inr (LObs (ORun (given cx st)))) pre /\
    (exists ins x effs, xrun (conf (rhooks (given cx st))) ins x effs /\ In e effs) /\
    forall t, e = EfSpawn t -> being_prepared i (given cx st) pre /\ t = xc_spawned (conf (rhooks (given cx st))).
Proof.
  intros rhooks conf glob now ops f tr Hr Hn k cx wf s Ha pre w e post E. destruct (C127_builtin _ _ _ _ _ _ _ Hr Hn _ _ _ _ Ha) as (sh0 & ops' & S & _).
  assert (Nd : NoDup (keys (wf_jobs wf))). { destruct Ha as (r & ca & E' & _ & Ew & _). rewrite <- Ew. exact (Hn _ _ E'). }
  exact (C152_effects cx rhooks conf glob wf Nd sh0 ops' s _ S _ _ _ _ E).
Qed.
Print Assumptions C157_effects.

(** *** C158. Two runs, at the same time or one after the other, of workflows with different ids (or for different repositories): nothing that one of them creates, writes or removes
    is, contains, or lies in, something that the other does. *)
Lemma touched_beneath rhooks show_f64 os arch base glob now ops f tr k cx wf s w :
  fleet_run (fun cx => builtin cx rhooks (runner_conf show_f64 os arch base)) glob now ops f tr -> named f ->
  (forall rc, cmd_id (rx_command (rhooks rc)) = cmd_id (rx_command rc) /\ rx_event (rhooks rc) = rx_event rc) ->
  run_at f k cx wf s -> ordinary_repo (event_repo (cm_event (cx_matcher cx))) -> only_steps_of w (run_events k tr) ->
  forall who e p, In (who, inr (LEff e)) (run_events k tr) -> touches e p ->
  exists rest, components p = (fst (components base), snd (components base) ++ repo_names (event_repo (cm_event (cx_matcher cx))) ++ w :: rest).
Proof.
  intros Hr Hn Hk Ha Or Ho who e p Hin Ht. destruct (C127_builtin _ _ _ _ _ _ _ Hr Hn _ _ _ _ Ha) as (sh0 & ops' & S & _).
  assert (Nd : NoDup (keys (wf_jobs wf))). { destruct Ha as (r & ca & E' & _ & Ew & _). rewrite <- Ew. exact (Hn _ _ E'). }
  apply in_split in Hin as (pre & post & E).
  destruct (C153_places cx rhooks show_f64 os arch base glob wf Nd Hk sh0 ops' s _ S _ _ _ _ E) as (i & key & j & st0 & st & _ & _ & _ & _ & _ & Hc & P).
  assert (G := Ho i (given cx st)). rewrite E in G. specialize (G ltac:(apply in_or_app; left; exact Hc)). cbn [given rx_command command_of_step cmd_id] in G. destruct G as [Gw Gi].
  specialize (P Or Gi). cbv zeta in P.
  assert (R : repo_names (event_repo (cm_event (cx_matcher cx))) = match cm_event (cx_matcher cx) with Some ev => [te_repo_owner ev; te_repo_name ev] | None => [] end) by (destruct (cm_event (cx_matcher cx)); reflexivity).
  rewrite R. destruct e; cbn in Ht; try contradiction; subst p.
  - destruct P as [P|P]; rewrite P, Gw; eexists; reflexivity.
  - rewrite P, Gw. eexists. reflexivity.
  - destruct P as [P|P]; rewrite P, Gw; eexists; reflexivity.
Qed.
Theorem C158_apart : forall rhooks show_f64 os arch base glob now ops f tr,
  fleet_run (fun cx => builtin cx rhooks (runner_conf show_f64 os arch base)) glob now ops f tr -> named f ->
  (forall rc, cmd_id (rx_command (rhooks rc)) = cmd_id (rx_command rc) /\ rx_event (rhooks rc) = rx_event rc) ->
  forall k cx wf s w k' cx' wf' s' w', run_at f k cx wf s -> run_at f k' cx' wf' s' ->
  let r := event_repo (cm_event (cx_matcher cx)) in let r' := event_repo (cm_event (cx_matcher cx')) in
  ordinary_repo r -> ordinary_repo r' -> (r = None <-> r' = None) ->
  only_steps_of w (run_events k tr) -> only_steps_of w' (run_events k' tr) -> w <> w' \/ r <> r' ->
  forall who e p who' e' p', In (who, inr (LEff e)) (run_events k tr) -> In (who', inr (LEff e')) (run_events k' tr) -> touches e p -> touches e' p' ->
  ~ within p p'.
Proof.
  intros rhooks show_f64 os arch base glob now ops f tr Hr Hn Hk k cx wf s w k' cx' wf' s' w' Ha Ha' r r' Or Or' K Ho Ho' D who e p who' e' p' Hi Hi' Ht Ht' (rest & E & _).
  destruct (touched_beneath _ _ _ _ _ _ _ _ _ _ _ _ _ _ w Hr Hn Hk Ha Or Ho _ _ _ Hi Ht) as [y Y].
  destruct (touched_beneath _ _ _ _ _ _ _ _ _ _ _ _ _ _ w' Hr Hn Hk Ha' Or' Ho' _ _ _ Hi' Ht') as [y' Y'].
  fold r in Y. fold r' in Y'. rewrite Y, Y' in E. cbn [fst snd] in E. injection E as E. rewrite <- !app_assoc in E. apply app_inv_head in E.
  clearbody r r'. destruct r as [[a b]|], r' as [[a' b']|]; cbn in E.
  - injection E as -> -> -> _. destruct D as [D|D]; exact (D eq_refl).
  - destruct K as [_ K]. discriminate (K eq_refl).
  - destruct K as [K _]. discriminate (K eq_refl).
  - injection E as -> _. destruct D as [D|D]; exact (D eq_refl).
Qed.
Print Assumptions C158_apart.

(** *** C161. A container is killed for a run only under the name of a step that the run had given to the runner before; and a step of any run (the same or another) whose container has
    that name is that step, if its workflow id is as long. *)
Theorem C161_kill : forall rhooks show_f64 os arch base glob now ops f tr,
  fleet_run (fun cx => builtin cx rhooks (runner_conf show_f64 os arch base)) glob now ops f tr -> named f ->
  (forall rc, cmd_id (rx_command (rhooks rc)) = cmd_id (rx_command rc)) ->
  forall k cx wf s, run_at f k cx wf s -> forall pre who name post, run_events k tr = pre ++ (who, inr (LEff (EfKill name))) :: post ->
  exists i rc, let id := cmd_id (rx_command rc) in who = Some i /\ In (Some i, inr (LObs (ORun rc))) pre /\ name = sid_0 id +++ "-" +++ sid_1 id +++ "-" +++ show_usize (sid_2 id) /\
    forall k' i' rc', In (Some i', inr (LObs (ORun rc'))) (run_events k' tr) -> let id' := cmd_id (rx_command rc') in
      String.length (sid_0 id') = String.length (sid_0 id) -> sid_0 id' +++ "-" +++ sid_1 id' +++ "-" +++ show_usize (sid_2 id') = name -> id' = id.
Proof.
  intros rhooks show os arch base glob now ops f tr Hr Hn Hk k cx wf s Ha pre who name post E.
  destruct (C157_effects _ _ _ _ _ _ _ Hr Hn _ _ _ _ Ha _ _ _ _ E) as (i & key & j & st0 & st & Hw & _ & _ & _ & _ & Hc & (ins & x & effs & X & Hin) & _).
  exists i, (given cx st). cbv zeta. split; [exact Hw|]. split; [exact Hc|].
  assert (N : name = docker_name (cmd_id (rx_command (given cx st)))).
  { rewrite <- Hk. assert (P := own_places _ _ _ _ _ X Hin). cbn in P. rewrite P. unfold runner_conf. destruct (uses_host _ _ _); reflexivity. }
  split; [exact N|]. intros k' i' rc' _ Hl Hs. rewrite N in Hs. exact (C68_names_unique_for_equally_long_ids _ _ Hl Hs).
Qed.
Print Assumptions C161_kill.

(** Non-vacuity: the workflows "v" and "w" of C128, with the built-in runner's configuration in "/b", taking turns until both are over. *)
Definition turns_ops : list (fop (iop := lop)) :=
  [FContext c26_cx; FStart 0 (one_wf "v"); FStart 0 (one_wf "w")] ++ map (FRunOp 0) (firstn 20 (one_ops 0)) ++ map (FRunOp 1) (firstn 22 (one_ops 0)) ++
  map (FRunOp 0) (skipn 20 (one_ops 0)) ++ map (FRunOp 1) (skipn 22 (one_ops 0)).
Definition in_b : run_context -> xconf := runner_conf (fun _ => "") "linux" "x86_64" "/b".
Definition made (k : nat) (tr : list (nat * sysobs (iobs := lobs))) : list string := flat_map (fun x => match x with (_, inr (LEff (EfMkdir p))) => [p] | _ => [] end) (run_events k tr).
Definition gave_w (w : string) (x : who * (obs + lobs)) : bool :=
  match x with (_, inr (LObs (ORun rc))) => eqb (sid_0 (cmd_id (rx_command rc))) w && eqb (sid_1 (cmd_id (rx_command rc))) "a" | _ => true end.
Lemma gave_only w tr : w = "v" \/ w = "w" -> forallb (gave_w w) tr = true -> only_steps_of w tr.
Proof.
  intros Hw H i rc Hin. assert (G := proj1 (forallb_forall _ _) H _ Hin). cbn [gave_w] in G. apply andb_prop in G as [G1 G2].
  apply (proj1 (eqb_true _ _)) in G1. apply (proj1 (eqb_true _ _)) in G2. split; [exact G1|]. split; [rewrite G1|rewrite G2].
  - destruct Hw as [->| ->]; repeat split; try discriminate; reflexivity.
  - repeat split; try discriminate; reflexivity.
Qed.
Example C158_nonvacuous : exists f tr s s', fleet_run (fun cx => builtin cx (fun c => c) in_b) (fun _ => None) 0%N turns_ops f tr /\ named f /\
  run_at f 0 c26_cx (one_wf "v") s /\ run_at f 1 c26_cx (one_wf "w") s' /\ only_steps_of "v" (run_events 0 tr) /\ only_steps_of "w" (run_events 1 tr) /\
  made 0 tr = ["/b/v/a/data"] /\ made 1 tr = ["/b/w/a/data"] /\ processes_of 0 (run_events 0 tr) = ["make"] /\ processes_of 0 (run_events 1 tr) = ["make"] /\
  event_repo (cm_event (cx_matcher c26_cx)) = None.
Proof.
  do 4 eexists. split; [eapply (fexec_run _ _ turns_ops 0%N [] (finit 0%N) [] _ _ (fleet_init _ _ _)); vm_compute; reflexivity|].
  split. { intros [|[|k]] r H; cbn in H; try (injection H as <-; apply one_named). destruct k; discriminate H. }
  split; [do 2 eexists; split; [reflexivity|]; split; [reflexivity|]; split; reflexivity|].
  split; [do 2 eexists; split; [reflexivity|]; split; [reflexivity|]; split; reflexivity|].
  split; [apply gave_only; [left; reflexivity|vm_compute; reflexivity]|]. split; [apply gave_only; [right; reflexivity|vm_compute; reflexivity]|].
  split; [vm_compute; reflexivity|]. split; [vm_compute; reflexivity|]. split; [vm_compute; reflexivity|]. split; [vm_compute; reflexivity|]. reflexivity.
Qed.
(** Non-vacuity of C161: two workflows with a container step each; both processes run, and the job of the first is cancelled. *)
Definition kill_begin : list (sysop (iop := lop)) := repeat (YFlow WMain) 6 ++ repeat (YFlow (WTaskOp 0 JNext)) 6 ++
  map (YStep 0) [LEngine (OpBefore c26_hooks); LEngine OpNext; LEngine OpNext; LEngine OpNext; LEngine OpNext; LEngine OpNext;
   LSpawn; LRunner XIGo; LEngine (OpAnswer true); LRunner (XIFs true); LRunner (XIFs true); LEngine OpNext; LEngine OpNext; LRunner (XICmd (CISpawn true))].
Definition kill_ops : list (fop (iop := lop)) :=
  [FContext c26_cx; FStart 0 (dp_box "v"); FStart 0 (dp_box "w")] ++ map (FRunOp 0) kill_begin ++ map (FRunOp 1) kill_begin ++ [FLook 7 (JobId "v" "a"); FFire 7] ++
  map (FRunOp 0) (map (YStep 0) [LEngine OpJobSignal; LEngine OpNext; LRunner XITake; LRunner XIGo]).
Example C161_nonvacuous : exists f tr s s', fleet_run (fun cx => builtin cx (fun c => c) in_b) (fun _ => None) 0%N kill_ops f tr /\ named f /\
  run_at f 0 c26_cx (dp_box "v") s /\ run_at f 1 c26_cx (dp_box "w") s' /\
  flat_map (fun x => match x with (_, inr (LEff (EfKill n))) => [n] | _ => [] end) (run_events 0 tr) = ["v-a-0"] /\
  map (fun rc => cmd_id (rx_command rc)) (calls_of 0 (run_events 1 tr)) = [StepId "w" "a" 0] /\ length (processes_of 0 (run_events 1 tr)) = 1.
Proof.
  do 4 eexists. split; [eapply (fexec_run _ _ kill_ops 0%N [] (finit 0%N) [] _ _ (fleet_init _ _ _)); vm_compute; reflexivity|].
  split. { intros [|[|k]] r H; cbn in H; [| |destruct k; discriminate H]; injection H as <-; repeat constructor; intros []. }
  split; [do 2 eexists; split; [reflexivity|]; split; [reflexivity|]; split; reflexivity|].
  split; [do 2 eexists; split; [reflexivity|]; split; [reflexivity|]; split; reflexivity|].
  split; [vm_compute; reflexivity|]. split; [vm_compute; reflexivity|]. vm_compute; reflexivity.
Qed.
