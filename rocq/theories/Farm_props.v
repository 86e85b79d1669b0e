(** C146-C148: workflow runs placed by the scheduler on runner servers with built-in runners. *)
From Coq Require Import Sorting.Permutation.
From Verif Require Import Base Types Signals_model Signals_proof Stream_model Stream_spec Stream_proof Cond_model Plugins_model Plugins_spec Plugins_proof Exec_model Exec_spec Step_proof Job_proof Step_props
  Workflow_model Workflow_spec Workflow_proof Workflow_inv Workflow_props Runner_model Runner_spec Runner_proof Sched_model Sched_spec Sched_proof Remote_model Remote_spec Local_model Local_spec Local_proof
  Distant_model Distant_spec Distant_proof Distant_props System_model System_spec System_proof System_flow System_inst System_props Fleet_model Fleet_spec Fleet_proof
  Dispatch_model Dispatch_spec Dispatch_proof Dispatch_main Dispatch_props Worker_model Worker_spec Worker_proof Worker_live Worker_props Chain_model Chain_spec Chain_proof Farm_model Farm_spec Farm_place Farm_proof Farm_main Farm_serve.

(** *** C146. What the client and its scheduler do does not depend on what the servers are. *)
Theorem C146_client : forall cl sv rhooks conf glob now ops q tr, farm_run cl sv rhooks conf glob now ops q tr ->
  exists pops d, dispatch_run cl glob now pops d (client_view tr) /\ connected pops = farm_connected ops /\ dp_clients d = fm_clients q /\ dp_sched d = fm_sched q /\ dp_asked d = fm_asked q /\
    forall k i l, In (PAsk k i l) pops -> In (QAsk k i l) ops.
Proof.
  intros cl sv rhooks conf glob now ops q tr R. destruct (outer_farm _ _ _ _ _ _ _ _ _ R) as (pops & d & H1 & [_ H2 H3 H4] & H5 & H6). exists pops, d. auto 8.
Qed.
Print Assumptions C146_client.
(** The runs and their servers, the scheduler's answers being what they are, are a fleet of runs on chained servers (C113). *)
Theorem C146_runs : forall cl sv rhooks conf glob now ops q tr, farm_run cl sv rhooks conf glob now ops q tr ->
  exists fops, fleet_run (fun cx => chained cx cl sv rhooks conf) glob now fops (fm_fleet q) (farm_seen tr) /\ filter (fun op => negb (picks_server op)) fops = farm_ops ops.
Proof.
  intros cl sv rhooks conf glob now ops q tr R. destruct (farm_watched _ _ _ _ _ _ _ _ _ R) as (fops & W & Ef). exists fops. split; [eapply fwatched_run; exact W|exact Ef].
Qed.
Print Assumptions C146_runs.

(** What the results of the jobs are made of. *)
Lemma farm_results : forall cl sv rhooks conf glob now ops q tr k cx wf s key jr, farm_run cl sv rhooks conf glob now ops q tr -> named (fm_fleet q) ->
  run_at (fm_fleet q) k cx wf s -> In (key, jr) (received (flow_of (chained cx cl sv rhooks conf) (run_events k (farm_seen tr)))) ->
  exists i j, nth_error (started (flow_of (chained cx cl sv rhooks conf) (run_events k (farm_seen tr)))) i = Some key /\ In (key, j) (wf_jobs wf) /\
    ((jr_state jr = Skipped /\ jr_steps jr = []) \/
     Forall2 (fun st0 x => skipped_entry st0 x \/
       exists kops sk ktr dops gs ins, khist cx (S i) (cl (S i)) (sv (S i)) rhooks conf st0 kops sk ktr dops gs ins /\ ds_step (k_d sk) = SpDone x /\
         (forall o, In (KExec o) kops -> In (QFleet (FRunOp k (YStep i (KExec o)))) ops) /\
         exists st res, hooked st0 st /\ placed (fm_asked q) (client_view tr) k i (Local_spec.given cx st) res /\
           match res with
           | None => mirrors (RFailed 1) x /\ Exec_spec.delivered (k_events ktr) = [log_error "No runner available"] /\ k_effects ktr = []
           | Some srv => lookup (rm_id srv) (farm_connected ops) = Some srv /\
               (forall w, k_w sk = Some w -> wk_conf w = conf srv (rhooks srv (Local_spec.given cx st))) /\
               ((exists w rr line, k_w sk = Some w /\ xrun (conf srv (rhooks srv (Local_spec.given cx st))) ins (wk_x w) (k_effects ktr) /\ verdict None false ins = Some rr /\ mirrors rr x /\
                   Exec_spec.delivered (k_events ktr) = Local_spec.logs_of (k_effects ktr) ++ line /\ (line <> [] -> exists f, is_fault f = true /\ In (QFleet (FRunOp k (YStep i (KFlow (DRemote f))))) ops)) \/
                (mirrors (RFailed 1) x /\ exists f, is_fault f = true /\ In (QFleet (FRunOp k (YStep i (KFlow (DRemote f))))) ops))
           end)
       (jb_steps j) (jr_steps jr)).
Proof.
  intros cl sv rhooks conf glob now ops q tr k cx wf s key jr R Hn Ha Hl.
  assert (Hnd : NoDup (keys (wf_jobs wf))) by (destruct Ha as (r0 & ca & H1 & _ & <- & _); exact (Hn _ _ H1)).
  destruct (farm_projection _ _ _ _ _ _ _ _ _ _ _ _ _ R Hn Ha) as (sh0 & sops & L & RL & HL & HO).
  assert (Fa := placing_faithful cl sv rhooks conf cx L).
  destruct (System_flow.received_ran _ glob cx wf Fa _ _ _ _ _ _ Hnd RL Hl) as (i & j & H1 & H2 & H3).
  exists i, j. split; [exact H1|]. split; [exact H2|]. apply story_entries in H3 as [H3|H3]; [left; exact H3|right].
  induction H3 as [|st0 x l l' [H|[sevs H]] H3 IH]; constructor; auto. right.
  destruct H as (iops & sh & kx & itr & Hi & He & Ho).
  assert (Sent := placing_sent _ _ _ _ _ _ _ _ _ _ _ _ _ Hi). apply placing_irun in Hi. apply chained_hist in Hi as (dops & gs & ins & Hh).
  exists (map kback iops), (kwhole sh (SpDone x) kx), itr, dops, gs, ins. split; [exact Hh|]. split; [reflexivity|].
  assert (Own : forall op, In op (map kback iops) -> (forall e, op <> KFlow (DWorld e)) -> (forall cs p, op <> KFlow (DPick cs p)) -> In (QFleet (FRunOp k (YStep i op))) ops).
  { intros op Hop Nw Np. apply in_map_iff in Hop as (lb & <- & Hlb). specialize (Ho _ Hlb). destruct lb as [op|e]; cbn in *; [|destruct (Nw e eq_refl)].
    apply HO; [exact Ho|reflexivity|]. destruct op as [[]| | | | | |]; try reflexivity. edestruct Np; reflexivity. }
  split; [intros o Hin; apply Own; [exact Hin|discriminate..]|].
  destruct (khist_members _ _ _ _ _ _ _ _ _ _ _ _ _ Hh) as [M _].
  assert (Fl : ~ clean (remote_events dops) -> exists f, is_fault f = true /\ In (QFleet (FRunOp k (YStep i (KFlow (DRemote f))))) ops).
  { intros Nc. destruct (existsb is_fault (remote_events dops)) eqn:Ex.
    - apply existsb_exists in Ex as (f & Hf1 & Hf2). exists f. split; [exact Hf2|]. unfold remote_events in Hf1. apply in_flat_map in Hf1 as (d & Hd1 & Hd2).
      destruct d as [|?|i0| |]; try (exfalso; exact Hd2). destruct Hd2 as [->|[]].
      destruct (M _ Hd1) as [G|[[l0 G]|[l0 G]]]; [|injection G as ->; discriminate|injection G as ->; discriminate]. apply Own; [exact G|discriminate..].
    - destruct Nc. intros f Hf. destruct (is_fault f) eqn:Ff; [|reflexivity]. rewrite <- Ex. symmetry. apply existsb_exists. eauto. }
  assert (Kh := khist_inv _ _ _ _ _ _ _ _ _ _ _ _ _ Hh). destruct (distant_result _ _ _ _ _ _ _ _ _ (ki_d _ _ _ _ _ _ _ _ _ _ _ _ Kh) eq_refl) as (t & _ & T & _).
  destruct (Sent t T) as (st & res & Hk & Hin & Hres). exists st, res. split; [exact Hk|]. split; [eapply HL; [exact Hin|reflexivity]|].
  assert (Pl := HL _ _ _ Hin st eq_refl). destruct res as [srv|].
  - destruct Hres as [Hr Hc]. destruct (C146_client _ _ _ _ _ _ _ _ _ R) as (pops & d & Hd & Ec & _).
    assert (Cn : lookup (rm_id srv) (farm_connected ops) = Some srv).
    { destruct Pl as (c & l0 & a & pre & mid & mid' & post & E & _). rewrite <- Ec. eapply (C139_connected _ _ _ _ _ _ Hd c). rewrite E. apply in_or_app; right. right. apply in_or_app; right. right. apply in_or_app; right. left. reflexivity. }
    split; [exact Cn|]. assert (Wc : forall w, k_w (kwhole sh (SpDone x) kx) = Some w -> wk_conf w = conf srv (rhooks srv (Local_spec.given cx st))).
    { intros w Hw. destruct (ki_w _ _ _ _ _ _ _ _ _ _ _ _ Kh w Hw) as (_ & (rc & srv' & K1 & K2) & _). rewrite Hc in K1. injection K1 as <- <-. exact K2. }
    split; [exact Wc|].
    destruct (C112_result _ _ _ _ _ _ _ _ _ _ _ _ _ _ Hh eq_refl) as [(G & _)|[(w & st' & srv' & rr & G1 & _ & _ & _ & _ & G4 & G5 & G6 & line & G7 & G8)|(G1 & G2 & _)]].
    + exfalso. apply Hr. unfold the_remote in G. rewrite T in G. exact G.
    + left. exists w, rr, line. split; [exact G1|]. split; [rewrite <- (Wc w G1); exact G4|]. repeat (split; [assumption|]). intros Nl. apply Fl. intros Cc. exact (Nl (G8 Cc)).
    + right. auto.
  - destruct (C112_result _ _ _ _ _ _ _ _ _ _ _ _ _ _ Hh eq_refl) as [(_ & G1 & G2 & _ & G3)|[(w & st' & srv' & rr & G1 & _)|(G1 & G2 & _)]].
    + auto.
    + exfalso. destruct (ki_w _ _ _ _ _ _ _ _ _ _ _ _ Kh w G1) as (_ & _ & rm & _ & _ & K & _). unfold the_remote in K. rewrite T in K. congruence.
    + exfalso. apply G1. destruct (dhist_inv _ _ _ _ _ _ _ _ (ki_d _ _ _ _ _ _ _ _ _ _ _ _ Kh)) as [_ _ _ _ Ht]. destruct (Ht t T) as (_ & _ & _ & _ & K). rewrite Hres in K.
      destruct K as [K _]. intros f Hf. rewrite K in Hf. destruct Hf.
Qed.

(** *** C147. In the result of a finished run every step entry that is not a skipped one comes from a step that the scheduler placed; if it found no runner the step failed and nothing ran;
    otherwise the result and the log are those of the built-in runner on the very server that the scheduler had answered with, which was connected, with that server's plugins and
    configuration applied to what the engine had given, unless there was a fault of the connection or call. *)
Theorem C147_final : forall cl sv rhooks conf glob now ops q tr k cx wf s r key jr, farm_run cl sv rhooks conf glob now ops q tr -> named (fm_fleet q) ->
  run_at (fm_fleet q) k cx wf s -> ws_main (sy_w s) = WpDone r -> lookup key (wr_jobs r) = Some jr ->
  exists i j, nth_error (started (flow_of (chained cx cl sv rhooks conf) (run_events k (farm_seen tr)))) i = Some key /\ In (key, j) (wf_jobs wf) /\
    ((jr_state jr = Skipped /\ jr_steps jr = []) \/
     Forall2 (fun st0 x => skipped_entry st0 x \/
       exists kops sk ktr dops gs ins, khist cx (S i) (cl (S i)) (sv (S i)) rhooks conf st0 kops sk ktr dops gs ins /\ ds_step (k_d sk) = SpDone x /\
         (forall o, In (KExec o) kops -> In (QFleet (FRunOp k (YStep i (KExec o)))) ops) /\
         exists st res, hooked st0 st /\ placed (fm_asked q) (client_view tr) k i (Local_spec.given cx st) res /\
           match res with
           | None => mirrors (RFailed 1) x /\ Exec_spec.delivered (k_events ktr) = [log_error "No runner available"] /\ k_effects ktr = []
           | Some srv => lookup (rm_id srv) (farm_connected ops) = Some srv /\
               (forall w, k_w sk = Some w -> wk_conf w = conf srv (rhooks srv (Local_spec.given cx st))) /\
               ((exists w rr line, k_w sk = Some w /\ xrun (conf srv (rhooks srv (Local_spec.given cx st))) ins (wk_x w) (k_effects ktr) /\ verdict None false ins = Some rr /\ mirrors rr x /\
                   Exec_spec.delivered (k_events ktr) = Local_spec.logs_of (k_effects ktr) ++ line /\ (line <> [] -> exists f, is_fault f = true /\ In (QFleet (FRunOp k (YStep i (KFlow (DRemote f))))) ops)) \/
                (mirrors (RFailed 1) x /\ exists f, is_fault f = true /\ In (QFleet (FRunOp k (YStep i (KFlow (DRemote f))))) ops))
           end)
       (jb_steps j) (jr_steps jr)).
Proof.
  intros cl sv rhooks conf glob now ops q tr k cx wf s r key jr R Hn Ha Em Hl.
  assert (Hnd : NoDup (keys (wf_jobs wf))) by (destruct Ha as (r0 & ca & H1 & _ & <- & _); exact (Hn _ _ H1)).
  destruct (farm_projection _ _ _ _ _ _ _ _ _ _ _ _ _ R Hn Ha) as (sh0 & sops & L & RL & _).
  destruct (flow_run _ glob cx wf (placing_faithful cl sv rhooks conf cx L) _ _ _ _ RL) as (wls & W & _).
  destruct (C36_final_state _ _ _ _ _ _ _ Hnd W Em) as (_ & [(_ & Hj & _)|(_ & _ & Hlat)]); [rewrite Hj in Hl; discriminate Hl|].
  apply Hlat, received_latest in Hl. eapply farm_results; eassumption.
Qed.
Print Assumptions C147_final.

(** Two runs, two servers with different configurations. Both steps of the first run go to the server [near], the step of the second run to [far]. *)
Definition fa_conf (m : runner_meta) (c : run_context) : xconf := runner_conf (fun _ => "") "linux" "x86_64" (if eqb (rm_id m) "near" then "/w" else "/v") c.
Definition fa_flow (k : nat) (l : list (sysop (iop := kop))) : list qop := map (fun op => QFleet (FRunOp k op)) l.
Definition fa_begin : list (sysop (iop := kop)) := map (fun d => YStep 0 (KFlow d)) [DEngine (OpBefore c26_hooks); DEngine OpNext; DEngine OpNext; DEngine OpNext; DEngine OpNext; DEngine OpNext].
Definition fa_step (code : Z) : list (sysop (iop := kop)) :=
  map (YStep 0) ([KArrive; KExec XIGo] ++ map KFlow [DEngine (OpAnswer true)] ++ [KExec (XIFs true); KExec (XIFs true); KExec (XICmd (CISpawn true)); KExec (XICmd (CIOut (RdLine "hello"))); KSender; KForward] ++
  map KFlow [DRemote (RiAnswer None); DEngine OpNext; DEngine OpNext] ++ [KForward; KForward] ++ map KFlow [DRemote RiDeliver; DSender] ++
  [KExec (XICmd (CIOut RdEof)); KExec (XICmd (CIExit (Some code))); KSender; KSender; KForward; KForward] ++ map KFlow ([DRemote RiDeliver; DSender; DSender;
   DEngine OpStream; DEngine OpNext; DEngine OpNext; DEngine OpNext; DEngine OpStream; DEngine OpNext; DEngine OpNext; DEngine OpNext; DEngine OpNext])).
Definition fa_ops : list qop :=
  [QFleet (FContext c26_cx); QConnect (Reports dp_near); QFleet (FStart 0 (dp_box "w")); QConnect Unreachable; QFleet (FStart 0 (dp_box "v"))] ++
  fa_flow 0 (repeat (YFlow WMain) 6 ++ repeat (YFlow (WTaskOp 0 JNext)) 6 ++ fa_begin) ++ [QAsk 0 0 [dp_near]; QLock 0] ++
  fa_flow 1 (repeat (YFlow WMain) 6 ++ repeat (YFlow (WTaskOp 0 JNext)) 6 ++ fa_begin) ++ [QConnect (Reports dp_far); QLock 0; QAsk 1 0 [dp_near; dp_far]; QLock 1; QLock 1] ++
  fa_flow 0 (fa_step 0 ++ repeat (YFlow (WTaskOp 0 JNext)) 2 ++ fa_begin) ++ fa_flow 1 (map (YStep 0) [KArrive; KExec XIGo; KExec (XIFs true)]) ++ [QAsk 0 0 [dp_far; dp_near]; QLock 2] ++
  fa_flow 0 (fa_step 3 ++ repeat (YFlow (WTaskOp 0 JNext)) 5 ++ [YFlow (WSend 0)] ++ repeat (YFlow WMain) 4).
Definition fa_state ops := qexec (fun t => t + 100) (fun t => t + 200) (fun _ c => c) fa_conf (fun _ => None) (qinit 0%N) ops.
Lemma qexec_run cl sv rhooks conf glob now more : forall ops q tr q' o, farm_run cl sv rhooks conf glob now ops q tr -> qexec cl sv rhooks conf glob q more = Some (q', o) ->
  farm_run cl sv rhooks conf glob now (ops ++ more) q' (tr ++ o).
Proof.
  induction more as [|op more IH]; intros ops d tr d' o R E; cbn [qexec] in E; [injection E as <- <-; rewrite !app_nil_r; exact R|].
  destruct (qstep cl sv rhooks conf glob d op) as [[d1 o1]|] eqn:E1; [|discriminate]. destruct (qexec cl sv rhooks conf glob d1 more) as [[d2 o2]|] eqn:E2; [|discriminate]. injection E as <- <-.
  change (op :: more) with ([op] ++ more). rewrite !app_assoc. eapply IH; [|exact E2]. eapply farm_step; eassumption.
Qed.
Notation fa_run := (farm_run (fun t => t + 100) (fun t => t + 200) (fun _ c => c) fa_conf (fun _ => None) 0%N).
Lemma fa_reach ops q tr : fa_state ops = Some (q, tr) -> fa_run ops q tr.
Proof. intros E. exact (qexec_run _ _ _ _ _ _ ops [] (qinit 0%N) [] _ _ (farm_init _ _ _ _ _ _) E). Qed.
Lemma fa_named q : (forall k r, nth_error (fl_runs (fm_fleet q)) k = Some r -> exists id, fr_wf r = dp_box id) -> named (fm_fleet q).
Proof. intros H k r Hk. destruct (H k r Hk) as (id & ->). cbn. constructor; [intros []|constructor]. Qed.
(** Where the directories were made: by whose server. *)
Definition made (tr : list qobs) : list (nat * string) := flat_map (fun e => match e with QSeen k (_, inr (KEff (EfMkdir d))) => [(k, d)] | _ => [] end) tr.
Example C147_nonvacuous : exists q tr s r jr, fa_run fa_ops q tr /\ named (fm_fleet q) /\ run_at (fm_fleet q) 0 c26_cx (dp_box "w") s /\ ws_main (sy_w s) = WpDone r /\ lookup "a" (wr_jobs r) = Some jr /\
  map (fun x => (sr_state x, sr_exit_code x)) (jr_steps jr) = [(Succeeded, None); (Failed, Some 3%Z)] /\ made tr = [(0, "/w/w/a/0"); (1, "/v/v/a/0"); (0, "/w/w/a/1")] /\
  map fst (farm_connected fa_ops) = ["near"; "far"] /\ length (fm_asked q) = 3.
Proof.
  destruct (fa_state fa_ops) as [[q tr]|] eqn:E; [|vm_compute in E; discriminate E]. assert (R := fa_reach _ _ _ E).
  assert (G : (exists s r jr, run_at (fm_fleet q) 0 c26_cx (dp_box "w") s /\ ws_main (sy_w s) = WpDone r /\ lookup "a" (wr_jobs r) = Some jr /\
    map (fun x => (sr_state x, sr_exit_code x)) (jr_steps jr) = [(Succeeded, None); (Failed, Some 3%Z)]) /\ made tr = [(0, "/w/w/a/0"); (1, "/v/v/a/0"); (0, "/w/w/a/1")] /\ length (fm_asked q) = 3 /\
    forall k r, nth_error (fl_runs (fm_fleet q)) k = Some r -> exists id, fr_wf r = dp_box id).
  { vm_compute in E. injection E as <- <-. split; [do 3 eexists; split; [do 2 eexists; repeat split; reflexivity|]; repeat split; reflexivity|]. split; [reflexivity|]. split; [reflexivity|].
    intros [|[|k]] r H; [injection H as <-; exists "w"; reflexivity|injection H as <-; exists "v"; reflexivity|destruct k; discriminate H]. }
  destruct G as ((s & r & jr & G1 & G2 & G3 & G4) & G5 & G6 & G7). exists q, tr, s, r, jr. split; [exact R|]. split; [apply fa_named, G7|]. split; [exact G1|]. repeat (split; [assumption|]). split; [vm_compute; reflexivity|exact G6].
Qed.

(** *** C148. Whatever a server does to its machine - a directory made, a script written, a process started, a log line - it does for a step that had been given to the runner by some job
    of some run, after the scheduler had answered that step's call with this very server, which was connected; and it is something the built-in runner does when run with that
    server's own configuration and plugins on what the engine had given. *)
Lemma farm_split {cl sv rhooks conf glob now} ops q tr pre x post : farm_run cl sv rhooks conf glob now ops q tr -> tr = pre ++ x :: post ->
  exists ops1 op ops2 q1 tr1 q2 rest post1, ops = ops1 ++ op :: ops2 /\ farm_run cl sv rhooks conf glob now ops1 q1 tr1 /\
    qstep cl sv rhooks conf glob q1 op = Some (q2, rest ++ x :: post1) /\ pre = tr1 ++ rest.
Proof.
  intros R. revert pre post. induction R as [|ops q tr op q' o R IH S]; intros pre post E; [destruct pre; discriminate E|].
  destruct (app_eq_app _ _ _ _ E) as (l & [[H1 H2]|[H1 H2]]).
  - destruct l as [|y l]; cbn in H2.
    + exists ops, op, [], q, tr, q', [], post. rewrite app_nil_r in H1. subst o. rewrite app_nil_r. auto.
    + injection H2 as <- H2. destruct (IH _ _ H1) as (ops1 & op1 & ops2 & q1 & tr1 & q2 & rest & post1 & -> & R1 & S1 & Ep).
      exists ops1, op1, (ops2 ++ [op]), q1, tr1, q2, rest, post1. split; [rewrite <- app_assoc; reflexivity|]. auto.
  - exists ops, op, [], q, tr, q', l, post. subst o. auto.
Qed.
Theorem C148_only_what_was_sent : forall cl sv rhooks conf glob now ops q tr k w e pre post, farm_run cl sv rhooks conf glob now ops q tr -> tr = pre ++ QSeen k (w, inr (KEff e)) :: post ->
  exists i rc srv, w = Some i /\ placed (fm_asked q) (client_view pre) k i rc (Some srv) /\ lookup (rm_id srv) (farm_connected ops) = Some srv /\
    (exists before rest q1 tr1 tr2, ops = before ++ rest /\ farm_run cl sv rhooks conf glob now before q1 tr1 /\ pre = tr1 ++ tr2 /\ lookup (rm_id srv) (farm_connected before) = Some srv) /\
    exists ins x effs, xrun (conf srv (rhooks srv rc)) ins x effs /\ In e effs.
Proof.
  intros cl sv rhooks conf glob now ops q tr k w e pre post R E. destruct (farm_served _ _ _ _ _ _ _ _ _ R) as [_ H]. destruct (H _ _ _ _ _ E) as (i & rc & srv & ins & xs & effs & H1 & H2 & H3 & H4).
  exists i, rc, srv. split; [exact H1|]. split; [exact H2|].
  assert (G : forall ops q tr post, farm_run cl sv rhooks conf glob now ops q tr -> tr = pre ++ post -> lookup (rm_id srv) (farm_connected ops) = Some srv).
  { clear - H2. intros ops q0 tr post R E. destruct (C146_client _ _ _ _ _ _ _ _ _ R) as (pops & d & Hd & Ec & _). rewrite <- Ec.
    destruct H2 as (c & l0 & a & p0 & mid & mid' & p1 & Ep & _). eapply (C139_connected _ _ _ _ _ _ Hd c). rewrite E, cview_app. apply in_or_app. left. rewrite Ep. apply in_or_app; right. right. apply in_or_app; right. right. apply in_or_app; right. left. reflexivity. }
  split; [exact (G _ _ _ _ R E)|]. split; [|eauto].
  destruct (farm_split _ _ _ _ _ _ R E) as (ops1 & op & ops2 & q1 & tr1 & q2 & rest & post1 & -> & R1 & S1 & ->).
  exists ops1, (op :: ops2), q1, tr1, rest. split; [reflexivity|]. split; [exact R1|]. split; [reflexivity|].
  assert (X := G _ _ _ (_ :: post1) (farm_step _ _ _ _ _ _ _ _ _ _ _ _ R1 S1) (app_assoc _ _ _)).
  destruct op as [a| | |]; [cbn in S1; injection S1 as _ S1; destruct rest; discriminate S1| | |]; unfold farm_connected in *; rewrite flat_map_app, app_nil_r in X; exact X.
Qed.
Print Assumptions C148_only_what_was_sent.
Example C148_nonvacuous : exists q tr pre post, fa_run fa_ops q tr /\ tr = pre ++ QSeen 1 (Some 0, inr (KEff (EfMkdir "/v/v/a/0"))) :: post /\ made pre = [(0, "/w/w/a/0")] /\ made post = [(0, "/w/w/a/1")].
Proof.
  destruct (fa_state fa_ops) as [[q tr]|] eqn:E; [|vm_compute in E; discriminate E]. assert (R := fa_reach _ _ _ E).
  assert (G : made tr = [(0, "/w/w/a/0"); (1, "/v/v/a/0"); (0, "/w/w/a/1")]) by (vm_compute in E; injection E as <- <-; reflexivity).
  assert (G2 : forall k w d, In (QSeen k (w, inr (KEff (EfMkdir d)))) tr -> w = Some 0).
  { clear G. vm_compute in E. injection E as <- <-. intros k w d H. repeat (destruct H as [H|H]; [try discriminate H; injection H as _ <- _; reflexivity|]). destruct H. }
  clear E. cut (forall x l, made tr = l ++ x :: [(0, "/w/w/a/1")] -> exists pre post w, tr = pre ++ QSeen (fst x) (w, inr (KEff (EfMkdir (snd x)))) :: post /\ made pre = l /\ made post = [(0, "/w/w/a/1")]).
  { intros H. destruct (H (1, "/v/v/a/0") [(0, "/w/w/a/0")] G) as (pre & post & w & Et & H1 & H2). cbn [fst snd] in Et. assert (w = Some 0) as -> by (eapply G2; rewrite Et; apply in_elt). exists q, tr, pre, post. auto. }
  clear. induction tr as [|e tr IH]; intros x l H; [destruct l; discriminate H|].
  assert (Nx : made [e] = [] -> exists pre post w, e :: tr = pre ++ QSeen (fst x) (w, inr (KEff (EfMkdir (snd x)))) :: post /\ made pre = l /\ made post = [(0, "/w/w/a/1")]).
  { intros He. change (made ([e] ++ tr) = l ++ x :: [(0, "/w/w/a/1")]) in H. unfold made in H, He. rewrite flat_map_app, He in H. destruct (IH x l H) as (pre & post & w & -> & H1 & H2). exists (e :: pre), post, w. split; [reflexivity|].
    split; [|exact H2]. unfold made in *. change (e :: pre) with ([e] ++ pre). rewrite flat_map_app, He. exact H1. }
  destruct e as [k [w [y|[y|y]]]|y]; try (apply Nx; reflexivity). destruct y; try (apply Nx; reflexivity). clear Nx. cbn in H. destruct l as [|z l]; cbn in H; injection H as <- H.
  - exists [], tr, w. auto.
  - destruct (IH x l H) as (pre & post & w' & -> & H1 & H2). eexists (_ :: pre), post, w'. split; [reflexivity|]. split; [|exact H2]. cbn. f_equal. exact H1.
Qed.
