(** C151: what becomes of a run for whose steps the scheduler finds no runner. *)
From Coq Require Import Sorting.Permutation.
From Verif Require Import Base Types Signals_model Signals_proof Stream_model Stream_spec Stream_proof Cond_model Plugins_model Plugins_spec Plugins_proof Exec_model Exec_spec Step_proof Job_proof Step_props
  Workflow_model Workflow_spec Workflow_proof Workflow_inv Workflow_props Runner_model Runner_spec Runner_proof Sched_model Sched_spec Sched_proof Remote_model Remote_spec Local_model Local_spec Local_proof
  Distant_model Distant_spec Distant_proof Distant_props System_model System_spec System_proof System_flow System_inst System_props Fleet_model Fleet_spec Fleet_proof
  Dispatch_model Dispatch_spec Dispatch_proof Dispatch_main Dispatch_props Worker_model Worker_spec Worker_proof Worker_live Worker_props Chain_model Chain_spec Chain_proof Farm_model Farm_spec Farm_place Farm_proof Farm_main Farm_serve
  Farm_props Outcome_spec Outcome_proof Outcome_props.

(** The scheduler found no runner for any step of the k-th run. *)
Definition never_placed (asked : list asking) (tr : list pobs) (k : nat) : Prop :=
  forall c q srv a, In (PSched (EvReturned c q (Some srv))) tr -> nth_error asked c = Some a -> as_run a <> k.
(** What the conditions checked in the execution [tr] said is what [matches] says. *)
Definition conditions_as (matches : condition -> bool) (tr : trace) : Prop := forall w c b, In (w, OMatch c b) tr -> b = matches c.

Lemma placed_returned asked tr k i rc res : placed asked tr k i rc res -> exists c q a, In (PSched (EvReturned c q res)) tr /\ nth_error asked c = Some a /\ as_run a = k.
Proof.
  intros (c & l & a & pre & mid & mid' & post & -> & Ha & Hk & _). exists c, (asks_about l rc), a. split; [|auto].
  apply in_or_app; right; right. apply in_or_app; right; right. apply in_or_app; right; left. reflexivity.
Qed.

(** C151. When the scheduler finds no runner for any step of a run: nothing is ever done for the run on any server; in its result every step entry is a skipped one or Failed with exit
    code 1, with the single log line "No runner available"; and its outcome (the state of every job and step) is the one where every step that is run fails. *)
Theorem C151_unplaced : forall cl sv rhooks conf glob now ops q tr k, farm_run cl sv rhooks conf glob now ops q tr -> named (fm_fleet q) -> never_placed (fm_asked q) (client_view tr) k ->
  (forall w e, ~ In (QSeen k (w, inr (KEff e))) tr) /\
  forall cx wf s r, run_at (fm_fleet q) k cx wf s -> ws_main (sy_w s) = WpDone r ->
    (forall key jr x, lookup key (wr_jobs r) = Some jr -> In x (jr_steps jr) -> sr_state x = Skipped \/
       (mirrors (RFailed 1) x /\ exists i st0 kops sk ktr dops gs ins, khist cx (S i) (cl (S i)) (sv (S i)) rhooks conf st0 kops sk ktr dops gs ins /\ ds_step (k_d sk) = SpDone x /\
          Exec_spec.delivered (k_events ktr) = [log_error "No runner available"])) /\
    forall matches, conditions_as matches (flow_of (chained cx cl sv rhooks conf) (run_events k (farm_seen tr))) -> outcome matches (fun _ _ => Failed) wf r /\ wr_state r <> Cancelled.
Proof.
  intros cl sv rhooks conf glob now ops q tr k R Hn Hp. split.
  { intros w e H. apply in_split in H as (pre & post & E). destruct (C148_only_what_was_sent _ _ _ _ _ _ _ _ _ _ _ _ _ _ R E) as (i & rc & srv & _ & P & _).
    apply placed_returned in P as (c & qq & a & P1 & P2 & P3). refine (Hp c qq srv a _ P2 P3). rewrite E. unfold client_view in *. rewrite flat_map_app. apply in_or_app. left. exact P1. }
  intros cx wf s r Ha Em. assert (Hnd : NoDup (keys (wf_jobs wf))) by (destruct Ha as (r0 & ca & H1 & _ & <- & _); exact (Hn _ _ H1)).
  assert (Ent : forall key jr x, In (key, jr) (received (flow_of (chained cx cl sv rhooks conf) (run_events k (farm_seen tr)))) -> In x (jr_steps jr) -> sr_state x = Skipped \/
       (mirrors (RFailed 1) x /\ exists i st0 kops sk ktr dops gs ins, khist cx (S i) (cl (S i)) (sv (S i)) rhooks conf st0 kops sk ktr dops gs ins /\ ds_step (k_d sk) = SpDone x /\
          Exec_spec.delivered (k_events ktr) = [log_error "No runner available"])).
  { intros key jr x Hl Hx. destruct (farm_results _ _ _ _ _ _ _ _ _ _ _ _ _ _ _ R Hn Ha Hl) as (i & j & _ & _ & [[_ H]|H]); [rewrite H in Hx; destruct Hx|].
    induction H as [|st0 y l l' H _ IH]; [destruct Hx|]. destruct Hx as [->|Hx]; [|exact (IH Hx)]. destruct H as [H|(kops & sk & ktr & dops & gs & ins & H1 & H2 & _ & st & res & _ & P & H3)].
    { left. destruct H as (_ & H & _). exact H. }
    destruct res as [srv|]; [apply placed_returned in P as (c & qq & a & P1 & P2 & P3); destruct (Hp c qq srv a P1 P2 P3)|]. right. destruct H3 as (H3 & H4 & _). split; [exact H3|].
    exists i, st0, kops, sk, ktr, dops, gs, ins. auto. }
  destruct (farm_projection _ _ _ _ _ _ _ _ _ _ _ _ _ R Hn Ha) as (sh0 & sops & L & RL & _).
  destruct (flow_run _ glob cx wf (placing_faithful cl sv rhooks conf cx L) _ _ _ _ RL) as (wls & W & _).
  destruct (C36_final_state _ _ _ _ _ _ _ Hnd W Em) as (_ & Fin). split.
  - intros key jr x Hl. destruct Fin as [(_ & Hj & _)|(_ & _ & Hlat)]; [rewrite Hj in Hl; discriminate Hl|]. apply Hlat, received_latest in Hl. eapply Ent, Hl.
  - intros matches Hm. assert (O : outcome matches (fun _ _ => Failed) wf r).
    { eapply C116_outcome; [exact Hnd|exact W|exact Em|]. split; [exact Hm|]. intros key jr n x Hl Hx Hs. apply nth_error_In in Hx. destruct (Ent _ _ _ Hl Hx) as [H|[[H _] _]]; [destruct (Hs H)|exact H]. }
    split; [exact O|]. unfold outcome in O. destruct (allowed matches (wf_on wf)); [|destruct O as [-> _]; discriminate]. destruct O as (_ & _ & [[_ ->]|(_ & kk & j & _ & H)]); [discriminate|]. rewrite <- H.
    unfold job_outcome. destruct (allowed matches (jb_on j)); [|discriminate]. cbn [fst]. unfold job_verdict.
    assert (NC : forall sts n f, existsb (fun s => match s with Cancelled => true | _ => false end) (step_outcomes matches (fun _ _ => Failed) kk n f false sts) = false).
    { clear. induction sts as [|st sts IH]; intros n f; [reflexivity|]. cbn [step_outcomes]. destruct (f && negb (st_continue_on_error st)); [|destruct (allowed matches (st_on st))]; cbn [existsb orb]; apply IH. }
    rewrite NC. destruct (existsb _ _); discriminate.
Qed.
Print Assumptions C151_unplaced.

(** So it is when every runner that was ever connected can run neither containers nor commands on its host, in particular when none was ever connected. *)
Theorem C151_no_runner : forall cl sv rhooks conf glob now ops q tr k, farm_run cl sv rhooks conf glob now ops q tr ->
  (forall srv, In srv (map snd (farm_connected ops)) -> rm_support_docker srv = false /\ rm_support_host srv = false) -> never_placed (fm_asked q) (client_view tr) k.
Proof.
  intros cl sv rhooks conf glob now ops q tr k R H c q0 srv a Hr _ _. destruct (C146_client _ _ _ _ _ _ _ _ _ R) as (pops & d & Hd & Ec & _).
  assert (Con : forall c q0 srv, In (PSched (EvReturned c q0 (Some srv))) (client_view tr) -> rm_support_docker srv = false /\ rm_support_host srv = false).
  { intros c0 q1 srv1 H1. destruct (C139_connected _ _ _ _ _ _ Hd _ _ _ H1) as [_ L]. rewrite Ec in L. apply H. apply lookup_In in L. apply (in_map snd) in L. exact L. }
  assert (Doc : forall c q0 srv, In (PSched (EvReturned c q0 (Some srv))) (client_view tr) -> host_step q0).
  { intros c0 q1 srv1 H1. apply runs_on_host_spec. destruct (runs_on_host (sq_container q1)) eqn:E; [reflexivity|]. apply runs_on_host_false in E. destruct (C139_container _ _ _ _ _ _ Hd _ _ _ H1 E) as [K _].
    specialize (K _ eq_refl). destruct (Con _ _ _ H1). congruence. }
  assert (Hh := Doc _ _ _ Hr). destruct (Con _ _ _ Hr) as [Hd' Hs]. apply in_sched, in_split in Hr as (pre & post & E). destruct (C139_host _ _ _ _ _ _ Hd _ _ _ _ _ E Hh) as [_ [K|(id & K & _)]]; [congruence|].
  apply in_split in K as (p1 & p2 & ->). destruct (sched_part _ _ _ _ _ _ Hd) as (sops & S & _). rewrite <- app_assoc in E. cbn [app] in E. 
  destruct (scheduled_returned _ _ _ S _ _ _ _ _ E) as (c1 & q1 & r1 & post' & Ep & _ & Eh & _).
  assert (H1 : In (PSched (EvReturned c1 q1 (Some r1))) (client_view tr)) by (apply in_sched; rewrite E, Ep; apply in_or_app; right; right; left; reflexivity).
  specialize (Doc _ _ _ H1). apply runs_on_host_spec in Doc. congruence.
Qed.
Print Assumptions C151_no_runner.

(** Non-vacuity: a run of a workflow with two steps, the only connection having failed, to its end. *)
Definition up_ops : list qop :=
  [QFleet (FContext c26_cx); QConnect Unreachable; QFleet (FStart 0 (dp_box "w"))] ++ fa_flow 0 (repeat (YFlow WMain) 6 ++ repeat (YFlow (WTaskOp 0 JNext)) 6 ++ fa_begin) ++ [QAsk 0 0 []; QLock 0] ++
  fa_flow 0 (map (fun d => YStep 0 (KFlow d)) [DSender; DSender; DSender; DEngine (OpAnswer true); DEngine OpNext; DEngine OpNext; DEngine OpStream; DEngine OpNext; DEngine OpNext; DEngine OpNext; DEngine OpStream;
     DEngine OpNext; DEngine OpNext; DEngine OpNext; DEngine OpNext] ++ repeat (YFlow (WTaskOp 0 JNext)) 7 ++ [YFlow (WSend 0)] ++ repeat (YFlow WMain) 4).
Example C151_nonvacuous : exists q tr s r jr, fa_run up_ops q tr /\ named (fm_fleet q) /\ (forall srv, In srv (map snd (farm_connected up_ops)) -> rm_support_docker srv = false /\ rm_support_host srv = false) /\
  run_at (fm_fleet q) 0 c26_cx (dp_box "w") s /\ ws_main (sy_w s) = WpDone r /\ wr_state r = Failed /\ lookup "a" (wr_jobs r) = Some jr /\ map (fun x => (sr_state x, sr_exit_code x)) (jr_steps jr) = [(Failed, Some 1%Z); (Skipped, None)] /\
  conditions_as (fun _ => true) (flow_of (chained c26_cx (fun t => t + 100) (fun t => t + 200) (fun _ c => c) fa_conf) (run_events 0 (farm_seen tr))) /\
  In (QSeen 0 (Some 0, inr (KObs (OHook (HLog (WorkflowLog (StepId "w" "a" 0) LError "No runner available" 0%N)))))) tr.
Proof.
  destruct (fa_state up_ops) as [[q tr]|] eqn:E; [|vm_compute in E; discriminate E]. assert (R := fa_reach _ _ _ E).
  assert (G : (exists s r jr, run_at (fm_fleet q) 0 c26_cx (dp_box "w") s /\ ws_main (sy_w s) = WpDone r /\ wr_state r = Failed /\ lookup "a" (wr_jobs r) = Some jr /\
    map (fun x => (sr_state x, sr_exit_code x)) (jr_steps jr) = [(Failed, Some 1%Z); (Skipped, None)]) /\
    (forall k r, nth_error (fl_runs (fm_fleet q)) k = Some r -> exists id, fr_wf r = dp_box id) /\
    forallb (fun x => match snd x with OMatch _ _ => false | _ => true end) (flow_of (chained c26_cx (fun t => t + 100) (fun t => t + 200) (fun _ c => c) fa_conf) (run_events 0 (farm_seen tr))) = true /\
    In (QSeen 0 (Some 0, inr (KObs (OHook (HLog (WorkflowLog (StepId "w" "a" 0) LError "No runner available" 0%N)))))) tr).
  { vm_compute in E. injection E as <- <-. split; [do 3 eexists; split; [do 2 eexists; repeat split; reflexivity|]; repeat split; reflexivity|]. split; [|split; [vm_compute; reflexivity|repeat (first [left; reflexivity|right])]].
    intros [|k] r H; [injection H as <-; exists "w"; reflexivity|destruct k; discriminate H]. }
  destruct G as ((s & r & jr & G1 & G2 & G3 & G4 & G5) & G6 & G7 & G8). exists q, tr, s, r, jr. split; [exact R|]. split; [apply fa_named, G6|]. split; [intros srv H; vm_compute in H; destruct H|].
  repeat (split; [assumption|]). split; [|exact G8]. intros w c b H. rewrite forallb_forall in G7. discriminate (G7 _ H).
Qed.
