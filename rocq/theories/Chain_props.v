(** C113-C115: a whole workflow run on remote runners that have the built-in runner. *)
From Verif Require Import Base Types Signals_model Signals_proof Stream_model Stream_spec Stream_proof Cond_model
  Plugins_model Plugins_spec Plugins_proof Exec_model Exec_spec Step_proof Job_proof Timing_proof Step_props Workflow_model Workflow_spec Workflow_proof Workflow_inv Workflow_term Workflow_props
  Paths_model Docker_model Runner_model Runner_spec Runner_proof Sched_model Local_model Local_spec Local_proof Local_props Remote_model Remote_spec Distant_model Distant_spec Distant_proof Distant_props
  System_model System_spec System_proof System_flow System_inst System_props Finish_spec Finish_proof Finish_step Finish_cycle Finish_props Rest_props
  Worker_model Worker_spec Worker_proof Worker_live Worker_props Chain_model Chain_spec Chain_proof.

(** *** C113. The engine's part of every execution is an execution of the workflow. *)
Theorem C113_engine : forall glob cx cl sv rhooks conf wf sh0 ops s tr, sysrun (chained cx cl sv rhooks conf) glob cx wf sh0 ops s tr ->
  exists wls, wrun glob cx wf wls (sy_w s) (flow_of (chained cx cl sv rhooks conf) tr) /\
    (forall o, In (YFlow o) ops -> In o wls) /\ (forall o, In o wls -> In (YFlow o) ops \/ exists i so, o = WTaskOp i (JStep so)).
Proof.
  intros glob cx cl sv rhooks conf wf sh0 ops s tr Hr. destruct (flow_run _ glob cx wf (chained_faithful cx cl sv rhooks conf) _ _ _ _ Hr) as (wls & W & H1 & H2).
  exists wls. split; [exact W|]. split; [exact H1|]. intros o Ho. destruct (H2 o Ho) as [K|K]; [left; exact K|right]. destruct o as [| |i [| |so]| |]; try discriminate K. eauto.
Qed.
Print Assumptions C113_engine.
(** Every job result the workflow received was returned by a task of that job, all of whose steps were skipped or run remotely, each by one execution as in C112. *)
Theorem C113_results : forall glob cx cl sv rhooks conf wf sh0 ops s tr k r, NoDup (keys (wf_jobs wf)) ->
  sysrun (chained cx cl sv rhooks conf) glob cx wf sh0 ops s tr -> let evs := flow_of (chained cx cl sv rhooks conf) tr in In (k, r) (received evs) ->
  exists i j, nth_error (started evs) i = Some k /\ In (k, j) (wf_jobs wf) /\ job_story_with (ran_chained cx cl sv rhooks conf ops i) cx j (events_of (Some i) evs) r.
Proof.
  intros glob cx cl sv rhooks conf wf sh0 ops s tr k r Hnd Hr evs Hin.
  destruct (received_ran _ glob cx wf (chained_faithful cx cl sv rhooks conf) _ _ _ _ _ _ Hnd Hr Hin) as (i & j & H1 & H2 & H3).
  exists i, j. split; [exact H1|]. split; [exact H2|]. eapply job_story_mono; [|exact H3]. intros st e x. apply ran_is_chained.
Qed.
Print Assumptions C113_results.
(** In the result of a finished run every step entry is a skipped one; or a failure because no runner was available, and nothing ran; or the result of the built-in runner on the
    server that the scheduler chose for the step, with that server's plugins and configuration and with its log; or there was a fault of the connection or call, and it is a failure with code 1. *)
Theorem C113_final : forall glob cx cl sv rhooks conf wf sh0 ops s tr r k jr, NoDup (keys (wf_jobs wf)) ->
  sysrun (chained cx cl sv rhooks conf) glob cx wf sh0 ops s tr -> ws_main (sy_w s) = WpDone r -> lookup k (wr_jobs r) = Some jr ->
  exists i j, nth_error (started (flow_of (chained cx cl sv rhooks conf) tr)) i = Some k /\ In (k, j) (wf_jobs wf) /\
    ((jr_state jr = Skipped /\ jr_steps jr = []) \/
     Forall2 (fun st0 x => skipped_entry st0 x \/
       exists kops sk ktr dops gs ins, khist cx (S i) (cl (S i)) (sv (S i)) rhooks conf st0 kops sk ktr dops gs ins /\ ds_step (k_d sk) = SpDone x /\
         (forall o, In (KExec o) kops -> In (YStep i (KExec o)) ops) /\
         ((mirrors (RFailed 1) x /\ Exec_spec.delivered (k_events ktr) = [log_error "No runner available"] /\ k_effects ktr = []) \/
          (exists w st clients m srv rr line, In (YStep i (KFlow (DPick clients (Some m)))) ops /\ lookup (rm_id m) clients = Some srv /\
             k_w sk = Some w /\ hooked st0 st /\ wk_conf w = conf srv (rhooks srv (given cx st)) /\ xrun (wk_conf w) ins (wk_x w) (k_effects ktr) /\
             verdict None false ins = Some rr /\ mirrors rr x /\ Exec_spec.delivered (k_events ktr) = Local_spec.logs_of (k_effects ktr) ++ line /\
             (line <> [] -> exists f, is_fault f = true /\ In (YStep i (KFlow (DRemote f))) ops)) \/
          (mirrors (RFailed 1) x /\ exists f, is_fault f = true /\ In (YStep i (KFlow (DRemote f))) ops)))
       (jb_steps j) (jr_steps jr)).
Proof.
  intros glob cx cl sv rhooks conf wf sh0 ops s tr r k jr Hnd Hr Em Hl.
  destruct (C113_engine _ _ _ _ _ _ _ _ _ _ _ Hr) as (wls & W & _).
  destruct (C36_final_state _ _ _ _ _ _ _ Hnd W Em) as (_ & [(_ & Hj & _)|(_ & _ & Hlat)]); [rewrite Hj in Hl; discriminate Hl|].
  apply Hlat, received_latest in Hl. destruct (C113_results _ _ _ _ _ _ _ _ _ _ _ _ _ Hnd Hr Hl) as (i & j & H1 & H2 & H3).
  exists i, j. split; [exact H1|]. split; [exact H2|]. apply story_entries in H3 as [H3|H3]; [left; exact H3|right].
  induction H3 as [|st x l l' [H|[sevs H]] H3 IH]; constructor; auto. right.
  destruct H as (kops & sk & ktr & dops & gs & ins & Hh & Hd & He & Ho). exists kops, sk, ktr, dops, gs, ins. split; [exact Hh|]. split; [exact Hd|].
  split; [intros o Hin; destruct (Ho _ Hin) as [G|(e & C & _)]; [exact G|discriminate C]|].
  destruct (khist_members _ _ _ _ _ _ _ _ _ _ _ _ _ Hh) as [M _].
  assert (Fl : ~ clean (remote_events dops) -> exists f, is_fault f = true /\ In (YStep i (KFlow (DRemote f))) ops).
  { intros Nc. destruct (existsb is_fault (remote_events dops)) eqn:Ex.
    - apply existsb_exists in Ex as (f & Hf1 & Hf2). exists f. split; [exact Hf2|]. unfold remote_events in Hf1. apply in_flat_map in Hf1 as (d & Hd1 & Hd2).
      destruct d as [|?|i0| |]; try (exfalso; exact Hd2). destruct Hd2 as [->|[]].
      destruct (M _ Hd1) as [G|[[l0 G]|[l0 G]]]; [|injection G as ->; discriminate|injection G as ->; discriminate]. destruct (Ho _ G) as [G'|(e & C & _)]; [exact G'|discriminate C].
    - destruct Nc. intros f Hf. destruct (is_fault f) eqn:Ff; [|reflexivity]. rewrite <- Ex. symmetry. apply existsb_exists. eauto. }
  destruct (C112_result _ _ _ _ _ _ _ _ _ _ _ _ _ _ Hh Hd) as [(_ & G1 & G2 & _ & G3)|[(w & st' & srv & rr & G1 & G2 & _ & (clients & m & G0 & G0') & G3 & G4 & G5 & G6 & line & G7 & G8)|(G1 & G2 & _)]].
  - left. auto.
  - right. left. exists w, st', clients, m, srv, rr, line. split; [destruct (Ho _ G0) as [G|(e & C & _)]; [exact G|discriminate C]|]. repeat (split; [assumption|]). intros Nl. apply Fl. intros Cc. exact (Nl (G8 Cc)).
  - right. right. auto.
Qed.
Print Assumptions C113_final.

(** *** C114. In a smooth run the exit statuses of the commands decide everything. *)
Theorem C114_results : forall glob cx cl sv rhooks conf wf sh0 ops s tr, NoDup (keys (wf_jobs wf)) ->
  sysrun (chained cx cl sv rhooks conf) glob cx wf sh0 ops s tr -> unraised sh0 -> smooth ops ->
  forall k r, In (k, r) (received (flow_of (chained cx cl sv rhooks conf) tr)) ->
  jr_state r <> Cancelled /\
  exists i, nth_error (started (flow_of (chained cx cl sv rhooks conf) tr)) i = Some k /\ forall x, In x (jr_steps r) -> sr_state x = Skipped \/ remote_exit ops i x.
Proof.
  intros glob cx cl sv rhooks conf wf sh0 ops s tr Hnd Hr U (Q1 & Q2) k r Hin.
  destruct (quiet_run (chained cx cl sv rhooks conf) cx (chained_faithful cx cl sv rhooks conf) hands (fun o => o = KFlow (DEngine OpTimer))
    (fun sh p x op u n => hands_unraised sh p x op u n) hands_done glob wf _ _ _ _ Hr U Q1) as [Hh _].
  { intros i o -> C. exact (proj1 (Q2 i) C). }
  destruct (received_ran _ glob cx wf (quieted_faithful _ cx (chained_faithful cx cl sv rhooks conf) hands) _ _ _ _ _ _ Hnd Hh Hin) as (i & j & H1 & H2 & H3).
  assert (St : forall x, In x (jr_steps r) -> sr_state x = Skipped \/ remote_exit ops i x).
  { apply story_entries in H3 as [[_ ->]|H3]; [intros x []|]. clear - H3 Q2. induction H3 as [|st x l l' H H3 IH]; [intros x []|]. intros y [<-|Hy]; [|auto].
    destruct H as [H|[sevs (iops & sh & x' & itr & K1 & K2 & K3)]]; [left; apply H|right].
    destruct (hushed_chain_hist _ _ _ _ _ _ _ _ _ _ _ _ K1) as (dops & ins & L1).
    assert (In' : forall o, (forall e, o <> KFlow (DWorld e)) -> In o (map kback iops) -> In (YStep i o) ops).
    { intros o Ne Ho. apply in_map_iff in Ho as ([o'|e] & Eo & Ho); cbn in Eo; subst o; [exact (K3 _ Ho)|destruct (Ne e eq_refl)]. }
    destruct (Q2 i) as (_ & P1 & P2 & P3 & P4 & P5).
    destruct (smooth_result _ _ _ _ _ _ _ _ _ _ _ _ _ L1 eq_refl) as (code & M1 & M2).
    - intros cs C. apply In' in C; [exact (P1 cs C)|discriminate].
    - intros f Hf C. apply In' in C; [exact (P2 f Hf C)|discriminate].
    - intros C. apply In' in C; [exact (P3 C)|discriminate].
    - intros C. apply In' in C; [exact (P4 C)|discriminate].
    - intros C. apply In' in C; [exact (P5 C)|discriminate].
    - exists code. split; [apply In'; [discriminate|exact M1]|exact M2]. }
  split; [|exists i; split; [exact H1|exact St]].
  apply story_state in H3 as [[-> _]|F3]; [discriminate|]. intros Hcc. rewrite Hcc in F3.
  destruct F3 as [[(y & Hy & Hc) _]|[(_ & _ & C)|(_ & C)]]; try discriminate C.
  destruct (St y Hy) as [C|(code & _ & M)]; [congruence|]. unfold exit_result in M. destruct code as [z|]; [destruct (z =? 0)%Z|]; cbn in M; destruct M as [M _]; congruence.
Qed.
Print Assumptions C114_results.
(** In particular: the run fails only if some command failed; if every command that exits does so with status 0, the workflow succeeds (unless its own condition skips it). *)
Theorem C114_outcome : forall glob cx cl sv rhooks conf wf sh0 ops s tr r, NoDup (keys (wf_jobs wf)) ->
  sysrun (chained cx cl sv rhooks conf) glob cx wf sh0 ops s tr -> unraised sh0 -> smooth ops -> ws_main (sy_w s) = WpDone r ->
  (wr_state r = Failed \/ wr_state r = Succeeded \/ (wr_state r = Skipped /\ wr_jobs r = [])) /\
  (wr_state r = Failed <-> exists k x y, In (k, x) (received (flow_of (chained cx cl sv rhooks conf) tr)) /\ In y (jr_steps x) /\ sr_state y = Failed) /\
  ((forall i code, In (YStep i (KExec (XICmd (CIExit code)))) ops -> code = Some 0%Z) ->
     wr_state r <> Failed /\ forall k x, lookup k (wr_jobs r) = Some x -> jr_state x = Succeeded \/ jr_state x = Skipped).
Proof.
  intros glob cx cl sv rhooks conf wf sh0 ops s tr r Hnd Hr U Q Em.
  assert (J := C114_results _ _ _ _ _ _ _ _ _ _ _ Hnd Hr U Q).
  assert (JS := fun k x => C113_results glob cx cl sv rhooks conf wf sh0 ops s tr k x Hnd Hr). cbv zeta in JS.
  destruct (C113_engine _ _ _ _ _ _ _ _ _ _ _ Hr) as (wls & W & _). set (evs := flow_of (chained cx cl sv rhooks conf) tr) in *.
  assert (JF : forall k x, In (k, x) (received evs) -> (jr_state x = Failed <-> exists y, In y (jr_steps x) /\ sr_state y = Failed) /\ (jr_state x = Failed \/ jr_state x = Succeeded \/ jr_state x = Skipped)).
  { intros k x Hin. destruct (JS k x Hin) as (i & j & _ & _ & St). destruct (J k x Hin) as (Nc & _).
    apply story_state in St as [[-> ->]|F3].
    - split; [split; [discriminate|intros (y & [] & _)]|auto].
    - destruct F3 as [[_ E]|[(_ & H & E)|(H & E)]]; rewrite E; [congruence| |].
      + split; [|auto]. split; auto.
      + split; [|auto]. split; [discriminate|]. intros (y & Hy & Hf). destruct (H y Hy). congruence. }
  assert (FF : wr_state r = Failed <-> exists k x y, In (k, x) (received evs) /\ In y (jr_steps x) /\ sr_state y = Failed).
  { destruct (C36_final_state _ _ _ _ _ _ _ Hnd W Em) as (_ & [(H1 & _ & H2 & _)|(H1 & H2 & _)]).
    - rewrite H1, H2. split; [discriminate|]. intros (k & x & y & [] & _).
    - split.
      + intros Hf. destruct H1 as [[_ C]|(b & [k x] & a & Hrec & Hbad & _ & Hs)]; [congruence|]. cbn in *.
        assert (Hin : In (k, x) (received evs)) by (rewrite Hrec; apply in_or_app; right; left; reflexivity).
        destruct (JF k x Hin) as [[G _] _]. destruct G as (y & Hy & Hyf); [congruence|]. exists k, x, y. auto.
      + intros (k & x & y & Hin & Hy & Hf). destruct H1 as [[C _]|(b & [k' x'] & a & Hrec & Hbad & _ & Hs)].
        * exfalso. apply (C (k, x) Hin). left. cbn. apply (JF k x Hin). eauto.
        * cbn in *. assert (Hin' : In (k', x') (received evs)) by (rewrite Hrec; apply in_or_app; right; left; reflexivity).
          rewrite Hs. destruct Hbad as [Hb|Hb]; [exact Hb|]. destruct (J k' x' Hin') as (Nc & _). congruence. }
  split; [|split; [exact FF|]].
  - destruct (C36_final_state _ _ _ _ _ _ _ Hnd W Em) as (_ & [(H1 & H1' & _)|(H1 & _)]); [auto|].
    destruct H1 as [[_ H1]|(b & [k x] & a & Hrec & Hbad & _ & Hs)]; [auto|]. cbn in *.
    assert (Hin : In (k, x) (received evs)) by (rewrite Hrec; apply in_or_app; right; left; reflexivity).
    destruct Hbad as [Hb|Hb]; [left; congruence|]. destruct (J k x Hin) as (Nc & _). congruence.
  - intros Z. assert (NF : forall k x y, In (k, x) (received evs) -> In y (jr_steps x) -> sr_state y <> Failed).
    { intros k x y Hin Hy Hf. destruct (J k x Hin) as (_ & i & _ & St). destruct (St y Hy) as [C|(code & Hc & M)]; [congruence|].
      apply Z in Hc as ->. cbn in M. destruct M. congruence. }
    split; [intros C; apply FF in C as (k & x & y & C1 & C2 & C3); eapply NF; eauto|].
    intros k x Hl. destruct (C36_final_state _ _ _ _ _ _ _ Hnd W Em) as (_ & [(_ & Hj & _)|(_ & _ & Hlat)]); [rewrite Hj in Hl; discriminate Hl|].
    apply Hlat, received_latest in Hl. destruct (JF k x Hl) as [[G _] [C|[C|C]]]; auto. destruct (G C) as (y & Hy & Hyf). destruct (NF k x y Hl Hy Hyf).
Qed.
Print Assumptions C114_outcome.

(** *** C115. From wherever it is, the run comes to its end, or (with cyclic dependencies) as far as it can, with nothing further from outside. *)
Theorem C115_completes : forall glob cx cl sv rhooks conf wf sh0 ops s tr,
  NoDup (keys (wf_jobs wf)) -> wf_jobs wf <> [] -> acyclic wf -> distinct_ids wf -> (forall k j, In (k, j) (wf_jobs wf) -> owns_steps j) ->
  sysrun (chained cx cl sv rhooks conf) glob cx wf sh0 ops s tr -> (forall op, In op ops -> orderly wf tame_worker op) ->
  forall gh c clients pick code, keeps_steps c -> client_start clients pick <> None ->
  exists more s' o r, Forall (goes_on gh (plain_worker c clients pick code)) more /\ sysexec (chained cx cl sv rhooks conf) glob cx wf s more = Some (s', o) /\ ws_main (sy_w s') = WpDone r.
Proof.
  intros glob cx cl sv rhooks conf wf sh0 ops s tr Hn Hne Ha Hd Ho Hr Hop gh c clients pick code Hc Hp.
  eapply (always_completes (chained cx cl sv rhooks conf) glob cx wf tame_worker (plain_worker c clients pick code) gh); try eassumption.
  - apply chained_faithful.
  - apply chained_tracks.
  - apply chained_ends. exact Hp.
  - apply plain_tame_worker. exact Hc.
Qed.
Print Assumptions C115_completes.
Theorem C115_settles : forall glob cx cl sv rhooks conf wf sh0 ops s tr,
  NoDup (keys (wf_jobs wf)) -> distinct_ids wf -> (forall k j, In (k, j) (wf_jobs wf) -> owns_steps j) ->
  sysrun (chained cx cl sv rhooks conf) glob cx wf sh0 ops s tr -> (forall op, In op ops -> orderly wf tame_worker op) ->
  forall gh c clients pick code, keeps_steps c -> client_start clients pick <> None ->
  exists more s' o, Forall (goes_on gh (plain_worker c clients pick code)) more /\ sysexec (chained cx cl sv rhooks conf) glob cx wf s more = Some (s', o) /\
    let evs := flow_of (chained cx cl sv rhooks conf) (tr ++ o) in
    ((exists r, ws_main (sy_w s') = WpDone r /\ wr_state r = Skipped /\ started evs = []) \/ forall k, In k (map fst (received evs)) <-> grounded wf k).
Proof.
  intros glob cx cl sv rhooks conf wf sh0 ops s tr Hn Hd Ho Hr Hop gh c clients pick code Hc Hp.
  destruct (always_settles (chained cx cl sv rhooks conf) glob cx wf tame_worker (plain_worker c clients pick code) gh (chained_faithful _ _ _ _ _) (chained_tracks _ _ _ _ _) (chained_ends _ _ _ _ _ _ _ _ _ Hp) (plain_tame_worker _ _ _ _ Hc)
    Hn Hd Ho _ _ _ _ Hr Hop) as (more & s' & o & Hm & E & Hs).
  assert (Hr1 : sysrun (chained cx cl sv rhooks conf) glob cx wf sh0 (ops ++ more) s' (tr ++ o)) by (eapply sysexec_run; eassumption).
  destruct (C113_engine _ _ _ _ _ _ _ _ _ _ _ Hr1) as (wls & W & _).
  exists more, s', o. split; [exact Hm|]. split; [exact E|]. intros evs. destruct Hs as [[r Em]|Hs].
  - destruct (done_received _ _ _ Hn _ _ _ _ W Em) as [[H1 H2]|H]; [left; exists r; auto|right; exact H].
  - right. intros k. split; [|apply (rest_received _ _ _ Hn _ _ _ W Hs)]. intros Hk. apply (started_grounded _ _ _ Hn _ _ _ W), (received_started glob cx wf Hn _ _ _ _ W), Hk.
Qed.
Print Assumptions C115_settles.

(** Non-vacuity: the two-job workflow; a's command prints a line and exits with 0, b's with [code]. *)
Definition ch_step (code : Z) : list kop :=
  map KFlow [DEngine (OpBefore c26_hooks); DEngine OpNext; DEngine OpNext; DEngine OpNext; DEngine OpNext; DEngine OpNext; DPick [("r", far_runner)] (Some far_runner)] ++
  [KArrive; KExec XIGo] ++ map KFlow [DEngine (OpAnswer true)] ++ [KExec (XIFs true); KExec (XICmd (CISpawn true)); KExec (XICmd (CIOut (RdLine "hello"))); KSender; KForward] ++
  map KFlow [DRemote (RiAnswer None); DEngine OpNext; DEngine OpNext] ++ [KForward; KForward] ++ map KFlow [DRemote RiDeliver; DSender] ++
  [KExec (XICmd (CIOut RdEof)); KExec (XICmd (CIExit (Some code))); KSender; KSender; KForward; KForward] ++ map KFlow ([DRemote RiDeliver; DSender; DSender;
   DEngine OpStream; DEngine OpNext; DEngine OpNext; DEngine OpNext; DEngine OpStream; DEngine OpNext; DEngine OpNext; DEngine OpNext; DEngine OpNext]).
Definition ch_job (i : nat) (code : Z) : list (sysop (iop := kop)) := repeat (YFlow (WTaskOp i JNext)) 6 ++ map (YStep i) (ch_step code) ++ repeat (YFlow (WTaskOp i JNext)) 5 ++ [YFlow (WSend i)].
Definition ch_ops (code : Z) : list (sysop (iop := kop)) :=
  repeat (YFlow WMain) 7 ++ ch_job 0 0 ++ repeat (YFlow WMain) 3 ++ ch_job 1 code ++ repeat (YFlow WMain) 4.
Notation ch := (chained c26_cx (fun t => t + 100) (fun t => t + 200) (fun _ c => c) (fun _ => loc_conf)).
Lemma ch_smooth code : smooth (ch_ops code).
Proof.
  split.
  - intros e H. exfalso. cbv [ch_ops ch_job ch_step app repeat map] in H. cbn [In] in H. repeat (destruct H as [H|H]; [discriminate H|]). exact H.
  - intros i. split; [|split; [intros cs|split; [intros f Hf|split; [|split]]]]; intros H; cbv [ch_ops ch_job ch_step app repeat map] in H; cbn [In] in H;
      repeat (destruct H as [H|H]; [try discriminate H; injection H as _ <-; discriminate Hf|]); exact H.
Qed.
Example C113_nonvacuous : unraised sys_sh /\ smooth (ch_ops 3) /\
  (exists s tr r, sysrun ch (fun _ => None) c26_cx sys_wf sys_sh (ch_ops 3) s tr /\ ws_main (sy_w s) = WpDone r /\ wr_state r = Failed /\
     exists a b, lookup "a" (wr_jobs r) = Some a /\ jr_state a = Succeeded /\ lookup "b" (wr_jobs r) = Some b /\ jr_state b = Failed) /\
  (exists s tr r, sysrun ch (fun _ => None) c26_cx sys_wf sys_sh (ch_ops 0) s tr /\ ws_main (sy_w s) = WpDone r /\ wr_state r = Succeeded).
Proof.
  split; [intros [|a] c C; discriminate C|]. split; [apply ch_smooth|]. split.
  - do 3 eexists. split; [eapply (sysexec_run _ _ _ _ _ (ch_ops 3) [] _ [] _ _ (sysrun_init _ _ _ _ _)); vm_compute; reflexivity|]. split; [reflexivity|]. split; [reflexivity|].
    do 2 eexists. repeat split; reflexivity.
  - do 3 eexists. split; [eapply (sysexec_run _ _ _ _ _ (ch_ops 0) [] _ [] _ _ (sysrun_init _ _ _ _ _)); vm_compute; reflexivity|]. split; reflexivity.
Qed.
Definition ch_half : list (sysop (iop := kop)) := firstn 30 (ch_ops 0).
Example C115_nonvacuous : NoDup (keys (wf_jobs sys_wf)) /\ acyclic sys_wf /\ keeps_steps c26_hooks /\ client_start [] None <> None /\ (forall op, In op ch_half -> orderly sys_wf tame_worker op) /\
  (exists s tr, sysrun ch (fun _ => None) c26_cx sys_wf sys_sh ch_half s tr /\ ws_tasks (sy_w s) <> [] /\ forall r, ws_main (sy_w s) <> WpDone r).
Proof.
  split; [repeat constructor; cbn; intuition discriminate|]. split; [exact sys_acyclic|]. split; [exact sys_hooks_keep|]. split; [discriminate|].
  split; [intros op H; vm_compute in H; repeat (destruct H as [<-|H]; [cbn; auto; try exact sys_hooks_keep; try exact Logic.I|]); destruct H|].
  do 2 eexists. split; [eapply (sysexec_run _ _ _ _ _ ch_half [] _ [] _ _ (sysrun_init _ _ _ _ _)); vm_compute; reflexivity|]. split; discriminate.
Qed.
