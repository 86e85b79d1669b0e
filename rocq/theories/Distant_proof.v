From Verif Require Import Base Types Signals_model Signals_proof Stream_model Stream_spec Stream_proof Cond_model Plugins_model Plugins_spec
  Exec_model Exec_spec Step_proof Timing_proof Runner_model Runner_spec Sched_model Remote_model Remote_spec Remote_proof Local_model Local_spec Local_proof Distant_model Distant_spec.

(** ** The calls of the client in terms of stream operations *)
Lemma calls_ops e : Local_proof.stream_of (calls_of e) = op_of e.
Proof. destruct e as [[[] m]|r]; reflexivity. Qed.
Lemma calls_ops_all effs : Local_proof.stream_of (flat_map calls_of effs) = flat_map op_of effs.
Proof. induction effs as [|e effs IH]; [reflexivity|]. cbn [flat_map]. rewrite stream_of_app, calls_ops, IH. reflexivity. Qed.
Lemma calls_not_sig effs o : In o (flat_map calls_of effs) -> forall so, o <> RSig so.
Proof.
  rewrite in_flat_map. intros (e & _ & H). destruct e as [[[] m]|r]; cbn in H; repeat (destruct H as [<-|H]; [discriminate|]); contradiction.
Qed.

(** Polling does not change the result. *)
Lemma result_unpolled ops : ss_result (stream_after (unpolled ops)) = ss_result (stream_after ops) /\ ss_enders (stream_after (unpolled ops)) = ss_enders (stream_after ops).
Proof.
  induction ops as [|o ops [IH1 IH2]] using rev_ind; [split; reflexivity|]. rewrite unpolled_app, stream_after_snoc. destruct (spoll_b o) eqn:P.
  - destruct o; try discriminate P. cbn [unpolled filter spoll_b negb]. rewrite app_nil_r, IH1, IH2. cbn [stream_step]. unfold stream_poll.
    destruct (nth_error _ _); cbn; [auto|]. destruct (ss_result (stream_after ops)); cbn; auto.
  - assert (Hu : unpolled [o] = [o]) by (unfold unpolled; cbn; rewrite P; reflexivity). rewrite Hu, stream_after_snoc.
    destruct o; try discriminate P; cbn [stream_step fst]; unfold stream_log, stream_error, stream_end_check, stream_end_commit; cbn [fst ss_result ss_enders]; rewrite ?IH1, ?IH2; auto.
    + destruct (ss_result (stream_after ops)) eqn:Er; rewrite ?IH1, ?IH2; cbn; rewrite ?IH1, ?IH2; auto.
    + destruct (lookup c (ss_enders (stream_after ops))); cbn; auto.
Qed.
(** A prefix of the operations of some calls: some whole calls and possibly half an [end]. *)
Lemma split_calls effs : forall pre rest, pre ++ rest = flat_map op_of effs ->
  exists e1 e2, effs = e1 ++ e2 /\ (pre = flat_map op_of e1 \/ exists r e3, e2 = SeEnd r :: e3 /\ pre = flat_map op_of e1 ++ [SEndCheck 0 r]).
Proof.
  induction effs as [|e effs IH]; intros pre rest E.
  - exists [], []. apply app_eq_nil in E as [-> _]. auto.
  - assert (Hnil : pre = [] -> exists e1 e2, e :: effs = e1 ++ e2 /\ (pre = flat_map op_of e1 \/ exists r e3, e2 = SeEnd r :: e3 /\ pre = flat_map op_of e1 ++ [SEndCheck 0 r])) by (intros ->; exists [], (e :: effs); auto).
    destruct pre as [|x pre]; [apply Hnil; reflexivity|]. cbn [flat_map] in E. destruct e as [[[] m]|r]; cbn in E.
    + injection E as -> E. destruct (IH _ _ E) as (e1 & e2 & -> & H). exists (SeLog (Log LError m) :: e1), e2. split; [reflexivity|].
      destruct H as [->|(r & e3 & -> & ->)]; [left; reflexivity|right; exists r, e3; auto].
    + injection E as -> E. destruct (IH _ _ E) as (e1 & e2 & -> & H). exists (SeLog (Log LLog m) :: e1), e2. split; [reflexivity|].
      destruct H as [->|(r & e3 & -> & ->)]; [left; reflexivity|right; exists r, e3; auto].
    + injection E as -> E. destruct pre as [|y pre]; [exists [], (SeEnd r :: effs); split; [reflexivity|]; right; exists r, effs; auto|].
      injection E as -> E. destruct (IH _ _ E) as (e1 & e2 & -> & H). exists (SeEnd r :: e1), e2. split; [reflexivity|].
      destruct H as [->|(r' & e3 & -> & ->)]; [left; reflexivity|right; exists r', e3; auto].
Qed.
Lemma sent_ops effs : sent (flat_map op_of effs) = logged effs.
Proof. induction effs as [|e effs IH]; [reflexivity|]. cbn [flat_map]. rewrite sent_app, IH. destruct e as [[[] m]|r]; reflexivity. Qed.
Lemma prefix_state ops rest effs : unpolled ops ++ rest = flat_map op_of effs ->
  exists e1 e2, effs = e1 ++ e2 /\ ss_result (stream_after ops) = first_end e1 /\ sent ops = logged e1 /\ (rest = [] -> e2 = []).
Proof.
  intros E. destruct (split_calls _ _ _ E) as (e1 & e2 & -> & H). exists e1, e2. split; [reflexivity|].
  destruct (result_unpolled ops) as [<- _]. rewrite <- (sent_unpolled ops).
  assert (S := stream_of_eq e1). unfold Remote_model.stream_of in S. destruct H as [H|(r & e3 & -> & H)]; rewrite H.
  - rewrite S, sent_ops. split; [reflexivity|]. split; [reflexivity|]. intros ->. rewrite app_nil_r, flat_map_app, H in E.
    rewrite <- (app_nil_r (flat_map op_of e1)) in E at 1. apply app_inv_head in E. destruct e2 as [|e e2]; [reflexivity|]. destruct e as [[[] m]|r]; discriminate E.
  - rewrite stream_after_snoc, sent_app, S, sent_ops. cbn [stream_step fst]. unfold stream_end_check. cbn [ss_result sent]. rewrite app_nil_r.
    split; [destruct (first_end e1); reflexivity|]. split; [reflexivity|]. intros ->. rewrite app_nil_r, flat_map_app, H in E.
    apply app_inv_head in E. discriminate E.
Qed.

(** ** What the client does to the stream *)
Definition tail_effs (ll : list log) : list seff := match ll with [] => [] | _ => map SeLog ll ++ [SeEnd (RFailed 1)] end.
Definition effs_of (ins : list rinput) : list seff :=
  map SeLog (Remote_spec.logs_of (arrived ins)) ++ match result_of (arrived ins) with Some r => [SeEnd r] | None => [] end ++ tail_effs (last_line ins).
(** Nothing follows the result. *)
Lemma result_is_last ins st : remote_run ins st -> forall a r b, server_sent ins = a ++ RspResult r :: b -> b = [] /\ r_server st = SvDone.
Proof.
  intros R a r b E. destruct (server_inv _ _ R) as [S _].
  assert (N : forall l, server_sent ins = map RspLog l -> False).
  { intros l Hl. rewrite Hl in E. assert (H : In (RspResult r) (map RspLog l)) by (rewrite E; apply in_or_app; right; left; reflexivity). apply in_map_iff in H as (x & H & _). discriminate H. }
  destruct (r_server st); [destruct (N _ S)|destruct (N _ S)|]. destruct S as [(r' & S & _)|[S _]]; [|destruct (N _ S)]. split; [|reflexivity].
  rewrite S in E. destruct b as [|x b]; [reflexivity|exfalso]. destruct (exists_last (l := x :: b)) as (q & y & Hq); [discriminate|]. rewrite Hq in E.
  change (a ++ RspResult r :: q ++ [y]) with (a ++ ([RspResult r] ++ q) ++ [y]) in E. rewrite app_assoc in E. apply app_inj_tail in E as [E _].
  assert (H : In (RspResult r) (map RspLog (yielded ins))) by (rewrite E; apply in_or_app; right; left; reflexivity). apply in_map_iff in H as (z & H & _). discriminate H.
Qed.
Lemma result_split rs r : result_of rs = Some r -> exists a b, rs = a ++ RspResult r :: b.
Proof.
  induction rs as [|[l|r'] rs IH]; cbn; [discriminate| |].
  - intros H. destruct (IH H) as (a & b & ->). exists (RspLog l :: a), b. reflexivity.
  - intros [= ->]. exists [], rs. reflexivity.
Qed.
Lemma arrived_prefix ins st : remote_run ins st -> server_sent ins = arrived ins ++ r_wire st.
Proof. intros R. destruct (rinv_run _ _ R) as [del I]. rewrite (rinv_arrived _ _ _ I). apply (ri_sent _ _ _ I). Qed.
Lemma line_snoc ins st i : remote_run ins st -> ends_client i = false -> arrived (ins ++ [i]) = arrived ins -> last_line (ins ++ [i]) = last_line ins.
Proof.
  intros R H Ha. unfold last_line. rewrite find_app. cbn [find]. rewrite H, Ha. destruct (find ends_client ins); reflexivity.
Qed.
Lemma effs_shape ins st : remote_run ins st -> r_effs st = effs_of ins.
Proof.
  induction 1 as [|ins st i st' R IH E]; [reflexivity|].
  destruct (rinv_run _ _ R) as [del I]. assert (A := rinv_arrived _ _ _ I).
  assert (R' := remote_run_step _ _ _ _ R E). destruct (rinv_run _ _ R') as [del' I']. assert (A' := rinv_arrived _ _ _ I').
  assert (Same : deliveries (ins ++ [i]) = deliveries ins -> arrived (ins ++ [i]) = arrived ins).
  { intros Hd. assert (length del' = length del) by (rewrite <- (ri_del _ _ _ I'), <- (ri_del _ _ _ I); exact Hd).
    assert (S' := ri_sent _ _ _ I'). rewrite server_sent_snoc, (ri_sent _ _ _ I), <- app_assoc in S'. rewrite A, A'.
    assert (K := f_equal (firstn (length del)) S'). rewrite firstn_app, firstn_all, Nat.sub_diag in K. cbn [firstn] in K. rewrite app_nil_r in K.
    rewrite <- H, firstn_app, firstn_all, Nat.sub_diag in K. cbn [firstn] in K. rewrite app_nil_r in K. symmetry. exact K. }
  assert (Quiet : r_effs st' = r_effs st -> deliveries (ins ++ [i]) = deliveries ins -> ends_client i = false -> r_effs st' = effs_of (ins ++ [i])).
  { intros He Hd Hc. rewrite He, IH. unfold effs_of. rewrite (line_snoc _ _ _ R Hc (Same Hd)), (Same Hd). reflexivity. }
  assert (Fin : r_client st <> RDone -> ends_client i = true -> deliveries (ins ++ [i]) = deliveries ins -> r_effs st' = r_effs st ++ tail_effs (last_line (ins ++ [i])) -> r_effs st' = effs_of (ins ++ [i])).
  { intros Hc He Hd E'. assert (F : find ends_client ins = None) by (apply (ri_done _ _ _ I); exact Hc). rewrite E', IH. unfold effs_of. rewrite (Same Hd).
    assert (L0 : last_line ins = []) by (unfold last_line; rewrite F; reflexivity). rewrite L0. cbn [tail_effs]. rewrite app_nil_r, <- app_assoc. reflexivity. }
  assert (Hf : r_client st <> RDone -> find ends_client ins = None) by (apply (ri_done _ _ _ I)).
  assert (Rs : has_end (r_effs st) = match result_of (arrived ins) with Some _ => true | None => match r_client st with RDone => true | _ => false end end).
  { rewrite has_end_iff, (ri_end _ _ _ I), A. destruct (result_of del); [reflexivity|]. destruct (r_client st); reflexivity. }
  destruct st as [c sv wire effs sent]. cbn [r_client r_server r_wire r_effs r_sent] in *.
  destruct i as [err|l|r| | | |e|s err]; cbn [remote_step r_client r_server r_wire r_effs r_sent] in E; unfold client_gets in E; cbn [r_client r_effs] in E.
  - destruct c; try discriminate E. destruct err as [e|]; cbn in E; injection E as <-.
    + apply Fin; [discriminate|reflexivity|rewrite deliveries_snoc; apply Nat.add_0_r|]. unfold last_line. rewrite find_app, Hf by discriminate. reflexivity.
    + apply Quiet; [cbn; apply app_nil_r|rewrite deliveries_snoc; apply Nat.add_0_r|reflexivity].
  - destruct sv; try discriminate E. injection E as <-. apply Quiet; [reflexivity|rewrite deliveries_snoc; apply Nat.add_0_r|reflexivity].
  - destruct sv; try discriminate E. injection E as <-. apply Quiet; [reflexivity|rewrite deliveries_snoc; apply Nat.add_0_r|reflexivity].
  - destruct sv; try discriminate E. injection E as <-. apply Quiet; [reflexivity|rewrite deliveries_snoc; apply Nat.add_0_r|reflexivity].
  - destruct wire as [|m w]; [discriminate|]. destruct c; [destruct m; discriminate E| |destruct m; discriminate E].
    assert (D : arrived (ins ++ [RiDeliver]) = arrived ins ++ [m]).
    { unfold arrived. rewrite server_sent_snoc, app_nil_r, deliveries_snoc, (ri_sent _ _ _ I), (ri_del _ _ _ I). cbn [r_wire].
      rewrite !firstn_app, !firstn_all2 by lia. replace (length del + 1 - length del) with 1 by lia. rewrite Nat.sub_diag, firstn_all. cbn. rewrite app_nil_r. reflexivity. }
    assert (F : find ends_client ins = None) by (apply Hf; discriminate).
    assert (L0 : last_line ins = []) by (unfold last_line; rewrite F; reflexivity).
    assert (L1 : last_line (ins ++ [RiDeliver]) = []) by (unfold last_line; rewrite find_app, F; reflexivity).
    assert (Nr : result_of (arrived ins) = None).
    { destruct (result_of (arrived ins)) as [r|] eqn:Er; [exfalso|reflexivity]. destruct (result_split _ _ Er) as (a & b & Eab).
      assert (S := arrived_prefix _ _ R). cbn [r_wire] in S. rewrite Eab, <- app_assoc in S. destruct (result_is_last _ _ R a r _ S) as [C _]. destruct b; discriminate C. }
    unfold effs_of in IH |- *. rewrite D, L1, Remote_proof.logs_of_app, result_of_app, Nr. rewrite Nr, L0 in IH. cbn [tail_effs app] in *. rewrite app_nil_r in IH.
    destruct m as [l|r]; cbn in E; injection E as <-; cbn [r_effs]; rewrite IH, map_app; cbn; rewrite ?app_nil_r; [f_equal; f_equal; f_equal; apply log_same|reflexivity].
  - destruct wire; [|discriminate]. destruct sv; try discriminate. destruct c; try discriminate E. cbn in E. injection E as <-.
    apply Fin; [discriminate|reflexivity|rewrite deliveries_snoc; apply Nat.add_0_r|]. unfold last_line. rewrite find_app, Hf by discriminate. cbn [find ends_client r_effs].
    rewrite Same by (rewrite deliveries_snoc; apply Nat.add_0_r). rewrite Rs. destruct (result_of (arrived ins)); reflexivity.
  - destruct c; try discriminate E. cbn in E. injection E as <-.
    apply Fin; [discriminate|reflexivity|rewrite deliveries_snoc; apply Nat.add_0_r|]. unfold last_line. rewrite find_app, Hf by discriminate. reflexivity.
  - destruct c; try discriminate E. destruct err as [e|]; cbn in E; injection E as <-.
    + apply Fin; [discriminate|reflexivity|rewrite deliveries_snoc; apply Nat.add_0_r|]. unfold last_line. rewrite find_app, Hf by discriminate. cbn [find ends_client r_effs].
      rewrite Same by (rewrite deliveries_snoc; apply Nat.add_0_r). rewrite Rs. destruct (result_of (arrived ins)); reflexivity.
    + apply Quiet; [cbn; apply app_nil_r|rewrite deliveries_snoc; apply Nat.add_0_r|reflexivity].
Qed.
Lemma effs_grow st i st' : remote_step st i = Some st' -> r_effs st' = r_effs st ++ skipn (length (r_effs st)) (r_effs st').
Proof.
  assert (K : forall a b : list seff, a ++ b = a ++ skipn (length a) (a ++ b)) by (intros a b; rewrite skipn_app, skipn_all, Nat.sub_diag; reflexivity).
  assert (K0 : forall a : list seff, a = a ++ skipn (length a) a) by (intros a; rewrite skipn_all, app_nil_r; reflexivity).
  destruct st as [c sv w effs sent]. cbn [r_effs]. intros E.
  destruct i as [err|l|r| | | |e|s err]; cbn [remote_step r_client r_server r_wire r_effs r_sent] in E; unfold client_gets in E; cbn [r_client r_effs] in E;
    try (destruct sv; try discriminate E; injection E as <-; cbn [r_effs]; apply K0).
  - destruct (client_step _ _ _) as [[p o]|]; [|discriminate]. injection E as <-. apply K.
  - destruct w; [discriminate|]. destruct (client_step _ _ _) as [[p o]|]; [|discriminate]. injection E as <-. apply K.
  - destruct w; [|discriminate]. destruct sv; try discriminate. destruct (client_step _ _ _) as [[p o]|]; [|discriminate]. injection E as <-. apply K.
  - destruct (client_step _ _ _) as [[p o]|]; [|discriminate]. injection E as <-. apply K.
  - destruct (client_step _ _ _) as [[p o]|]; [|discriminate]. injection E as <-. apply K.
Qed.

(** ** The joint machine *)
Lemma rsig_poll_phase cx me sh p cl : step_step cx me sh p (OpRunner (RSig (OPoll cl))) =
  match phase_signal p with Some sg => match step_step cx me sh p (OpRunner (RSig (OPoll cl))) with Some x => Some x | None => None end | None => None end.
Proof. destruct p; reflexivity. Qed.
Lemma poll_notified cl sg g : snd (sig_poll cl sg) = Some g -> sg_notified sg = false /\ sg_signal sg = Some g /\ fst (sig_poll cl sg) = SigState true (Some g) (sg_waker sg).
Proof. unfold sig_poll. destruct (sg_notified sg); [discriminate|]. destruct (sg_signal sg) as [s|]; [|discriminate]. cbn. intros [= ->]. auto. Qed.
Lemma raise_notified s sg : sg_notified (raise_ok s sg) = sg_notified sg.
Proof. unfold raise_ok, sig_raise, sig_cancel, sig_timeout. destruct s, (sg_signal sg); reflexivity. Qed.
Lemma engine_notified cx me sh p op sh' p' o : step_step cx me sh p op = Some (sh', p', o) -> (forall x, op <> OpRunner x) ->
  forall sg', phase_signal p' = Some sg' -> (phase_early p = true /\ sg_notified sg' = false) \/ exists sg, phase_signal p = Some sg /\ sg_notified sg' = sg_notified sg.
Proof.
  intros E Hn sg' Hs. destruct p as [st|st|st t0|st t0|st t0|st t0 a|st t0 a sg str|st t0 a sg str|st t0 a sg str|st t0 a sg str ti|st t0 a sg str l|st t0 a sg str l|st t0 a sg str|st t0 w c|r|r|r|w];
    destruct op as [|c'|ok| | | |x]; try discriminate E; try (destruct (Hn x eq_refl)); cbn [step_step] in E.
  all: try (injection E as <- <- <-; cbn in Hs; first [discriminate Hs|injection Hs as <-; right; exists sg; split; reflexivity]).
  - destruct (lookup _ _); injection E as <- <- <-; discriminate Hs.
  - injection E as <- <- <-. left. injection Hs as <-. auto.
  - destruct ok; injection E as <- <- <-; cbn in Hs; first [discriminate Hs|injection Hs as <-; right; exists sg; split; reflexivity].
  - destruct (_ <=? _)%N; [|discriminate]. injection E as <- <- <-. injection Hs as <-. right. exists sg. split; [reflexivity|]. apply raise_notified.
  - right. exists sg. split; [reflexivity|].
    destruct (sm_step _ _) as [sm' [| | |[| |[]]|]]; try discriminate E; injection E as <- <- <-; injection Hs as <-; [apply raise_notified|reflexivity].
  - destruct (stream_poll _ _) as [[? []] ?]; injection E as <- <- <-; injection Hs as <-; right; exists sg; split; reflexivity.
  - destruct (ss_result _); injection E as <- <- <-; discriminate Hs.
Qed.
Lemma hands_passes s op t : hands_on s (DEngine op) = match passes_on (LState (ds_sh s) (ds_step s) t) (LEngine op) with Some g => [g] | None => [] end.
Proof.
  unfold hands_on, passes_on. cbn [lo_step lo_sh]. destruct (ds_step s); try reflexivity. destruct op; try reflexivity.
  destruct (nth_error _ _) as [c|]; [|reflexivity]. destruct (sg_notified c); [reflexivity|]. destruct (sg_signal c); reflexivity.
Qed.
Lemma hands_only s op : (forall o, op <> DEngine o) -> hands_on s op = [].
Proof. intros H. unfold hands_on. destruct (ds_step s); try reflexivity. destruct op; try reflexivity. destruct (H op eq_refl). Qed.
Lemma sender_phase cx me sh p o sh' p' ob : step_step cx me sh p (OpRunner o) = Some (sh', p', ob) ->
  sh' = sh /\ ob = [] /\ phase_early p' = phase_early p /\ phase_call p' = phase_call p /\ (exists sg, phase_signal p = Some sg) /\
  (forall sg, phase_signal p = Some sg -> phase_signal p' = Some (match o with RSig so => fst (sig_step sg so) | _ => sg end)).
Proof.
  intros E. destruct p; try discriminate E; cbn [step_step] in E;
    (assert (K : fst (runner_step o sg str) = match o with RSig so => fst (sig_step sg so) | _ => sg end) by (destruct o; reflexivity));
    destruct (runner_step o sg str) as [sg' str']; cbn [fst] in K; subst sg'; injection E as <- <- <-; repeat split; try (eexists; reflexivity);
    intros sg0 [= <-]; reflexivity.
Qed.

Definition first_of (gs : list signal) : option signal := match gs with [] => None | g :: _ => Some g end.
Lemma first_of_app a b : first_of (a ++ b) = match first_of a with Some g => Some g | None => first_of b end.
Proof. destruct a; reflexivity. Qed.
Definition lst_sig (o : option signal) : list signal := match o with Some g => [g] | None => [] end.
Definition task_effs (t : option dtask) : list seff :=
  match t with None => [] | Some (DTask None _ _) => fail_with "No runner available" | Some (DTask (Some r) _ _) => r_effs r end.
Lemma attempts_app a b : attempts (a ++ b) = attempts a ++ attempts b.
Proof. apply flat_map_app. Qed.
Lemma events_app a b : remote_events (a ++ b) = remote_events a ++ remote_events b.
Proof. apply flat_map_app. Qed.

Section Inv.
Variables (cx : ectx) (me cl : task) (st0 : step).
Record dinv (ops : list dop) (s : dstate) (tr : list obs) (gs : list signal) : Prop := {
  di_srun : exists ls more, srun cx me st0 ls (ds_sh s) (ds_step s) tr /\
    Local_proof.stream_of (runner_ops ls) ++ more = flat_map op_of (task_effs (ds_task s)) /\
    (forall sg, phase_signal (ds_step s) = Some sg -> more = match ds_task s with Some t => Local_proof.stream_of (dt_pending t) | None => [] end) /\
    ~ In (SOwn (OpAnswer false)) ls;
  di_none : ds_task s = None -> remote_events ops = [] /\ gs = [] /\ (phase_early (ds_step s) = true \/ phase_call (ds_step s) = true);
  di_early : phase_early (ds_step s) = true -> ds_task s = None;
  di_fresh : ds_task s = None -> forall sg, phase_signal (ds_step s) = Some sg -> sg_signal sg = None /\ sg_notified sg = false;
  di_task : forall t, ds_task s = Some t ->
    (forall sg, phase_signal (ds_step s) = Some sg -> sg = dt_sig t) /\ sg_signal (dt_sig t) = first_of gs /\
    (forall o, In o (dt_pending t) -> forall so, o <> RSig so) /\
    (exists st, hooked st0 st /\ In (ORun (given cx st)) tr) /\
    match dt_remote t with
    | None => remote_events ops = [] /\ sg_notified (dt_sig t) = false
    | Some r => remote_run (remote_events ops) r /\ attempts (remote_events ops) = (if sg_notified (dt_sig t) then lst_sig (first_of gs) else []) /\
                (sg_notified (dt_sig t) = true -> first_of gs <> None)
    end }.

Lemma dengine_inv ops s tr gs op s' o : dinv ops s tr gs -> (forall x, op <> OpRunner x) -> op <> OpAnswer false -> (op = OpAnswer true -> ds_task s <> None) ->
  dengine cx me s op = Some (s', o) -> dinv (ops ++ [DEngine op]) s' (tr ++ o) (gs ++ hands_on s (DEngine op)).
Proof.
  intros [(ls & more & R & Em & Hm & Hna) Hnone Hearly Hfresh Htask] Hr Hf Ht E. unfold dengine in E.
  destruct (step_step cx me (ds_sh s) (ds_step s) op) as [[[sh' p'] ob]|] eqn:E'; [|discriminate]. injection E as <- <-.
  assert (Ev : remote_events (ops ++ [DEngine op]) = remote_events ops) by (rewrite events_app; cbn; apply app_nil_r).
  assert (Sg : forall sg', phase_signal p' = Some sg' -> (phase_early (ds_step s) = true /\ sg_signal sg' = None /\ sg_notified sg' = false /\ hands_on s (DEngine op) = []) \/
     exists sg, phase_signal (ds_step s) = Some sg /\ sg_notified sg' = sg_notified sg /\
       sg_signal sg' = match first_of (hands_on s (DEngine op)) with Some g => match sg_signal sg with None => Some g | Some x => Some x end | None => sg_signal sg end).
  { intros sg' Hs. rewrite (hands_passes s op None). destruct (engine_signal cx me _ _ _ _ _ _ E' Hr None sg' Hs) as [(H1 & H2 & H3)|(sg & H1 & H2)];
      destruct (engine_notified cx me _ _ _ _ _ _ E' Hr sg' Hs) as [(K1 & K2)|(sg2 & K1 & K2)].
    - left. rewrite H3. auto.
    - left. destruct (ds_step s); try discriminate H1; discriminate K1.
    - left. destruct (ds_step s); try discriminate H1; discriminate K1.
    - right. rewrite H1 in K1. injection K1 as <-. exists sg. split; [exact H1|]. split; [exact K2|]. rewrite H2. destruct (passes_on _ _); reflexivity. }
  split; cbn [ds_sh ds_step ds_task].
  - exists (ls ++ [SOwn op]), more. split; [eapply srun_own; eauto|]. split; [|split].
    + rewrite runner_ops_app, stream_of_app. replace (runner_ops [SOwn op]) with (@nil runner_op) by (destruct op; try reflexivity; destruct (Hr _ eq_refl)).
      cbn [Local_proof.stream_of flat_map]. rewrite app_nil_r, Em. f_equal. destruct (ds_task s) as [[[r|] sg pd]|]; try reflexivity; cbn [option_map]; unfold share; destruct (phase_signal p'); reflexivity.
    + intros sg' Hs'. destruct (Sg _ Hs') as [(H1 & _)|(sg & H1 & _)].
      * apply Hearly in H1. rewrite H1 in Em |- *. cbn in Em. apply app_eq_nil in Em as [_ Em]. exact Em.
      * rewrite (Hm sg H1). destruct (ds_task s) as [[r sg0 pd]|]; cbn; [|reflexivity]. unfold share. destruct (phase_signal p'); reflexivity.
    + rewrite in_app_iff. intros [C|[C|[]]]; [exact (Hna C)|]. injection C as C. exact (Hf C).
  - destruct (ds_task s) as [t|] eqn:T; [discriminate|]. intros _. destruct (Hnone eq_refl) as (H1 & H2 & H3). rewrite Ev, H2.
    assert (Hp : hands_on s (DEngine op) = []) by (unfold hands_on; destruct (ds_step s); try reflexivity; destruct H3; discriminate).
    rewrite Hp. split; [exact H1|]. split; [reflexivity|].
    destruct H3 as [H3|H3]; [destruct (step_step_early cx me _ _ _ _ _ _ E' Hr H3) as [K|[K _]]; auto|].
    destruct (ds_step s); try discriminate H3. destruct op as [|c'|[]| | | |x]; try discriminate E'; [destruct (Ht eq_refl eq_refl)|destruct (Hf eq_refl)|destruct (Hr x eq_refl)].
  - intros H. destruct (phase_early (ds_step s)) eqn:Pe; [rewrite (Hearly eq_refl); reflexivity|].
    rewrite (step_step_late cx me _ _ _ _ _ _ E' Pe) in H. discriminate.
  - intros T sg' Hs'. destruct (ds_task s) as [t|] eqn:T'; [discriminate|].
    destruct (Sg _ Hs') as [(_ & H1 & H2 & _)|(sg & H1 & H2 & H3)]; [auto|]. destruct (Hfresh eq_refl sg H1) as [K1 K2].
    destruct (Hnone eq_refl) as (_ & _ & H4).
    assert (Hp : hands_on s (DEngine op) = []) by (unfold hands_on; destruct (ds_step s); try reflexivity; destruct H4; discriminate).
    rewrite Hp in H3. cbn in H3. split; congruence.
  - intros t' T. destruct (ds_task s) as [t|] eqn:T'; [|discriminate]. injection T as <-.
    destruct (Htask t eq_refl) as (Hsg & Hsig & Hpd & (st & Hst & Hrun) & Hrem). rewrite Ev.
    assert (Hlate : phase_early (ds_step s) = false) by (destruct (phase_early (ds_step s)); [discriminate (Hearly eq_refl)|reflexivity]).
    assert (Nt : sg_notified (dt_sig (share p' t)) = sg_notified (dt_sig t)).
    { unfold share. destruct (phase_signal p') as [sg'|] eqn:Hp'; [|reflexivity]. cbn [dt_sig]. destruct (Sg _ eq_refl) as [(C & _)|(sg & H1 & H2 & _)]; [congruence|].
      rewrite H2, (Hsg _ H1). reflexivity. }
    assert (Sn : sg_signal (dt_sig (share p' t)) = first_of (gs ++ hands_on s (DEngine op))).
    { unfold share. destruct (phase_signal p') as [sg'|] eqn:Hp'.
      - cbn [dt_sig]. destruct (Sg _ eq_refl) as [(C & _)|(sg & H1 & H2 & H3)]; [congruence|]. rewrite H3, (Hsg _ H1), Hsig, first_of_app.
        destruct (first_of gs), (first_of (hands_on s (DEngine op))); reflexivity.
      - assert (Hp : hands_on s (DEngine op) = []) by (rewrite (hands_passes s op None), (no_pass cx me _ _ _ _ _ _ None E' Hp'); reflexivity).
        rewrite Hp, app_nil_r. exact Hsig. }
    assert (Pd : dt_pending (share p' t) = dt_pending t) by (unfold share; destruct (phase_signal p'); reflexivity).
    assert (Rm : dt_remote (share p' t) = dt_remote t) by (unfold share; destruct (phase_signal p'); reflexivity).
    split; [|split; [exact Sn|split; [rewrite Pd; exact Hpd|split]]].
    + intros sg' Hp'. unfold share. rewrite Hp'. reflexivity.
    + exists st. split; [exact Hst|]. apply in_or_app. left. exact Hrun.
    + rewrite Rm, Nt. destruct (dt_remote t) as [r|]; [|exact Hrem]. destruct Hrem as (Hr1 & Hr2 & Hr3). split; [exact Hr1|]. rewrite Hr2.
      destruct (sg_notified (dt_sig t)) eqn:En; [|split; [reflexivity|discriminate]]. specialize (Hr3 eq_refl).
      destruct (first_of gs) as [g|] eqn:Eg; [|congruence]. rewrite first_of_app, Eg. split; [reflexivity|intros _; discriminate].
Qed.

Lemma dhist_inv ops s tr gs : dhist cx me cl st0 ops s tr gs -> dinv ops s tr gs.
Proof.
  induction 1 as [sh|ops s tr gs op s' o R IH E].
  { split; cbn; auto; try discriminate. exists [], []. split; [constructor|]. split; [reflexivity|]. split; [discriminate|intros []]. }
  destruct op as [op|clients pick|i| |e].
  - destruct op as [|c'|[]| | | |x]; try discriminate E; try (eapply dengine_inv; eauto; intros; discriminate).
    cbn [dstep] in E. destruct (ds_task s) as [[[r|] sg [|x l]]|] eqn:T; try discriminate E; (eapply dengine_inv; eauto; intros; try discriminate; congruence).
  - rewrite hands_only by discriminate. rewrite app_nil_r. assert (Ev : remote_events (ops ++ [DPick clients pick]) = remote_events ops) by (rewrite events_app; cbn; apply app_nil_r).
    cbn [dstep] in E. destruct (ds_step s) as [st|st|st t0|st t0|st t0|st t0 a|st t0 a sg str|st t0 a sg str|st t0 a sg str|st t0 a sg str ti|st t0 a sg str l|st t0 a sg str l|st t0 a sg str|st t0 w c|r|r|r|w] eqn:Ph; try discriminate E.
    destruct (ds_task s) as [t|] eqn:T; [discriminate E|]. destruct IH as [(ls & more & R' & Em & Hm & Hna) Hnone Hearly Hfresh Htask].
    destruct (Hnone T) as (H1 & -> & _). rewrite Ph in *. destruct (Hfresh T sg eq_refl) as [F1 F2]. assert (Hmore := Hm sg eq_refl). rewrite T in Hmore, Em. cbn in Em. apply app_eq_nil in Em as [Em1 Em2].
    assert (Hst : exists st, hooked st0 st /\ In (ORun (given cx st)) tr).
    { assert (R2 := R'). apply srun_inv in R2. cbn [sinv] in R2. destruct R2 as (Hst & _ & Htr & _). exists st. split; [exact Hst|]. rewrite Htr. cbn. auto. }
    destruct (client_start clients pick) as [[effs|c]|] eqn:Ec; [| |discriminate E]; injection E as <- <-; rewrite app_nil_r.
    + assert (Hef : effs = fail_with "No runner available").
      { unfold client_start in Ec. destruct pick as [r|]; [destruct (lookup _ _); discriminate Ec|]. injection Ec as <-. reflexivity. }
      split; cbn [ds_sh ds_step ds_task]; try discriminate.
      * exists ls, (Local_proof.stream_of (flat_map calls_of effs)). split; [exact R'|]. split; [rewrite Em1, calls_ops_all, Hef; reflexivity|]. split; [intros sg' _; reflexivity|exact Hna].
      * intros t [= <-]. cbn [dt_sig dt_remote dt_pending]. split; [intros sg' [= <-]; reflexivity|]. split; [exact F1|]. split; [intros x Hx; eapply calls_not_sig; exact Hx|]. split; [exact Hst|].
        rewrite Ev. auto.
    + split; cbn [ds_sh ds_step ds_task]; try discriminate.
      * exists ls, []. split; [exact R'|]. split; [rewrite Em1; reflexivity|]. split; [intros sg' _; reflexivity|exact Hna].
      * intros t [= <-]. cbn [dt_sig dt_remote dt_pending]. split; [intros sg' [= <-]; reflexivity|]. split; [exact F1|]. split; [intros x []|]. split; [exact Hst|].
        rewrite Ev, H1, F2. split; [constructor|]. split; [reflexivity|discriminate].
  - rewrite hands_only by discriminate. rewrite app_nil_r. cbn [dstep] in E. destruct (ds_task s) as [[[r|] sg pend]|] eqn:T; try discriminate E.
    destruct (client_side i && _); [discriminate E|]. destruct (remote_step r i) as [r'|] eqn:Er; [|discriminate E].
    assert (Ev : remote_events (ops ++ [DRemote i]) = remote_events ops ++ [i]) by (rewrite events_app; reflexivity).
    destruct IH as [(ls & more & R' & Em & Hm & Hna) Hnone Hearly Hfresh Htask]. destruct (Htask _ T) as (Hsg & Hsig & Hpd & Hst & Hrr & Hat & Hnt). cbn [dt_sig dt_remote dt_pending] in *.
    assert (Hgrow := effs_grow _ _ _ Er). assert (Hrun := remote_run_step _ _ _ _ Hrr Er).
    set (new := skipn (length (r_effs r)) (r_effs r')) in *.
    assert (Hpd' : forall o, In o (pend ++ flat_map calls_of new) -> forall so, o <> RSig so) by (intros x Hx; apply in_app_iff in Hx as [Hx|Hx]; [exact (Hpd _ Hx)|eapply calls_not_sig; exact Hx]).
    assert (He : phase_early (ds_step s) = false) by (destruct (phase_early (ds_step s)); [rewrite (Hearly eq_refl) in T; discriminate T|reflexivity]).
    destruct (match i with RiSignal _ _ => true | _ => false end) eqn:Ki.
    + destruct i as [| | | | | | |g err]; try discriminate Ki. destruct (sig_poll cl sg) as [sg' [g'|]] eqn:Ep; [|discriminate E].
      destruct (eqb g g') eqn:Eg; [|discriminate E]. apply (proj1 (eqb_true _ _)) in Eg. subst g'.
      destruct (poll_notified cl sg g) as (P1 & P2 & P3); [rewrite Ep; reflexivity|]. rewrite Ep in P3. cbn [fst] in P3.
      injection E as <- <-. rewrite app_nil_r. unfold at_engine.
      assert (Phase : exists ls' p', (match step_step cx me (ds_sh s) (ds_step s) (OpRunner (RSig (OPoll cl))) with Some (_, p', _) => p' | None => ds_step s end) = p' /\
         srun cx me st0 ls' (ds_sh s) p' tr /\ Local_proof.stream_of (runner_ops ls') = Local_proof.stream_of (runner_ops ls) /\ ~ In (SOwn (OpAnswer false)) ls' /\
         phase_early p' = false /\ (forall sg1, phase_signal p' = Some sg1 -> phase_signal (ds_step s) = Some sg /\ sg1 = sg')).
      { destruct (step_step cx me (ds_sh s) (ds_step s) (OpRunner (RSig (OPoll cl)))) as [[[sh1 p1] ob1]|] eqn:E1.
        - destruct (sender_phase _ _ _ _ _ _ _ _ E1) as (-> & -> & K1 & _ & (sg0 & K2) & K3). exists (ls ++ [SOwn (OpRunner (RSig (OPoll cl)))]), p1. split; [reflexivity|].
          split; [rewrite <- (app_nil_r tr); eapply srun_own; eauto|]. split; [rewrite runner_ops_app, stream_of_app; cbn; apply app_nil_r|].
          split; [rewrite in_app_iff; intros [C|[C|[]]]; [exact (Hna C)|discriminate C]|]. split; [rewrite K1; exact He|].
          intros sg1 H1. assert (sg0 = sg) by (apply Hsg; exact K2). subst sg0. split; [exact K2|]. rewrite (K3 _ K2) in H1. injection H1 as <-. cbn [sig_step]. rewrite Ep. reflexivity.
        - exists ls, (ds_step s). split; [reflexivity|]. split; [exact R'|]. split; [reflexivity|]. split; [exact Hna|]. split; [exact He|]. rewrite (sender_stuck _ _ _ _ _ E1). discriminate. }
      destruct Phase as (ls' & p' & -> & Q1 & Q2 & Q3 & Q4 & Q5).
      split; cbn [ds_sh ds_step ds_task]; try discriminate.
      * exists ls', (more ++ flat_map op_of new). split; [exact Q1|]. split.
        { rewrite Q2, app_assoc. rewrite Em, T. cbn [task_effs]. rewrite Hgrow, flat_map_app. reflexivity. }
        split; [|exact Q3]. intros sg1 H1. destruct (Q5 _ H1) as [H2 _]. rewrite (Hm _ H2). rewrite T. cbn [dt_pending]. rewrite stream_of_app, calls_ops_all. reflexivity.
      * rewrite Q4. discriminate.
      * intros t [= <-]. cbn [dt_sig dt_remote dt_pending]. split; [intros sg1 H1; destruct (Q5 _ H1) as [_ H2]; exact H2|]. subst sg'. cbn [sg_signal sg_notified].
        rewrite <- Hsig, P2. split; [reflexivity|]. split; [exact Hpd'|]. split; [exact Hst|]. rewrite Ev. split; [exact Hrun|]. rewrite attempts_app, Hat, P1. split; [reflexivity|intros _; discriminate].
    + assert (E2 : s' = DState (ds_sh s) (ds_step s) (Some (DTask (Some r') sg (pend ++ flat_map calls_of new))) /\ o = []).
      { destruct i; try discriminate Ki; injection E as <- <-; auto. }
      destruct E2 as [-> ->]. rewrite app_nil_r. split; cbn [ds_sh ds_step ds_task]; try discriminate.
      * exists ls, (more ++ flat_map op_of new). split; [exact R'|]. split.
        { rewrite app_assoc. rewrite Em, T. cbn [task_effs]. rewrite Hgrow, flat_map_app. reflexivity. }
        split; [|exact Hna]. intros sg1 H1. rewrite (Hm _ H1). rewrite T. cbn [dt_pending]. rewrite stream_of_app, calls_ops_all. reflexivity.
      * rewrite He. discriminate.
      * intros t [= <-]. cbn [dt_sig dt_remote dt_pending]. split; [exact Hsg|]. split; [exact Hsig|]. split; [exact Hpd'|]. split; [exact Hst|]. rewrite Ev. split; [exact Hrun|].
        rewrite attempts_app. replace (attempts [i]) with (@nil signal) by (destruct i; try discriminate Ki; reflexivity). rewrite app_nil_r. auto.
  - rewrite hands_only by discriminate. rewrite app_nil_r. cbn [dstep] in E. destruct (ds_task s) as [[r sg [|ro rest]]|] eqn:T; try discriminate E. injection E as <- <-. rewrite app_nil_r.
    assert (Ev : remote_events (ops ++ [DSender]) = remote_events ops) by (rewrite events_app; cbn; apply app_nil_r).
    destruct IH as [(ls & more & R' & Em & Hm & Hna) Hnone Hearly Hfresh Htask]. destruct (Htask _ T) as (Hsg & Hsig & Hpd & Hst & Hrem). cbn [dt_sig dt_remote dt_pending] in *.
    assert (He : phase_early (ds_step s) = false) by (destruct (phase_early (ds_step s)); [rewrite (Hearly eq_refl) in T; discriminate T|reflexivity]).
    assert (Hro : forall so, ro <> RSig so) by (apply Hpd; left; reflexivity).
    assert (Te : task_effs (Some (DTask r sg rest)) = task_effs (Some (DTask r sg (ro :: rest)))) by reflexivity. unfold at_engine.
    destruct (step_step cx me (ds_sh s) (ds_step s) (OpRunner ro)) as [[[sh1 p1] ob1]|] eqn:E1.
    + destruct (sender_phase _ _ _ _ _ _ _ _ E1) as (-> & -> & K1 & _ & (sg0 & K2) & K3).
      split; cbn [ds_sh ds_step ds_task]; try discriminate.
      * exists (ls ++ [SOwn (OpRunner ro)]), (Local_proof.stream_of rest). split; [rewrite <- (app_nil_r tr); eapply srun_own; eauto|]. split.
        { rewrite Te, <- T, <- Em, runner_ops_app, stream_of_app, (Hm _ K2), T. cbn [dt_pending]. rewrite <- app_assoc. f_equal. change (ro :: rest) with ([ro] ++ rest). rewrite stream_of_app. reflexivity. }
        split; [intros; reflexivity|]. rewrite in_app_iff. intros [C|[C|[]]]; [exact (Hna C)|discriminate C].
      * rewrite K1, He. discriminate.
      * intros t [= <-]. cbn [dt_sig dt_remote dt_pending]. rewrite Ev. split; [|split; [exact Hsig|split; [intros x Hx; apply Hpd; right; exact Hx|split; [exact Hst|exact Hrem]]]].
        intros sg1 H1. assert (sg0 = sg) by (apply Hsg; exact K2). subst sg0. rewrite (K3 _ K2) in H1. injection H1 as <-. destruct ro; try reflexivity. destruct (Hro _ eq_refl).
    + assert (Hp := sender_stuck _ _ _ _ _ E1). split; cbn [ds_sh ds_step ds_task]; try discriminate.
      * exists ls, more. split; [exact R'|]. split; [rewrite Te, <- T; exact Em|]. split; [rewrite Hp; discriminate|exact Hna].
      * rewrite He. discriminate.
      * intros t [= <-]. cbn [dt_sig dt_remote dt_pending]. rewrite Ev. split; [rewrite Hp; discriminate|]. split; [exact Hsig|]. split; [intros x Hx; apply Hpd; right; exact Hx|]. split; [exact Hst|exact Hrem].
  - rewrite hands_only by discriminate. cbn [dstep] in E. injection E as <- <-. rewrite !app_nil_r.
    assert (Ev : remote_events (ops ++ [DWorld e]) = remote_events ops) by (rewrite events_app; cbn; apply app_nil_r).
    destruct IH as [(ls & more & R' & Em & Hm & Hna) Hnone Hearly Hfresh Htask]. split; cbn [ds_sh ds_step ds_task]; rewrite ?Ev; try assumption.
    exists (ls ++ [SEnv e]), more. split; [apply srun_env; exact R'|]. split; [|split; [exact Hm|rewrite in_app_iff; intros [C|[C|[]]]; [exact (Hna C)|discriminate]]].
    rewrite runner_ops_app. cbn. rewrite app_nil_r. exact Em.
Qed.
End Inv.

(** ** Results *)
Lemma first_end_split effs r : first_end effs = Some r -> exists l T, effs = map SeLog l ++ SeEnd r :: T.
Proof.
  induction effs as [|[l|r'] effs IH]; cbn; [discriminate| |].
  - intros H. destruct (IH H) as (ls & T & ->). exists (l :: ls), T. reflexivity.
  - intros [= ->]. exists [], effs. reflexivity.
Qed.
Lemma first_end_at L r T : first_end (map SeLog L ++ SeEnd r :: T) = Some r.
Proof. induction L; cbn; auto. Qed.
Lemma split_at_end L : forall r T L' r' T', map SeLog L ++ SeEnd r :: T = map SeLog L' ++ SeEnd r' :: T' -> L = L' /\ r = r' /\ T = T'.
Proof.
  induction L as [|l L IH]; intros r T [|l' L'] r' T' E; cbn in E; try discriminate E.
  - injection E as -> ->. auto.
  - injection E as -> E. apply IH in E as (-> & -> & ->). auto.
Qed.
Lemma logged_at L r T : logged (map SeLog L ++ SeEnd r :: T) = L ++ logged T.
Proof. rewrite logged_app. cbn. f_equal. induction L; cbn; [reflexivity|]. f_equal. assumption. Qed.
(** Calls before [e2] with an [end] among them. *)
Lemma prefix_end L r T e1 e2 : map SeLog L ++ SeEnd r :: T = e1 ++ e2 -> first_end e1 <> None -> exists T1, T = T1 ++ e2 /\ e1 = map SeLog L ++ SeEnd r :: T1.
Proof.
  intros E H. destruct (first_end e1) as [r'|] eqn:F; [|congruence]. destruct (first_end_split _ _ F) as (L' & T1 & ->). rewrite <- app_assoc in E. cbn [app] in E.
  apply split_at_end in E as (-> & -> & ->). eauto.
Qed.

Section Thm.
Variables (cx : ectx) (me cl : task) (st0 : step).
(** What the stream delivered, given the calls of the client. *)
Lemma done_effs ops s tr gs r : dhist cx me cl st0 ops s tr gs -> ds_step s = SpDone r ->
  exists t st rr L T T1 T2, ds_task s = Some t /\ hooked st0 st /\ In (ORun (given cx st)) tr /\
    task_effs (ds_task s) = map SeLog L ++ SeEnd rr :: T /\ T = T1 ++ T2 /\ mirrors rr r /\ delivered tr = L ++ logged T1.
Proof.
  intros H D. apply dhist_inv in H as [(ls & more & R & Em & _ & Hna) Hnone _ _ Htask]. rewrite D in *.
  destruct (ds_task s) as [t|] eqn:Tk; [|destruct (Hnone eq_refl) as (_ & _ & [C|C]); discriminate].
  destruct (Htask t eq_refl) as (_ & _ & _ & (st & Hst & Hrun) & _).
  assert (P := in_progress_seen _ _ _ _ _ _ _ R Hna). cbn in P.
  destruct (step_logs _ _ _ _ _ _ _ R) as [(_ & _ & _ & C)|(rr & l1 & l2 & E1 & E2 & E3 & E4 & E5 & E6 & _)]; [destruct (C P)|].
  rewrite <- (unpolled_stream me) in Em.
  destruct (prefix_state _ _ _ Em) as (e1 & e2 & Ee & S1 & _ & _). unfold stream_output in E5. cbn in E5. injection E5 as E5. rewrite E5 in S1. symmetry in S1.
  assert (F : first_end (task_effs (Some t)) = Some rr) by (rewrite Ee, first_end_app, S1; reflexivity).
  destruct (first_end_split _ _ F) as (L & T & Eff).
  assert (Em2 : unpolled l1 ++ (unpolled l2 ++ more) = flat_map op_of (task_effs (Some t))) by (rewrite app_assoc, <- unpolled_app, <- E1; exact Em).
  destruct (prefix_state _ _ _ Em2) as (f1 & f2 & Ef & S2 & S3 & _). destruct E2 as [r1 E2]. unfold stream_output in E2. cbn in E2. injection E2 as E2.
  rewrite Eff in Ef. destruct (prefix_end _ _ _ _ _ Ef) as (T1 & -> & Ef1); [rewrite <- S2, E2; discriminate|].
  exists t, st, rr, L, (T1 ++ f2), T1, f2. rewrite E4, S3, Ef1, logged_at. rewrite Eff. auto 10.
Qed.
(** The step on a remote runner: either none was available, or the result is what came over the wire. *)
Lemma distant_result ops s tr gs r : dhist cx me cl st0 ops s tr gs -> ds_step s = SpDone r ->
  exists t st, ds_task s = Some t /\ hooked st0 st /\ In (ORun (given cx st)) tr /\
    match dt_remote t with
    | None => mirrors (RFailed 1) r /\ delivered tr = [log_error "No runner available"] /\ remote_events ops = []
    | Some rm => remote_run (remote_events ops) rm /\ mirrors (remote_result (remote_events ops)) r /\
        (result_of (arrived (remote_events ops)) = None -> r_client rm = RDone) /\
        (delivered tr = Remote_spec.logs_of (arrived (remote_events ops)) ++ last_line (remote_events ops) \/
         (delivered tr = Remote_spec.logs_of (arrived (remote_events ops)) /\ result_of (arrived (remote_events ops)) <> None))
    end.
Proof.
  intros H D. destruct (done_effs _ _ _ _ _ H D) as (t & st & rr & L & T & T1 & T2 & Tk & Hst & Hrun & Eff & Et & M & Dl). exists t, st. split; [exact Tk|]. split; [exact Hst|]. split; [exact Hrun|].
  apply dhist_inv in H as [_ _ _ _ Htask]. destruct (Htask t Tk) as (_ & _ & _ & _ & Hrem). rewrite Tk in Eff. destruct t as [[rm|] sg pd]; cbn [dt_remote task_effs] in *.
  - destruct Hrem as (Rr & _ & _). split; [exact Rr|]. set (ins := remote_events ops) in *. rewrite (effs_shape _ _ Rr) in Eff. unfold effs_of in Eff. unfold remote_result.
    destruct (rinv_run _ _ Rr) as [del I]. assert (A := rinv_arrived _ _ _ I). assert (Fe := ri_end _ _ _ I). rewrite <- A in Fe. rewrite (effs_shape _ _ Rr) in Fe.
    unfold effs_of in Fe. rewrite Eff, first_end_at in Fe.
    destruct (result_of (arrived ins)) as [r0|] eqn:Er.
    + change ([SeEnd r0] ++ ?x) with (SeEnd r0 :: x) in Eff. apply split_at_end in Eff as (<- & <- & ET). split; [exact M|]. split; [discriminate|]. rewrite Et in ET.
      assert (Z : logged T1 = [] \/ logged T1 = last_line ins).
      { assert (Hl : forall ll, tail_effs ll = T1 ++ T2 -> (length ll <= 1)%nat -> logged T1 = [] \/ logged T1 = ll).
        { intros [|l [|? ?]] K Kl; cbn in *; [destruct T1; [auto|discriminate]| |lia]. destruct T1 as [|x1 T1]; [auto|]. injection K as <- K. right.
          destruct T1 as [|x2 T1]; [reflexivity|]. injection K as <- K. destruct T1; [reflexivity|discriminate]. }
        apply Hl; [exact ET|]. unfold last_line. destruct (find ends_client ins) as [i|]; [|cbn; lia]. destruct i as [[]| | | | | | |]; cbn; try lia; rewrite ?Er; cbn; lia. }
      rewrite Dl. destruct Z as [-> | ->]; [right; rewrite app_nil_r; split; [reflexivity|discriminate]|left; reflexivity].
    + destruct (r_client rm) eqn:Rc; try discriminate Fe. injection Fe as ->. split; [exact M|]. split; [reflexivity|]. left. rewrite Dl.
      cbn [app] in Eff. destruct (last_line ins) as [|l ll] eqn:El.
      { cbn [tail_effs] in Eff. rewrite app_nil_r in Eff. exfalso. assert (K := first_end_at L (RFailed 1) T). rewrite <- Eff in K. clear -K. induction (Remote_spec.logs_of (arrived ins)); [discriminate|auto]. }
      unfold tail_effs in Eff. rewrite app_assoc, <- map_app in Eff. apply split_at_end in Eff as (<- & _ & <-). destruct T1; [|discriminate Et]. apply app_nil_r.
  - unfold fail_with in Eff. change [SeLog ?a; SeEnd ?b] with (map SeLog [a] ++ SeEnd b :: []) in Eff. apply split_at_end in Eff as (<- & <- & <-).
    split; [exact M|]. split; [|apply Hrem]. rewrite Dl. destruct T1; [reflexivity|discriminate Et].
Qed.
(** When nothing goes wrong the step is exactly what the server's runner did. *)
Lemma clean_result ops s tr gs r t rm : dhist cx me cl st0 ops s tr gs -> ds_step s = SpDone r -> ds_task s = Some t -> dt_remote t = Some rm ->
  clean (remote_events ops) -> exists rr, In (RiResult rr) (remote_events ops) /\ mirrors rr r /\ delivered tr = yielded (remote_events ops).
Proof.
  intros H D Tk Rm C. destruct (distant_result _ _ _ _ _ H D) as (t' & st & Tk' & _ & _ & K). rewrite Tk in Tk'. injection Tk' as <-. rewrite Rm in K. destruct K as (Rr & M & Hn & Dl).
  set (ins := remote_events ops) in *. destruct (server_inv _ _ Rr) as [S1 S2]. assert (Ap := arrived_prefix _ _ Rr). unfold remote_result in M.
  destruct (result_of (arrived ins)) as [rr|] eqn:Er.
  - destruct (result_split _ _ Er) as (a & b & Eab). assert (Ap2 := Ap). rewrite Eab, <- app_assoc in Ap2. destruct (result_is_last _ _ Rr a rr _ Ap2) as [Hb Sd].
    apply app_eq_nil in Hb as [-> Hw]. rewrite Hw, app_nil_r in Ap. rewrite Sd in S1.
    destruct S1 as [(r' & S1 & Hi)|[S1 _]].
    + rewrite S1 in Ap. rewrite <- Ap, result_of_map in Er. injection Er as <-. exists r'. split; [exact Hi|]. split; [exact M|].
      rewrite <- Ap, Remote_proof.logs_of_app, logs_of_map in Dl. cbn in Dl. rewrite app_nil_r in Dl.
      destruct Dl as [Dl|[Dl _]]; [|exact Dl]. rewrite Dl. replace (last_line ins) with (@nil log); [apply app_nil_r|]. unfold last_line.
      destruct (find ends_client ins) as [i|] eqn:Fi; [|reflexivity]. apply find_some in Fi as [Fi1 Fi2]. specialize (C i Fi1). destruct i as [[]| | | | | | |? []]; try discriminate C; try discriminate Fi2.
      rewrite <- Ap, result_of_map. reflexivity.
    + exfalso. rewrite Eab, S1 in Ap. assert (K : In (RspResult rr) (map RspLog (yielded ins))) by (rewrite Ap; apply in_or_app; right; left; reflexivity). apply in_map_iff in K as (x & K & _). discriminate K.
  - exfalso. specialize (Hn eq_refl). destruct (S2 C Hn) as [Hw Sd]. rewrite Hw, app_nil_r in Ap. rewrite Sd in S1. destruct S1 as [(r' & S1 & _)|[_ Hi]].
    + rewrite <- Ap, S1, result_of_map in Er. discriminate.
    + specialize (C _ Hi). discriminate C.
Qed.
(** ** Signals *)
Lemma sent_are ins st : remote_run ins st -> r_sent st = flat_map (fun i => match i with RiSignal g None => [g] | _ => [] end) ins.
Proof.
  induction 1 as [|ins st i st' R IH E]; [reflexivity|]. rewrite flat_map_app, <- IH. cbn [flat_map]. rewrite app_nil_r. clear IH R. destruct st as [c sv w effs sent]. cbn [r_sent].
  destruct i as [err|l|r| | | |e|s err]; cbn [remote_step r_client r_server r_wire r_effs r_sent] in E; unfold client_gets in E; cbn [r_client r_effs] in E;
    try (destruct sv; try discriminate E; injection E as <-; cbn [r_sent]; rewrite app_nil_r; reflexivity).
  - destruct (client_step _ _ _) as [[p o]|]; [|discriminate]. injection E as <-. cbn. rewrite app_nil_r. reflexivity.
  - destruct w; [discriminate|]. destruct (client_step _ _ _) as [[p o]|]; [|discriminate]. injection E as <-. cbn. rewrite app_nil_r. reflexivity.
  - destruct w; [|discriminate]. destruct sv; try discriminate. destruct (client_step _ _ _) as [[p o]|]; [|discriminate]. injection E as <-. cbn. rewrite app_nil_r. reflexivity.
  - destruct (client_step _ _ _) as [[p o]|]; [|discriminate]. injection E as <-. cbn. rewrite app_nil_r. reflexivity.
  - destruct (client_step _ _ _) as [[p o]|]; [|discriminate]. injection E as <-. cbn. destruct err; rewrite ?app_nil_r; reflexivity.
Qed.
Lemma signal_once ops s tr gs : dhist cx me cl st0 ops s tr gs ->
  attempts (remote_events ops) = [] \/ exists g rest, gs = g :: rest /\ attempts (remote_events ops) = [g].
Proof.
  intros H. apply dhist_inv in H as [_ Hnone _ _ Htask]. destruct (ds_task s) as [t|] eqn:Tk; [|destruct (Hnone eq_refl) as (-> & _); left; reflexivity].
  destruct (Htask t eq_refl) as (_ & _ & _ & _ & Hrem). destruct (dt_remote t) as [r|]; [|destruct Hrem as [-> _]; left; reflexivity].
  destruct Hrem as (_ & -> & Hn). destruct (sg_notified (dt_sig t)); [|left; reflexivity]. specialize (Hn eq_refl). destruct gs as [|g rest]; [cbn in Hn; congruence|]. right. exists g, rest. auto.
Qed.
Lemma signal_goes_out ops s tr g rest sg rm err : dhist cx me cl st0 ops s tr (g :: rest) -> ds_task s = Some (DTask (Some rm) sg []) -> r_client rm = RLoop ->
  attempts (remote_events ops) = [] -> exists s', dstep cx me cl s (DRemote (RiSignal g err)) = Some (s', []).
Proof.
  intros H Tk Rc At. apply dhist_inv in H as [_ _ _ _ Htask]. destruct (Htask _ Tk) as (_ & Hs & _ & _ & _ & Ha & _). cbn [dt_sig] in *. rewrite At in Ha.
  cbn [dstep]. rewrite Tk. cbn [client_side andb]. destruct rm as [c sv w effs sent]. cbn in Rc. subst c.
  assert (Nt : sg_notified sg = false) by (destruct (sg_notified sg); [discriminate Ha|reflexivity]).
  unfold sig_poll. rewrite Nt, Hs. cbn [first_of]. assert (Eg : eqb g g = true) by (apply eqb_true; reflexivity). rewrite Eg.
  destruct err; cbn [remote_step client_gets client_step r_client]; eexists; reflexivity.
Qed.
Lemma handed_from ops s tr gs g : dhist cx me cl st0 ops s tr gs -> In g gs ->
  exists pre op post s1 tr1 gs1, ops = pre ++ op :: post /\ dhist cx me cl st0 pre s1 tr1 gs1 /\ In g (hands_on s1 op).
Proof.
  induction 1 as [sh|ops s tr gs op s' o R IH E]; intros Hi; [destruct Hi|]. apply in_app_iff in Hi as [Hi|Hi].
  - destruct (IH Hi) as (pre & op1 & post & s1 & tr1 & gs1 & -> & H1 & H2). exists pre, op1, (post ++ [op]), s1, tr1, gs1. rewrite <- app_assoc. auto.
  - exists ops, op, [], s, tr, gs. auto.
Qed.
End Thm.
