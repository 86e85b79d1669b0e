From Verif Require Import Base Types Signals_model Signals_proof Stream_model Stream_spec Stream_proof Cond_model Plugins_model Plugins_spec
  Exec_model Exec_spec Step_proof Timing_proof Runner_model Runner_spec Runner_proof Sched_model Remote_model Remote_spec Remote_proof Local_model Local_spec Local_proof
  Distant_model Distant_spec Distant_proof Distant_live Finish_step Worker_model Worker_spec.

Lemma kev_app a b : k_events (a ++ b) = k_events a ++ k_events b.
Proof. apply flat_map_app. Qed.
Lemma kef_app a b : k_effects (a ++ b) = k_effects a ++ k_effects b.
Proof. apply flat_map_app. Qed.
Lemma kev_obs o : k_events (map KObs o) = o.
Proof. induction o as [|x o IH]; cbn; [reflexivity|]; f_equal; exact IH. Qed.
Lemma kef_obs o : k_effects (map KObs o) = [].
Proof. induction o as [|x o IH]; cbn; [reflexivity|]; exact IH. Qed.
Lemma kev_eff o : k_events (map KEff o) = [].
Proof. induction o as [|x o IH]; cbn; [reflexivity|]; exact IH. Qed.
Lemma kef_eff o : k_effects (map KEff o) = o.
Proof. induction o as [|x o IH]; cbn; [reflexivity|]; f_equal; exact IH. Qed.
Lemma worker_is_sender effs : flat_map worker_ops effs = Local_proof.stream_of (flat_map sender_ops effs).
Proof. induction effs as [|e effs IH]; [reflexivity|]. cbn [flat_map]. rewrite Local_proof.stream_of_app, <- IH. f_equal. destruct e as [ | | |[[] m]| | | |]; reflexivity. Qed.

Section Trans.
Variables (cx : ectx) (me cl sv : task) (rhooks : runner_meta -> run_context -> run_context) (conf : runner_meta -> run_context -> xconf).
Notation ks := (kstep cx me cl sv rhooks conf).
(** Operations that only concern engine, client and transport. *)
Definition common (op : dop) : bool :=
  match op with DRemote (RiLog _) | DRemote (RiResult _) | DRemote RiRunnerFails | DRemote (RiSignal _ _) | DPick _ _ => false | _ => true end.
Inductive ktrans (s : kstate) : kop -> kstate -> list kobs -> Prop :=
| kt_common op d' ob : common op = true -> dstep cx me cl (k_d s) op = Some (d', ob) -> (op = DRemote (RiAnswer None) -> k_w s <> None) ->
    ktrans s (KFlow op) (KState d' (k_ctx s) (k_w s) (k_lost s)) (map KObs ob)
| kt_pick clients pick d' ob st t0 a sg str : dstep cx me cl (k_d s) (DPick clients pick) = Some (d', ob) -> ds_step (k_d s) = SpCalling st t0 a sg str ->
    ktrans s (KFlow (DPick clients pick)) (KState d' (match client_start clients pick with Some (inr srv) => Some (given cx st, srv) | _ => k_ctx s end) (k_w s) (k_lost s)) (map KObs ob)
| kt_told g d' ob : dstep cx me cl (k_d s) (DRemote (RiSignal g None)) = Some (d', ob) ->
    ktrans s (KFlow (DRemote (RiSignal g None))) (KState d' (k_ctx s) (option_map (raise_at g) (k_w s)) (k_lost s)) (map KObs ob)
| kt_untold g e d' ob : dstep cx me cl (k_d s) (DRemote (RiSignal g (Some e))) = Some (d', ob) ->
    ktrans s (KFlow (DRemote (RiSignal g (Some e)))) (KState d' (k_ctx s) (k_w s) (k_lost s ++ [g])) (map KObs ob)
| kt_arrive r sg pd rc srv : ds_task (k_d s) = Some (DTask (Some r) sg pd) -> k_ctx s = Some (rc, srv) -> k_w s = None ->
    ktrans s KArrive (KState (k_d s) (k_ctx s) (Some (Worker (conf srv (rhooks srv rc)) xinit [] stream_init FNext true)) (k_lost s)) []
| kt_exec i c x str f b x' o : (forall g, i <> XISignal g) -> k_w s = Some (Worker c x [] str f b) -> xstep c x i = Some (x', o) ->
    ktrans s (KExec i) (KState (k_d s) (k_ctx s) (Some (Worker c x' (flat_map worker_ops o) str f b)) (k_lost s)) (map KEff o)
| kt_sender c x o rest str f b : k_w s = Some (Worker c x (o :: rest) str f b) ->
    ktrans s KSender (KState (k_d s) (k_ctx s) (Some (Worker c x rest (fst (stream_step str o)) f b)) (k_lost s)) []
| kt_item c x pd str b str' l wk : k_w s = Some (Worker c x pd str FNext b) -> stream_poll sv str = (str', PItem l, wk) ->
    ktrans s KForward (KState (k_d s) (k_ctx s) (Some (Worker c x pd str' (FSend l) b)) (k_lost s)) []
| kt_pending c x pd str b str' wk : k_w s = Some (Worker c x pd str FNext b) -> stream_poll sv str = (str', PPending, wk) ->
    ktrans s KForward (KState (k_d s) (k_ctx s) (Some (Worker c x pd str' FNext b)) (k_lost s)) []
| kt_end c x pd str b str' wk r : k_w s = Some (Worker c x pd str FNext b) -> stream_poll sv str = (str', PEnd, wk) -> ss_result str = Some r ->
    ktrans s KForward (KState (k_d s) (k_ctx s) (Some (Worker c x pd str' (FResult r) b)) (k_lost s)) []
| kt_post c x pd str f b i f' d' ob : k_w s = Some (Worker c x pd str f b) -> posting s = Posted ->
    (exists l, f = FSend l /\ i = RiLog l /\ f' = FNext) \/ (exists r, f = FResult r /\ i = RiResult r /\ f' = FDone) -> dstep cx me cl (k_d s) (DRemote i) = Some (d', ob) ->
    ktrans s KForward (KState d' (k_ctx s) (Some (Worker c x pd str f' b)) (k_lost s)) (map KObs ob)
| kt_drop c x pd str f b f' : k_w s = Some (Worker c x pd str f b) -> posting s = Dropped ->
    (exists l, f = FSend l /\ f' = FNext) \/ (exists r, f = FResult r /\ f' = FDone) ->
    ktrans s KForward (KState (k_d s) (k_ctx s) (Some (Worker c x pd str f' b)) (k_lost s)) []
| kt_stray g rest w : k_lost s = g :: rest -> k_w s = Some w ->
    ktrans s KStray (KState (k_d s) (k_ctx s) (Some (raise_at g w)) rest) []
| kt_forget c x pd str f b : k_w s = Some (Worker c x pd str f b) ->
    ktrans s KForget (KState (k_d s) (k_ctx s) (Some (Worker c x pd str f false)) (k_lost s)) [].
Lemma kflow_inv s op w' lost' s' o : kflow cx me cl s op w' lost' = Some (s', o) -> exists d' ob, dstep cx me cl (k_d s) op = Some (d', ob) /\ s' = KState d' (k_ctx s) w' lost' /\ o = map KObs ob.
Proof. unfold kflow. destruct (dstep cx me cl (k_d s) op) as [[d' ob]|]; [|discriminate]. intros [= <- <-]. eauto. Qed.
Lemma poll_end_result str str' wk : stream_poll sv str = (str', PEnd, wk) -> exists r, ss_result str = Some r.
Proof. unfold stream_poll. destruct (nth_error _ _); [discriminate|]. destruct (ss_result str); [eauto|discriminate]. Qed.
Lemma kstep_trans s op s' o : ks s op = Some (s', o) -> ktrans s op s' o.
Proof.
  intros E. destruct op as [op| |i| | | |]; cbn [kstep] in E.
  - assert (Hc : common op = true -> kflow cx me cl s op (k_w s) (k_lost s) = Some (s', o) -> (op = DRemote (RiAnswer None) -> k_w s <> None) -> ktrans s (KFlow op) s' o).
    { intros C F W. apply kflow_inv in F as (d' & ob & D & -> & ->). apply kt_common; assumption. }
    destruct op as [op|clients pick|i| |e]; try (apply Hc; [reflexivity|exact E|discriminate]).
    + destruct (dstep cx me cl (k_d s) (DPick clients pick)) as [[d' ob]|] eqn:D; [|discriminate]. destruct (ds_step (k_d s)) eqn:P; try discriminate. injection E as <- <-.
      eapply kt_pick; eassumption.
    + destruct i as [[e|]|l|r| | | |e|g [e|]]; try discriminate E; try (apply Hc; [reflexivity|exact E|discriminate]).
      * destruct (k_w s) as [w|] eqn:W; [|discriminate]. apply Hc; [reflexivity|exact E|]. discriminate.
      * apply kflow_inv in E as (d' & ob & D & -> & ->). apply kt_untold; assumption.
      * apply kflow_inv in E as (d' & ob & D & -> & ->). apply kt_told; assumption.
  - destruct (ds_task (k_d s)) as [[[r|] sg pd]|] eqn:T; try discriminate. destruct (k_ctx s) as [[rc srv]|] eqn:C; [|discriminate]. destruct (k_w s) eqn:W; [discriminate|]. injection E as <- <-.
    rewrite <- C. eapply kt_arrive; eassumption.
  - assert (Hx : exists c x str f b x' ob, (forall g, i <> XISignal g) /\ k_w s = Some (Worker c x [] str f b) /\ xstep c x i = Some (x', ob) /\
        s' = KState (k_d s) (k_ctx s) (Some (Worker c x' (flat_map worker_ops ob) str f b)) (k_lost s) /\ o = map KEff ob).
    { destruct i; try discriminate E; (destruct (k_w s) as [[c x [|] str f b]|]; try discriminate E; destruct (xstep c x _) as [[x' ob]|] eqn:X; [|discriminate E]; injection E as <- <-;
        exists c, x, str, f, b, x', ob; repeat split; try exact X; discriminate). }
    destruct Hx as (c & x & str & f & b & x' & ob & Hn & W & X & -> & ->). eapply kt_exec; eassumption.
  - destruct (k_w s) as [[c x [|ro rest] str f b]|] eqn:W; try discriminate. injection E as <- <-. apply kt_sender; assumption.
  - destruct (k_w s) as [[c x pd str f b]|] eqn:W; [|discriminate]. cbn [wk_fwd wk_str wk_conf wk_x wk_pend wk_listed set_fwd] in E. destruct f as [|l|r|]; try discriminate.
    + destruct (stream_poll sv str) as [[str' p] wk] eqn:P. destruct p as [l| |].
      * injection E as <- <-. eapply kt_item; eassumption.
      * destruct (poll_end_result _ _ _ P) as [r Hr]. rewrite Hr in E. injection E as <- <-. eapply kt_end; eassumption.
      * injection E as <- <-. eapply kt_pending; eassumption.
    + unfold kpost in E. destruct (posting s) eqn:P; try discriminate.
      * apply kflow_inv in E as (d' & ob & D & -> & ->). eapply kt_post; try eassumption. left. eauto.
      * injection E as <- <-. eapply kt_drop; try eassumption. left. eauto.
    + unfold kpost in E. destruct (posting s) eqn:P; try discriminate.
      * apply kflow_inv in E as (d' & ob & D & -> & ->). eapply kt_post; try eassumption. right. eauto.
      * injection E as <- <-. eapply kt_drop; try eassumption. right. eauto.
  - destruct (k_lost s) as [|g rest] eqn:L; [discriminate|]. destruct (k_w s) as [w|] eqn:W; [|discriminate]. injection E as <- <-. eapply kt_stray; eassumption.
  - destruct (k_w s) as [[c x pd str f b]|] eqn:W; [|discriminate]. injection E as <- <-. eapply kt_forget; eassumption.
Qed.
End Trans.

(** ** What the transitions do to the remote run *)
Section Rem.
Variables (cx : ectx) (me cl : task).
Lemma share_remote p t : dt_remote (share p t) = dt_remote t.
Proof. unfold share. destruct (phase_signal p); reflexivity. Qed.
Lemma dengine_remote d op d' ob : dengine cx me d op = Some (d', ob) -> the_remote d' = the_remote d.
Proof.
  unfold dengine. destruct (step_step _ _ _ _ _) as [[[sh' p'] o]|]; [|discriminate]. intros [= <- <-]. unfold the_remote. cbn. destruct (ds_task d); cbn; [apply share_remote|reflexivity].
Qed.
Lemma dstep_remote d op d' ob : dstep cx me cl d op = Some (d', ob) ->
  match op with
  | DRemote i => exists r r', the_remote d = Some r /\ the_remote d' = Some r' /\ remote_step r i = Some r'
  | DPick _ _ => ds_task d = None /\ (the_remote d' = None \/ the_remote d' = Some remote_init)
  | _ => the_remote d' = the_remote d
  end.
Proof.
  intros E. destruct op as [op|clients pick|i| |e]; cbn [dstep] in E.
  - destruct op as [|c'|[]| | | |x]; try discriminate E; try (eapply dengine_remote; exact E).
    destruct (ds_task d) as [[[?|] ? [|? ?]]|] eqn:T; try discriminate E; eapply dengine_remote; exact E.
  - destruct (ds_step d) eqn:P; try discriminate. destruct (ds_task d) eqn:T; [discriminate|]. split; [reflexivity|].
    destruct (client_start clients pick) as [[effs|m]|]; [| |discriminate]; injection E as <- <-; cbn; auto.
  - destruct (ds_task d) as [[[r|] sg pd]|] eqn:T; try discriminate. destruct (client_side i && _); [discriminate|]. destruct (remote_step r i) as [r'|] eqn:Er; [|discriminate].
    exists r, r'. unfold the_remote. rewrite T. split; [reflexivity|]. split; [|exact Er].
    destruct i as [err|l|rr| | | |e|g err]; try (injection E as <- <-; reflexivity).
    destruct (sig_poll cl sg) as [sg' [g'|]]; [|discriminate]. destruct (eqb g g'); [|discriminate]. injection E as <- <-. reflexivity.
  - destruct (ds_task d) as [[r sg [|o rest]]|] eqn:T; try discriminate. injection E as <- <-. unfold the_remote. rewrite T. reflexivity.
  - injection E as <- <-. reflexivity.
Qed.
(** What the client and the transport do to the phases. *)
Definition server_doing (i : rinput) : bool := match i with RiLog _ | RiResult _ | RiRunnerFails => true | _ => false end.
Lemma remote_phases r i r' : remote_step r i = Some r' -> server_doing i = false ->
  match i with
  | RiAnswer None => r_client r = RCall /\ r_client r' = RLoop /\ r_server r' = SvRunning
  | RiAnswer (Some _) => r_client r = RCall /\ r_client r' = RDone /\ r_server r' = r_server r
  | _ => r_client r = RLoop /\ r_client r' <> RCall /\ r_server r' = r_server r
  end.
Proof.
  intros E D. destruct i as [[e|]|l|rr| | | |e|g [e|]]; try discriminate D; cbn [remote_step] in E;
    try (destruct (r_wire r); try discriminate E); try (destruct (r_server r); try discriminate E); unfold client_gets in E; destruct (r_client r); cbn [client_step] in E; try discriminate E;
    try (destruct r0; try discriminate E); injection E as <-; cbn; repeat split; congruence.
Qed.
End Rem.

(** ** The executor and the server's stream *)
Lemma committed c ins x effs H pend rr : xrun c ins x effs -> unpolled H ++ pend = flat_map worker_ops effs -> ss_result (stream_after H) = Some rr ->
  pend = [] /\ xs_result x = Some rr /\ sent H = Local_spec.logs_of effs.
Proof.
  intros X E R. rewrite worker_is_sender, (x_sender _ _ _ _ X) in E. symmetry in E.
  destruct (result_from _ _ R) as (c0 & pre & mid & post & EH & _).
  assert (Hc : In (SEndCommit c0) (unpolled H)) by (apply in_unpolled; split; [|reflexivity]; rewrite EH; apply in_or_app; right; right; apply in_or_app; right; left; reflexivity).
  assert (Hk : In (SEndCheck c0 rr) (unpolled H)) by (apply in_unpolled; split; [|reflexivity]; rewrite EH; apply in_or_app; right; left; reflexivity).
  destruct (commit_all _ _ _ _ _ E Hc) as [Hp _]. subst pend. rewrite app_nil_r in E. split; [reflexivity|].
  rewrite <- E in Hk. apply check_result in Hk. split; [exact Hk|]. rewrite <- sent_unpolled, <- E, Local_proof.stream_of_app, sent_app, sent_log_ops, Hk. cbn. apply app_nil_r.
Qed.
Lemma committed_conv c ins x effs H rr : xrun c ins x effs -> unpolled H = flat_map worker_ops effs -> xs_result x = Some rr -> ss_result (stream_after H) = Some rr.
Proof.
  intros X E R. rewrite worker_is_sender, (x_sender _ _ _ _ X), R in E. destruct (result_unpolled H) as [<- _]. rewrite E, Local_proof.stream_of_app.
  change (Local_proof.stream_of (end_ops (Some rr))) with [SEndCheck 0 rr; SEndCommit 0]. rewrite stream_after_app. cbn [fold_left].
  assert (N : forall ls, ss_result (stream_after (Local_proof.stream_of (map log_op ls))) = None /\ ss_enders (stream_after (Local_proof.stream_of (map log_op ls))) = []).
  { induction ls as [|l ls IH] using rev_ind; [split; reflexivity|]. rewrite map_app, Local_proof.stream_of_app. change (Local_proof.stream_of (map log_op [l])) with (lst (runner_stream_op (log_op l)) ++ []).
    rewrite app_nil_r. destruct l as [[] m]; cbn [log_op runner_stream_op lst]; rewrite stream_after_snoc; exact IH. }
  destruct (N (Local_spec.logs_of effs)) as [N1 N2]. cbn [stream_step fst]. unfold stream_end_check. rewrite N1. unfold stream_end_commit. cbn [ss_enders]. rewrite N2. reflexivity.
Qed.

(** ** The invariant *)
Definition fwd_state (H : list stream_op) (f : fphase) (q : list response) : Prop :=
  match f with
  | FNext => q = map RspLog (got H)
  | FSend l => exists g, got H = g ++ [l] /\ q = map RspLog g
  | FResult r => q = map RspLog (got H) /\ got H = sent H /\ ss_result (stream_after H) = Some r
  | FDone => exists r, q = map RspLog (got H) ++ [RspResult r] /\ got H = sent H /\ ss_result (stream_after H) = Some r
  end.
Definition relay (r : remote) (q : list response) (f : fphase) (snt : list response) : Prop :=
  match r_server r with
  | SvIdle => snt = [] /\ (r_client r = RDone \/ (r_client r = RCall /\ q = []))
  | SvRunning => snt = q /\ f <> FDone /\ r_client r <> RCall
  | SvDone => snt = q /\ f = FDone /\ r_client r <> RCall
  end.
Section Inv.
Variables (cx : ectx) (me cl sv : task) (rhooks : runner_meta -> run_context -> run_context) (conf : runner_meta -> run_context -> xconf) (st0 : step).
Notation ks := (kstep cx me cl sv rhooks conf).
Notation hist := (khist cx me cl sv rhooks conf st0).
Record kinv (ops : list kop) (s : kstate) (tr : list kobs) (dops : list dop) (gs : list signal) (ins : list xinput) : Prop := {
  ki_d : dhist cx me cl st0 dops (k_d s) (k_events tr) gs;
  ki_ctx : forall rc srv, k_ctx s = Some (rc, srv) -> exists st, hooked st0 st /\ rc = given cx st /\ In (ORun rc) (k_events tr);
  ki_sig : (forall g, In g (raised ins) \/ In g (k_lost s) -> In g (attempts (remote_events dops))) /\ length (raised ins) + length (k_lost s) <= length (attempts (remote_events dops));
  ki_none : k_w s = None -> ins = [] /\ k_effects tr = [] /\ server_sent (remote_events dops) = [] /\
    (forall r, the_remote (k_d s) = Some r -> r_server r = SvIdle /\ r_client r <> RLoop);
  ki_w : forall w, k_w s = Some w -> xrun (wk_conf w) ins (wk_x w) (k_effects tr) /\ (exists rc srv, k_ctx s = Some (rc, srv) /\ wk_conf w = conf srv (rhooks srv rc)) /\
    exists r H q, the_remote (k_d s) = Some r /\ wk_str w = stream_after H /\ unpolled H ++ wk_pend w = flat_map worker_ops (k_effects tr) /\
      fwd_state H (wk_fwd w) q /\ relay r q (wk_fwd w) (server_sent (remote_events dops));
  ki_heard : ~ In KForget ops -> (forall w, k_w s = Some w -> wk_listed w = true) /\ forall g, In (RiSignal g None) (remote_events dops) -> In (XISignal g) ins }.

Lemma not_snoc {A} (x : A) l y : ~ In x (l ++ [y]) -> ~ In x l /\ y <> x.
Proof. rewrite in_app_iff. cbn. intuition congruence. Qed.
Lemma raise_run c ins x effs g : xrun c ins x effs -> xrun c (ins ++ [XISignal g]) (XState (xs_phase x) (match xs_signal x with Some s => Some s | None => Some g end) (xs_result x)) effs.
Proof.
  intros X. rewrite <- (app_nil_r effs). eapply xrun_step; [exact X|]. destruct x as [ph xs res]. cbn [xstep xs_phase xs_signal xs_result]. destruct xs; reflexivity.
Qed.
Lemma events_one op : remote_events [op] = match op with DRemote i => [i] | _ => [] end.
Proof. destruct op; reflexivity. Qed.
Lemma quiet_sent i : server_doing i = false -> server_sent [i] = [].
Proof. destruct i; try discriminate; reflexivity. Qed.
Lemma relay_keep r i r' q f snt : remote_step r i = Some r' -> server_doing i = false -> (f = FDone -> q <> []) -> relay r q f snt -> relay r' q f snt.
Proof.
  intros E D Q R. assert (P := remote_phases _ _ _ E D). unfold relay in *.
  assert (K : (r_client r = RCall /\ r_client r' = RLoop /\ r_server r' = SvRunning) \/ (r_client r = RCall /\ r_client r' = RDone /\ r_server r' = r_server r) \/
              (r_client r = RLoop /\ r_client r' <> RCall /\ r_server r' = r_server r)) by (destruct i as [[]| | | | | | |]; auto; discriminate D).
  clear P E D. destruct K as [(K1 & K2 & K3)|[(K1 & K2 & K3)|(K1 & K2 & K3)]]; rewrite K3.
  - destruct (r_server r); [|destruct R as (_ & _ & R); congruence|destruct R as (_ & _ & R); congruence].
    destruct R as [-> [R|[_ R]]]; [congruence|]. split; [congruence|]. split; [|congruence]. intros C. exact (Q C R).
  - destruct (r_server r); [destruct R as [-> _]; auto|destruct R as (_ & _ & R); congruence|destruct R as (_ & _ & R); congruence].
  - destruct (r_server r); [destruct R as [_ [R|[R _]]]; congruence| |]; destruct R as (R1 & R2 & _); auto.
Qed.
Lemma done_nonempty H f q : fwd_state H f q -> f = FDone -> q <> [].
Proof. intros F ->. cbn in F. destruct F as (r & -> & _). intros C. apply app_eq_nil in C as [_ C]. discriminate C. Qed.
Lemma posting_eq s : posting s = match the_remote (k_d s) with Some r => match r_server r, r_client r with SvRunning, _ => Posted | _, RDone => Dropped | _, _ => Waits end | None => Waits end.
Proof. unfold posting, the_remote. destruct (ds_task (k_d s)) as [[[r|] sg pd]|]; reflexivity. Qed.

(** Polling the server's stream. *)
Lemma poll_item H str' l wk : stream_poll sv (stream_after H) = (str', PItem l, wk) -> str' = stream_after (H ++ [SPoll sv]) /\ got (H ++ [SPoll sv]) = got H ++ [l].
Proof.
  intros P. rewrite stream_after_snoc, got_snoc. unfold stream_output. cbn [stream_step fst snd]. rewrite P. cbn. auto.
Qed.
Lemma poll_other H str' p wk : stream_poll sv (stream_after H) = (str', p, wk) -> (forall l, p <> PItem l) ->
  str' = stream_after (H ++ [SPoll sv]) /\ got (H ++ [SPoll sv]) = got H /\ got H = sent H /\ sent (H ++ [SPoll sv]) = sent H.
Proof.
  intros P Hp. rewrite stream_after_snoc, got_snoc, sent_app. cbn [sent]. rewrite app_nil_r. destruct (poll_outcome H sv) as (_ & P2 & P3). unfold stream_output in *. cbn [stream_step fst snd] in *. rewrite P in *. cbn in *.
  destruct p as [l| |]; [destruct (Hp l eq_refl)| |]; (split; [reflexivity|]); (split; [apply app_nil_r|]); (split; [|reflexivity]); [apply P2|apply P3]; reflexivity.
Qed.
Lemma unpolled_poll H : unpolled (H ++ [SPoll sv]) = unpolled H.
Proof. rewrite unpolled_app. cbn. apply app_nil_r. Qed.
Lemma got_other H o : spoll_b o = false -> got (H ++ [o]) = got H.
Proof. intros Ho. rewrite got_snoc. unfold stream_output. destruct o; try discriminate Ho; cbn; unfold stream_log, stream_error; cbn; try apply app_nil_r. destruct (stream_end_commit _ _). cbn. apply app_nil_r. Qed.
Lemma result_poll H : ss_result (stream_after (H ++ [SPoll sv])) = ss_result (stream_after H).
Proof. rewrite stream_after_snoc. apply (stream_poll_keeps sv). Qed.

Lemma khist_inv ops s tr dops gs ins : hist ops s tr dops gs ins -> kinv ops s tr dops gs ins.
Proof.
  induction 1 as [sh|ops s tr dops gs ins op s' o R IH E].
  { split; cbn; try discriminate; auto; [constructor|split; [intros g [[]|[]]|lia]|intros _; repeat split; discriminate|intros _; split; [discriminate|intros g []]]. }
  destruct IH as [Hd Hctx [Hs1 Hs2] Hnone Hw Hheard]. apply kstep_trans in E. inv E.
  - (* engine, client, transport *)
    cbn [outward flat_map]. rewrite app_nil_r.
    assert (Hin : inward s (KFlow op0) = []) by (destruct op0 as [| |[]| |]; try reflexivity; discriminate). rewrite Hin, app_nil_r.
    assert (Hat : attempts (remote_events [op0]) = []) by (destruct op0 as [| |[]| |]; try reflexivity; discriminate).
    assert (Hss : server_sent (remote_events [op0]) = []) by (destruct op0 as [| |[]| |]; try reflexivity; discriminate).
    assert (Hsig : forall g, ~ In (RiSignal g None) (remote_events [op0])) by (intros g; destruct op0 as [| |[]| |]; cbn; intuition discriminate).
    assert (Hsent : server_sent (remote_events (dops ++ [op0])) = server_sent (remote_events dops)) by (rewrite events_app; unfold server_sent in *; rewrite flat_map_app, Hss, app_nil_r; reflexivity).
    assert (Hrem := dstep_remote _ _ _ _ _ _ _ H0).
    split; cbn [k_d k_ctx k_w k_lost]; rewrite ?kev_app, ?kev_obs, ?kef_app, ?kef_obs, ?app_nil_r, ?Hsent.
    + eapply dhist_step; eassumption.
    + intros rc srv Hrc. destruct (Hctx rc srv Hrc) as (st & A & B & C). exists st. split; [exact A|]. split; [exact B|]. apply in_or_app. left. exact C.
    + rewrite events_app, attempts_app, Hat, app_nil_r. auto.
    + intros N. destruct (Hnone N) as (N1 & N2 & N3 & N4). split; [exact N1|]. split; [exact N2|]. split; [exact N3|]. intros r Hr.
      destruct op0 as [op0|clients pick|i| |e]; try discriminate H; try (apply N4; congruence).
      destruct Hrem as (r0 & r1 & Q1 & Q2 & Q3). rewrite Q2 in Hr. injection Hr as <-. destruct (N4 _ Q1) as [Q4 Q5].
      assert (Hsd : server_doing i = false) by (destruct i; try discriminate H; reflexivity). assert (P := remote_phases _ _ _ Q3 Hsd).
      destruct i as [[e|]|l|rr| | | |e|g err]; try (destruct P as (P & _); congruence).
      * destruct P as (P1 & P2 & P3). split; congruence.
      * destruct (H1 eq_refl N).
    + intros w W. destruct (Hw w W) as (X & C & r & Hh & q & Q1 & Q2 & Q3 & Q4 & Q5). split; [exact X|]. split; [exact C|].
      destruct op0 as [op0|clients pick|i| |e]; try discriminate H; try (exists r, Hh, q; rewrite Hrem; auto 6).
      destruct Hrem as (r0 & r1 & P1 & P2 & P3). rewrite Q1 in P1. injection P1 as <-. exists r1, Hh, q. split; [exact P2|]. split; [exact Q2|]. split; [exact Q3|]. split; [exact Q4|].
      eapply relay_keep; [exact P3|destruct i; try discriminate H; reflexivity|eapply done_nonempty; exact Q4|exact Q5].
    + intros N. apply not_snoc in N as [N _]. destruct (Hheard N) as [L1 L2]. split; [exact L1|]. intros g. rewrite events_app, in_app_iff. intros [G|G]; [auto|destruct (Hsig g G)].
  - (* the scheduler answers *)
    cbn [outward inward flat_map]. rewrite !app_nil_r. destruct (dstep_remote _ _ _ _ _ _ _ H) as [T Rm].
    assert (N : k_w s = None).
    { destruct (k_w s) as [w|] eqn:W; [|reflexivity]. destruct (Hw w eq_refl) as (_ & _ & r & _ & _ & Q & _). unfold the_remote in Q. rewrite T in Q. discriminate Q. }
    destruct (Hnone N) as (N1 & N2 & N3 & N4).
    split; cbn [k_d k_ctx k_w k_lost]; rewrite ?kev_app, ?kev_obs, ?kef_app, ?kef_obs, ?app_nil_r, ?events_app; rewrite ?events_one, ?app_nil_r.
    + eapply dhist_step; eassumption.
    + intros rc srv Hrc.
      assert (Hrc' : rc = given cx st \/ k_ctx s = Some (rc, srv)) by (destruct (client_start clients pick) as [[|]|]; [right|left|right]; congruence).
      destruct Hrc' as [->|Hrc']; [|destruct (Hctx rc srv Hrc') as (st1 & A & B & C); exists st1; split; [exact A|]; split; [exact B|]; apply in_or_app; left; exact C].
      destruct (dhist_inv _ _ _ _ _ _ _ _ Hd) as [(ls & more & Rr & _) _ _ _ _]. rewrite H0 in Rr. apply srun_inv in Rr. cbn [sinv] in Rr. destruct Rr as (Hst & _ & Htr & _).
      exists st. split; [exact Hst|]. split; [reflexivity|]. apply in_or_app. left. rewrite Htr. cbn. auto.
    + auto.
    + intros _. split; [exact N1|]. split; [exact N2|]. split; [exact N3|]. intros r Hr. destruct Rm as [Rm|Rm]; rewrite Rm in Hr; [discriminate|]. injection Hr as <-. cbn. split; [reflexivity|discriminate].
    + intros w W. congruence.
    + intros K. apply not_snoc in K as [K _]. exact (Hheard K).
  - (* the signal is passed on *)
    cbn [outward inward flat_map]. rewrite app_nil_r. destruct (dstep_remote _ _ _ _ _ _ _ H) as (r & r' & P1 & P2 & P3).
    assert (Ph := remote_phases _ _ _ P3 eq_refl). cbn in Ph. destruct Ph as (Ph1 & Ph2 & Ph3).
    destruct (k_w s) as [w|] eqn:W; [|destruct (Hnone eq_refl) as (_ & _ & _ & N4); destruct (N4 _ P1); congruence].
    destruct (Hw w eq_refl) as (X & C & r0 & Hh & q & Q1 & Q2 & Q3 & Q4 & Q5). rewrite P1 in Q1. injection Q1 as <-.
    split; cbn [k_d k_ctx k_w k_lost option_map]; rewrite ?kev_app, ?kev_obs, ?kef_app, ?kef_obs, ?app_nil_r, ?events_app; rewrite ?events_one.
    + eapply dhist_step; eassumption.
    + intros rc srv Hrc. destruct (Hctx rc srv Hrc) as (st & A & B & D). exists st. split; [exact A|]. split; [exact B|]. apply in_or_app. left. exact D.
    + rewrite attempts_app, raised_app, !app_length. cbn [attempts flat_map app length].
      assert (Hl : length (raised (if wk_listed w then [XISignal g] else [])) <= 1) by (destruct (wk_listed w); cbn; lia).
      split; [|lia]. intros g0. rewrite !in_app_iff. intros [[K|K]|K]; [left; auto| |left; auto]. right. destruct (wk_listed w); cbn in K; [destruct K as [<-|[]]; left; reflexivity|contradiction].
    + discriminate.
    + intros w' [= <-].
      assert (Hs : server_sent (remote_events dops ++ [RiSignal g None]) = server_sent (remote_events dops)) by (rewrite server_sent_snoc; apply app_nil_r).
      assert (Rk := relay_keep _ _ _ _ _ _ P3 eq_refl (done_nonempty _ _ _ Q4) Q5).
      unfold raise_at. destruct w as [c x pd str f []]; cbn [wk_listed wk_conf wk_x wk_pend wk_str wk_fwd] in *.
      * split; [apply raise_run; exact X|]. split; [exact C|]. exists r', Hh, q. rewrite Hs. auto.
      * rewrite app_nil_r. split; [exact X|]. split; [exact C|]. exists r', Hh, q. rewrite Hs. auto.
    + intros K. apply not_snoc in K as [K _]. destruct (Hheard K) as [L1 L2]. assert (L := L1 w eq_refl). rewrite L. split.
      * intros w' [= <-]. unfold raise_at. rewrite L. reflexivity.
      * intros g0. rewrite !in_app_iff. intros [G|[G|[]]]; [left; auto|right]. injection G as <-. left. reflexivity.
  - (* its passing on fails for the client *)
    cbn [outward inward flat_map]. rewrite !app_nil_r. destruct (dstep_remote _ _ _ _ _ _ _ H) as (r & r' & P1 & P2 & P3).
    assert (Ph := remote_phases _ _ _ P3 eq_refl). cbn in Ph. destruct Ph as (Ph1 & Ph2 & Ph3).
    assert (Hs : server_sent (remote_events dops ++ [RiSignal g (Some e)]) = server_sent (remote_events dops)) by (rewrite server_sent_snoc; apply app_nil_r).
    split; cbn [k_d k_ctx k_w k_lost]; rewrite ?kev_app, ?kev_obs, ?kef_app, ?kef_obs, ?app_nil_r, ?events_app; rewrite ?events_one, ?Hs.
    + eapply dhist_step; eassumption.
    + intros rc srv Hrc. destruct (Hctx rc srv Hrc) as (st & A & B & D). exists st. split; [exact A|]. split; [exact B|]. apply in_or_app. left. exact D.
    + rewrite attempts_app, !app_length. cbn [attempts flat_map app length]. split; [|lia]. intros g0. rewrite !in_app_iff. intros [K|[K|[<-|[]]]]; [left; auto|left; auto|right; left; reflexivity].
    + intros N. destruct (Hnone N) as (_ & _ & _ & N4). destruct (N4 _ P1). congruence.
    + intros w W. destruct (Hw w W) as (X & C & r0 & Hh & q & Q1 & Q2 & Q3 & Q4 & Q5). rewrite P1 in Q1. injection Q1 as <-. split; [exact X|]. split; [exact C|]. exists r', Hh, q.
      split; [exact P2|]. split; [exact Q2|]. split; [exact Q3|]. split; [exact Q4|]. eapply relay_keep; [exact P3|reflexivity|eapply done_nonempty; exact Q4|exact Q5].
    + intros K. apply not_snoc in K as [K _]. destruct (Hheard K) as [L1 L2]. split; [exact L1|]. intros g0. rewrite in_app_iff. intros [G|[G|[]]]; [auto|discriminate].
  - (* the call arrives *)
    cbn [outward inward flat_map]. rewrite !app_nil_r. destruct (Hnone H1) as (N1 & N2 & N3 & N4).
    split; cbn [k_d k_ctx k_w k_lost]; try assumption.
    + auto.
    + discriminate.
    + intros w [= <-]. cbn [wk_conf wk_x wk_pend wk_str wk_fwd]. rewrite N1, N2, N3. split; [constructor|]. split; [eauto|]. exists r, [], []. assert (Hr : the_remote (k_d s) = Some r) by (unfold the_remote; rewrite H; reflexivity).
      destruct (N4 r Hr) as [N5 N6]. repeat split; auto. unfold relay. rewrite N5. split; [reflexivity|]. destruct (r_client r); auto; congruence.
    + intros K. apply not_snoc in K as [K _]. destruct (Hheard K) as [L1 L2]. split; [intros w [= <-]; reflexivity|exact L2].
  - (* the executor *)
    cbn [outward inward flat_map]. rewrite !app_nil_r. destruct (Hw _ H0) as (X & C & r & Hh & q & Q1 & Q2 & Q3 & Q4 & Q5). cbn [wk_conf wk_x wk_pend wk_str wk_fwd] in *.
    assert (Hr : raised [i] = []) by (destruct i; try reflexivity; destruct (H s0 eq_refl)).
    split; cbn [k_d k_ctx k_w k_lost]; rewrite ?kev_app, ?kev_eff, ?kef_app, ?kef_eff, ?app_nil_r; try assumption.
    + rewrite raised_app, Hr, app_nil_r. auto.
    + discriminate.
    + intros w [= <-]. cbn [wk_conf wk_x wk_pend wk_str wk_fwd]. split; [eapply xrun_step; eassumption|]. split; [exact C|]. exists r, Hh, q. rewrite flat_map_app, <- Q3, app_nil_r. auto.
    + intros K. apply not_snoc in K as [K _]. destruct (Hheard K) as [L1 L2]. split; [intros w [= <-]; exact (L1 _ H0)|]. intros g G. apply in_or_app. left. auto.
  - (* a lock section of a stream call *)
    cbn [outward inward flat_map]. rewrite !app_nil_r. destruct (Hw _ H) as (X & C & r & Hh & q & Q1 & Q2 & Q3 & Q4 & Q5). cbn [wk_conf wk_x wk_pend wk_str wk_fwd] in *.
    assert (Hp : spoll_b o0 = false).
    { assert (In o0 (flat_map worker_ops (k_effects tr))) as G by (rewrite <- Q3; apply in_or_app; right; left; reflexivity). apply in_flat_map in G as (e & _ & G).
      destruct e as [ | | |[[] m]| | | |]; cbn in G; repeat (destruct G as [<-|G]; [reflexivity|]); contradiction. }
    assert (Hn : forall rr, ss_result (stream_after Hh) <> Some rr) by (intros rr Hrr; destruct (committed _ _ _ _ _ _ _ X Q3 Hrr) as [Z _]; discriminate Z).
    split; cbn [k_d k_ctx k_w k_lost]; try assumption.
    + auto.
    + discriminate.
    + intros w [= <-]. cbn [wk_conf wk_x wk_pend wk_str wk_fwd]. split; [exact X|]. split; [exact C|]. exists r, (Hh ++ [o0]), q. rewrite Q2, stream_after_snoc, unpolled_app.
      assert (Hu : unpolled [o0] = [o0]) by (cbn; rewrite Hp; reflexivity). rewrite Hu, <- app_assoc. split; [exact Q1|]. split; [reflexivity|]. split; [exact Q3|]. split; [|exact Q5].
      unfold fwd_state in *. rewrite (got_other _ _ Hp). destruct f as [|l|rr|]; try exact Q4; [destruct Q4 as (_ & _ & Z); destruct (Hn _ Z)|destruct Q4 as (rr & _ & _ & Z); destruct (Hn _ Z)].
    + intros K. apply not_snoc in K as [K _]. destruct (Hheard K) as [L1 L2]. split; [intros w [= <-]; exact (L1 _ H)|exact L2].
  - (* the server's task reads a line *)
    assert (Ho : outward s KForward = []) by (cbn [outward]; rewrite H; cbn [wk_fwd]; destruct (posting s); reflexivity). rewrite Ho. cbn [inward flat_map]. rewrite !app_nil_r.
    destruct (Hw _ H) as (X & C & r & Hh & q & Q1 & Q2 & Q3 & Q4 & Q5). cbn [wk_conf wk_x wk_pend wk_str wk_fwd] in *. rewrite Q2 in H0. destruct (poll_item _ _ _ _ H0) as [G1 G2].
    split; cbn [k_d k_ctx k_w k_lost]; try assumption.
    + auto.
    + discriminate.
    + intros w [= <-]. cbn [wk_conf wk_x wk_pend wk_str wk_fwd]. split; [exact X|]. split; [exact C|]. exists r, (Hh ++ [SPoll sv]), q. rewrite unpolled_poll. split; [exact Q1|]. split; [exact G1|]. split; [exact Q3|].
      split; [exists (got Hh); auto|]. unfold relay in *. destruct (r_server r); [exact Q5| |]; destruct Q5 as (Z1 & Z2 & Z3); [|discriminate Z2]. split; [exact Z1|]. split; [discriminate|exact Z3].
    + intros K. apply not_snoc in K as [K _]. destruct (Hheard K) as [L1 L2]. split; [intros w [= <-]; exact (L1 _ H)|exact L2].
  - (* or finds none *)
    assert (Ho : outward s KForward = []) by (cbn [outward]; rewrite H; cbn [wk_fwd]; destruct (posting s); reflexivity). rewrite Ho. cbn [inward flat_map]. rewrite !app_nil_r.
    destruct (Hw _ H) as (X & C & r & Hh & q & Q1 & Q2 & Q3 & Q4 & Q5). cbn [wk_conf wk_x wk_pend wk_str wk_fwd] in *. rewrite Q2 in H0. destruct (poll_other _ _ _ _ H0) as (G1 & G2 & G3 & G4); [discriminate|].
    split; cbn [k_d k_ctx k_w k_lost]; try assumption.
    + auto.
    + discriminate.
    + intros w [= <-]. cbn [wk_conf wk_x wk_pend wk_str wk_fwd]. split; [exact X|]. split; [exact C|]. exists r, (Hh ++ [SPoll sv]), q. rewrite unpolled_poll. split; [exact Q1|]. split; [exact G1|]. split; [exact Q3|].
      split; [|exact Q5]. cbn [fwd_state] in *. rewrite G2. exact Q4.
    + intros K. apply not_snoc in K as [K _]. destruct (Hheard K) as [L1 L2]. split; [intros w [= <-]; exact (L1 _ H)|exact L2].
  - (* or the end *)
    assert (Ho : outward s KForward = []) by (cbn [outward]; rewrite H; cbn [wk_fwd]; destruct (posting s); reflexivity). rewrite Ho. cbn [inward flat_map]. rewrite !app_nil_r.
    destruct (Hw _ H) as (X & C & r0 & Hh & q & Q1 & Q2 & Q3 & Q4 & Q5). cbn [wk_conf wk_x wk_pend wk_str wk_fwd] in *. rewrite Q2 in H0, H1. destruct (poll_other _ _ _ _ H0) as (G1 & G2 & G3 & G4); [discriminate|].
    split; cbn [k_d k_ctx k_w k_lost]; try assumption.
    + auto.
    + discriminate.
    + intros w [= <-]. cbn [wk_conf wk_x wk_pend wk_str wk_fwd]. split; [exact X|]. split; [exact C|]. exists r0, (Hh ++ [SPoll sv]), q. rewrite unpolled_poll. split; [exact Q1|]. split; [exact G1|]. split; [exact Q3|].
      split; [|unfold relay in *; destruct (r_server r0); [exact Q5| |]; destruct Q5 as (Z1 & Z2 & Z3); [|discriminate Z2]; split; [exact Z1|]; split; [discriminate|exact Z3]].
      cbn [fwd_state] in *. rewrite G2, G4, result_poll. auto.
    + intros K. apply not_snoc in K as [K _]. destruct (Hheard K) as [L1 L2]. split; [intros w [= <-]; exact (L1 _ H)|exact L2].
  - (* a response is sent *)
    assert (Ho : outward s KForward = [DRemote i]).
    { cbn [outward]. rewrite H, H0. cbn [wk_fwd]. destruct H1 as [(l & -> & -> & _)|(r & -> & -> & _)]; reflexivity. }
    rewrite Ho. cbn [inward flat_map]. rewrite !app_nil_r. destruct (dstep_remote _ _ _ _ _ _ _ H2) as (r & r' & P1 & P2 & P3).
    destruct (Hw _ H) as (X & C & r0 & Hh & q & Q1 & Q2 & Q3 & Q4 & Q5). cbn [wk_conf wk_x wk_pend wk_str wk_fwd] in *. rewrite P1 in Q1. injection Q1 as <-.
    rewrite posting_eq, P1 in H0.
    assert (Hsv : r_server r = SvRunning) by (destruct (r_server r), (r_client r); try discriminate H0; reflexivity). unfold relay in Q5. rewrite Hsv in Q5. destruct Q5 as (Z1 & Z2 & Z3).
    assert (Hsig : (forall g err, i <> RiSignal g err)) by (destruct H1 as [(l & _ & -> & _)|(rr & _ & -> & _)]; discriminate).
    assert (Hat : attempts [i] = []) by (destruct H1 as [(l & _ & -> & _)|(rr & _ & -> & _)]; reflexivity).
    split; cbn [k_d k_ctx k_w k_lost]; rewrite ?kev_app, ?kev_obs, ?kef_app, ?kef_obs, ?app_nil_r, ?events_app; rewrite ?events_one.
    + eapply dhist_step; eassumption.
    + intros rc srv Hrc. destruct (Hctx rc srv Hrc) as (st & A & B & D). exists st. split; [exact A|]. split; [exact B|]. apply in_or_app. left. exact D.
    + rewrite attempts_app, Hat, app_nil_r. auto.
    + discriminate.
    + intros w [= <-]. cbn [wk_conf wk_x wk_pend wk_str wk_fwd]. split; [exact X|]. split; [exact C|]. rewrite server_sent_snoc, Z1.
      destruct H1 as [(l & -> & -> & ->)|(rr & -> & -> & ->)]; cbn [remote_step] in P3; rewrite Hsv in P3; injection P3 as <-; cbn [fwd_state] in Q4.
      * destruct Q4 as (g & Q4 & ->). exists (Remote (r_client r) SvRunning (r_wire r ++ [RspLog l]) (r_effs r) (r_sent r)), Hh, (map RspLog g ++ [RspLog l]).
        split; [exact P2|]. split; [exact Q2|]. split; [exact Q3|]. split; [cbn; rewrite Q4, map_app; reflexivity|]. unfold relay. cbn. split; [reflexivity|]. split; [discriminate|exact Z3].
      * destruct Q4 as (-> & Q4 & Q6). eexists _, Hh, (map RspLog (got Hh) ++ [RspResult rr]). split; [exact P2|]. split; [exact Q2|]. split; [exact Q3|]. split; [exists rr; auto|]. unfold relay. cbn. auto.
    + intros K. apply not_snoc in K as [K _]. destruct (Hheard K) as [L1 L2]. split; [intros w [= <-]; exact (L1 _ H)|]. intros g. rewrite in_app_iff. intros [G|[G|[]]]; [auto|]. destruct (Hsig _ _ G).
  - (* or cannot be sent *)
    assert (Ho : outward s KForward = []) by (cbn [outward]; rewrite H, H0; reflexivity). rewrite Ho. cbn [inward flat_map]. rewrite !app_nil_r.
    destruct (Hw _ H) as (X & C & r & Hh & q & Q1 & Q2 & Q3 & Q4 & Q5). cbn [wk_conf wk_x wk_pend wk_str wk_fwd] in *. rewrite posting_eq, Q1 in H0. unfold relay in Q5.
    assert (Hs : r_server r = SvIdle /\ r_client r = RDone).
    { destruct (r_server r); [|discriminate|]. { destruct (r_client r); try discriminate. auto. } destruct Q5 as (_ & Z & _). exfalso. destruct H1 as [(l & -> & _)|(rr & -> & _)]; discriminate Z. }
    destruct Hs as [Hs1' Hs2']. rewrite Hs1' in Q5. destruct Q5 as (Z1 & _).
    split; cbn [k_d k_ctx k_w k_lost]; try assumption.
    + auto.
    + discriminate.
    + intros w [= <-]. cbn [wk_conf wk_x wk_pend wk_str wk_fwd]. split; [exact X|]. split; [exact C|].
      assert (Rl : forall q' f'', relay r q' f'' (server_sent (remote_events dops))) by (intros; unfold relay; rewrite Hs1'; auto).
      destruct H1 as [(l & -> & ->)|(rr & -> & ->)]; cbn [fwd_state] in Q4.
      * eexists r, Hh, _. split; [exact Q1|]. split; [exact Q2|]. split; [exact Q3|]. split; [reflexivity|]. apply Rl.
      * destruct Q4 as (-> & Q4 & Q6). eexists r, Hh, _. split; [exact Q1|]. split; [exact Q2|]. split; [exact Q3|]. split; [exists rr; eauto|]. apply Rl.
    + intros K. apply not_snoc in K as [K _]. destruct (Hheard K) as [L1 L2]. split; [intros w [= <-]; exact (L1 _ H)|exact L2].
  - (* a signal arrives late *)
    cbn [outward inward flat_map]. rewrite H, H0, !app_nil_r. rewrite H in Hs1, Hs2.
    destruct (Hw w H0) as (X & C & r & Hh & q & Q1 & Q2 & Q3 & Q4 & Q5).
    split; cbn [k_d k_ctx k_w k_lost]; try assumption.
    + rewrite raised_app, app_length. cbn [length] in Hs2. assert (Hl : length (raised (if wk_listed w then [XISignal g] else [])) <= 1) by (destruct (wk_listed w); cbn; lia).
      split; [|lia]. intros g0. rewrite in_app_iff. intros [[K|K]|K]; [auto| |apply Hs1; right; right; exact K]. destruct (wk_listed w); cbn in K; [destruct K as [<-|[]]; apply Hs1; right; left; reflexivity|contradiction].
    + discriminate.
    + intros w' [= <-]. unfold raise_at. destruct w as [c x pd str f []]; cbn [wk_listed wk_conf wk_x wk_pend wk_str wk_fwd] in *.
      * split; [apply raise_run; exact X|]. split; [exact C|]. exists r, Hh, q. auto.
      * rewrite app_nil_r. split; [exact X|]. split; [exact C|]. exists r, Hh, q. auto.
    + intros K. apply not_snoc in K as [K _]. destruct (Hheard K) as [L1 L2]. split.
      * intros w' [= <-]. unfold raise_at. rewrite (L1 w H0). reflexivity.
      * intros g0 G. apply in_or_app. left. auto.
  - (* the server forgets the signal *)
    cbn [outward inward flat_map]. rewrite !app_nil_r. destruct (Hw _ H) as (X & C & r & Hh & q & Q). cbn [wk_conf wk_x wk_pend wk_str wk_fwd] in *.
    split; cbn [k_d k_ctx k_w k_lost]; try assumption.
    + auto.
    + discriminate.
    + intros w [= <-]. cbn [wk_conf wk_x wk_pend wk_str wk_fwd]. split; [exact X|]. split; [exact C|]. exists r, Hh, q. exact Q.
    + intros K. apply not_snoc in K as [_ K]. destruct (K eq_refl).
Qed.
End Inv.

(** ** Consequences *)
Lemma says_shape c ins x tr : xrun c ins x tr -> says tr = map RspLog (Local_spec.logs_of tr) ++ match xs_result x with Some r => [RspResult r] | None => [] end.
Proof.
  assert (Sl : forall ls, says (map EfLog ls) = map RspLog ls) by (induction ls as [|l ls IH]; cbn; [reflexivity|]; f_equal; exact IH).
  induction 1 as [|ins x tr i x' o R IH E]; [reflexivity|]. rewrite logs_app, map_app. unfold says in *. rewrite flat_map_app, IH. fold (says o).
  assert (Rp := x_result_phase _ _ _ _ R). clear R IH. apply xstep_trans in E.
  inv E; cbn [xs_phase xs_result xs_signal] in *; try (cbn; rewrite ?app_nil_r; reflexivity).
  1: { subst res. rewrite !app_nil_r, Sl, logs_of_logs. reflexivity. }
  all: match goal with H : x_end _ ?r = _ |- _ => destruct r; cbn in H; injection H as <- <- end; cbn; rewrite ?app_nil_r; reflexivity.
Qed.
Lemma sent_upto c ins x effs H pend : xrun c ins x effs -> unpolled H ++ pend = flat_map worker_ops effs -> exists rest, Local_spec.logs_of effs = sent H ++ rest.
Proof.
  intros X E. rewrite worker_is_sender, (x_sender _ _ _ _ X) in E. exists (sent pend). rewrite <- (sent_unpolled H), <- sent_app, E, Local_proof.stream_of_app, sent_app, sent_log_ops.
  destruct (xs_result x); cbn; rewrite app_nil_r; reflexivity.
Qed.
Section Thm.
Variables (cx : ectx) (me cl sv : task) (rhooks : runner_meta -> run_context -> run_context) (conf : runner_meta -> run_context -> xconf) (st0 : step).
Notation ks := (kstep cx me cl sv rhooks conf).
Notation hist := (khist cx me cl sv rhooks conf st0).
Lemma relayed ops s tr dops gs ins : hist ops s tr dops gs ins -> exists rest, says (k_effects tr) = server_sent (remote_events dops) ++ rest.
Proof.
  intros H. apply khist_inv in H as [_ _ _ Hnone Hw _]. destruct (k_w s) as [w|].
  - destruct (Hw w eq_refl) as (X & _ & r & H & q & _ & _ & E & F & Rl). rewrite (says_shape _ _ _ _ X).
    assert (Hq : exists rest, map RspLog (Local_spec.logs_of (k_effects tr)) ++ match xs_result (wk_x w) with Some r => [RspResult r] | None => [] end = q ++ rest).
    { destruct (sent_upto _ _ _ _ _ _ X E) as [a Ha]. destruct (got_prefix H) as [b Hb]. rewrite Ha, Hb. rewrite !map_app, <- !app_assoc. unfold fwd_state in F. destruct (wk_fwd w) as [|l|rr|].
      - subst q. eauto.
      - destruct F as (g & -> & ->). rewrite map_app, <- !app_assoc. eauto.
      - destruct F as (-> & _). eauto.
      - destruct F as (rr & -> & Hg & Hr). destruct (committed _ _ _ _ _ _ _ X E Hr) as (_ & -> & Hs). rewrite Ha in Hs. assert (a = []) by (rewrite <- (app_nil_r (sent H)) in Hs at 1; apply app_inv_head in Hs; auto). subst a.
        assert (b = []) by (rewrite <- Hg in Hb; rewrite <- (app_nil_r (got H)) in Hb at 1; apply app_inv_head in Hb; auto). subst b. cbn. exists []. rewrite app_nil_r. reflexivity. }
    unfold relay in Rl. destruct (r_server r); destruct Rl as (-> & _); [cbn; eauto|exact Hq|exact Hq].
  - destruct (Hnone eq_refl) as (_ & _ & -> & _). cbn. eauto.
Qed.
Lemma result_of_says ops s tr dops gs ins rr : hist ops s tr dops gs ins -> result_of (arrived (remote_events dops)) = Some rr ->
  exists w, k_w s = Some w /\ xs_result (wk_x w) = Some rr /\ verdict None false ins = Some rr /\ arrived (remote_events dops) = says (k_effects tr) /\
    Remote_spec.logs_of (arrived (remote_events dops)) = Local_spec.logs_of (k_effects tr).
Proof.
  intros H R. destruct (relayed _ _ _ _ _ _ H) as [rest Hr]. assert (K := H). apply khist_inv in K as [Hd _ _ Hnone Hw _].
  destruct (result_split _ _ R) as (a & b & E).
  destruct (k_w s) as [w|]; [|destruct (Hnone eq_refl) as (_ & _ & Z & _); unfold arrived in R; rewrite Z in R; destruct (deliveries _); discriminate R].
  exists w. split; [reflexivity|]. destruct (Hw w eq_refl) as (X & _ & r & Hh & q & Q1 & _). assert (Sh := says_shape _ _ _ _ X).
  assert (Rr : remote_run (remote_events dops) r).
  { destruct (dhist_inv _ _ _ _ _ _ _ _ Hd) as [_ _ _ _ Ht]. unfold the_remote in Q1. destruct (ds_task (k_d s)) as [t|] eqn:T; [|discriminate]. destruct (Ht t eq_refl) as (_ & _ & _ & _ & K). rewrite Q1 in K. apply K. }
  assert (Ap := arrived_prefix _ _ Rr). rewrite Ap, E in Hr. rewrite Sh in Hr.
  assert (G : forall ls o a b (x : run_result), map RspLog ls ++ match o with Some r => [RspResult r] | None => [] end = a ++ RspResult x :: b -> o = Some x /\ b = [] /\ a = map RspLog ls).
  { clear. induction ls as [|l ls IH]; intros o a b x Q; cbn [map app] in Q.
    - destruct o as [r|]; [|destruct a; discriminate Q]. destruct a as [|y a]; [injection Q as <- <-; auto|]. injection Q as <- Q. destruct a; discriminate Q.
    - destruct a as [|y a]; [discriminate Q|]. injection Q as <- Q. destruct (IH _ _ _ _ Q) as (-> & -> & ->). auto. }
  rewrite <- !app_assoc in Hr. cbn [app] in Hr. destruct (G _ _ _ _ _ Hr) as (G1 & G2 & G3). apply app_eq_nil in G2 as [-> _]. 
  split; [exact G1|]. split; [rewrite (x_verdict _ _ _ _ X), G1; reflexivity|]. rewrite E, Sh, G1, G3. split; [reflexivity|]. rewrite Remote_proof.logs_of_app, logs_of_map. cbn. apply app_nil_r.
Qed.
Lemma logs_of_says effs : Remote_spec.logs_of (says effs) = Local_spec.logs_of effs.
Proof. unfold says, Remote_spec.logs_of, Local_spec.logs_of. induction effs as [|e effs IH]; [reflexivity|]. cbn [flat_map]. rewrite flat_map_app, IH. f_equal. destruct e; reflexivity. Qed.
Lemma ctx_sent ops s tr dops gs ins : hist ops s tr dops gs ins -> forall rc srv, k_ctx s = Some (rc, srv) -> sent_to ops srv.
Proof.
  induction 1 as [sh|ops s tr dops gs ins op s' o R IH E]; intros rc srv C; [discriminate C|].
  assert (Old : k_ctx s = Some (rc, srv) -> sent_to (ops ++ [op]) srv).
  { intros C'. destruct (IH _ _ C') as (clients & r & I1 & I2). exists clients, r. split; [apply in_or_app; left; exact I1|exact I2]. }
  apply kstep_trans in E. inv E; cbn [k_ctx] in C; auto.
  destruct pick as [r|]; cbn [client_start] in C; auto. destruct (lookup (rm_id r) clients) as [m|] eqn:L; auto. injection C as _ <-.
  exists clients, r. split; [apply in_or_app; right; left; reflexivity|exact L].
Qed.
Lemma task_stays_d s op s' ob : dstep cx me cl s op = Some (s', ob) -> ds_task s <> None -> ds_task s' <> None.
Proof.
  intros E N. destruct op as [o|clients pick|i| |e]; cbn [dstep] in E.
  - assert (D : dengine cx me s o = Some (s', ob)).
    { destruct o as [|c'|[]| | | |x]; try discriminate E; try exact E. destruct (ds_task s) as [[[r|] sg [|]]|]; try discriminate E; exact E. }
    unfold dengine in D. destruct (step_step _ _ _ _ _) as [[[sh' p'] ob']|]; [|discriminate]. injection D as <- <-. cbn [ds_task]. destruct (ds_task s); [discriminate|congruence].
  - destruct (ds_step s); try discriminate E. destruct (ds_task s); [discriminate E|congruence].
  - destruct (ds_task s) as [[[r|] sg pd]|]; try discriminate E. destruct (_ && _); [discriminate E|]. destruct (remote_step r i); [|discriminate E].
    destruct i; try (injection E as <- <-; discriminate). destruct (sig_poll cl sg) as [sg' [g'|]]; [|discriminate E]. destruct (eqb _ _); [|discriminate E]. injection E as <- <-. discriminate.
  - destruct (ds_task s) as [[r sg [|x rest]]|]; try discriminate E. injection E as <- <-. discriminate.
  - injection E as <- <-. exact N.
Qed.
Definition is_pick (op : kop) : bool := match op with KFlow (DPick _ _) => true | _ => false end.
Lemma picks_once ops s tr dops gs ins : hist ops s tr dops gs ins ->
  (ds_task (k_d s) = None -> filter is_pick ops = []) /\ length (filter is_pick ops) <= 1.
Proof.
  induction 1 as [sh|ops s tr dops gs ins op s' o R IH E]; [cbn; auto|]. destruct IH as [I1 I2]. apply kstep_trans in E. rewrite filter_app, app_length. cbn [filter].
  destruct (is_pick op) eqn:P.
  - destruct op as [[| clients pick | | |]| | | | | |]; try discriminate P. inv E; [discriminate|].
    match goal with E : dstep _ _ _ _ _ = _ |- _ => rename E into Es end. cbn [dstep] in Es. destruct (ds_step (k_d s)); try discriminate Es. destruct (ds_task (k_d s)) eqn:T; try discriminate Es.
    rewrite I1 by reflexivity. split; [|cbn; lia]. cbn [k_d]. destruct (client_start clients pick) as [[]|]; try discriminate Es; injection Es as <- <-; discriminate.
  - cbn [app length]. rewrite app_nil_r, Nat.add_0_r. split; [|exact I2]. intros N. apply I1.
    destruct (ds_task (k_d s)) eqn:T; [exfalso|reflexivity].
    inv E; cbn [k_d] in N; try congruence; match goal with E : dstep _ _ _ _ _ = _ |- _ => apply (task_stays_d _ _ _ _ E); [congruence|exact N] end.
Qed.
Lemma sent_once ops s tr dops gs ins a b : hist ops s tr dops gs ins -> sent_to ops a -> sent_to ops b -> a = b.
Proof.
  intros H (ca & ra & Ia & La) (cb & rb & Ib & Lb). destruct (picks_once _ _ _ _ _ _ H) as [_ L].
  assert (Fa : In (KFlow (DPick ca (Some ra))) (filter is_pick ops)) by (apply filter_In; auto).
  assert (Fb : In (KFlow (DPick cb (Some rb))) (filter is_pick ops)) by (apply filter_In; auto).
  destruct (filter is_pick ops) as [|x [|]]; cbn [length In] in *; [contradiction| |lia]. destruct Fa as [->|[]]. destruct Fb as [[= -> ->]|[]]. congruence.
Qed.
(** What a step on a remote runner with the built-in runner behind it comes to. *)
Lemma worker_result ops s tr dops gs ins r : hist ops s tr dops gs ins -> ds_step (k_d s) = SpDone r ->
  (the_remote (k_d s) = None /\ mirrors (RFailed 1) r /\ delivered (k_events tr) = [log_error "No runner available"] /\ ins = [] /\ k_effects tr = []) \/
  (exists w st srv rr, k_w s = Some w /\ hooked st0 st /\ In (ORun (given cx st)) (k_events tr) /\ sent_to ops srv /\ wk_conf w = conf srv (rhooks srv (given cx st)) /\
     xrun (wk_conf w) ins (wk_x w) (k_effects tr) /\ verdict None false ins = Some rr /\ mirrors rr r /\
     exists line, delivered (k_events tr) = Local_spec.logs_of (k_effects tr) ++ line /\ (clean (remote_events dops) -> line = [])) \/
  (~ clean (remote_events dops) /\ mirrors (RFailed 1) r /\
     exists ls rest e, Local_spec.logs_of (k_effects tr) = ls ++ rest /\ delivered (k_events tr) = ls ++ [log_error e]).
Proof.
  intros H D. assert (K := H). apply khist_inv in K as [Hd Hctx _ Hnone Hw _]. destruct (distant_result _ _ _ _ _ _ _ _ _ Hd D) as (t & st & T & Hst & Hrun & Q).
  assert (Tr : the_remote (k_d s) = dt_remote t) by (unfold the_remote; rewrite T; reflexivity).
  destruct (dt_remote t) as [rm|] eqn:Rm.
  2: { left. destruct Q as (Q1 & Q2 & Q3). split; [exact Tr|]. split; [exact Q1|]. split; [exact Q2|].
       destruct (k_w s) as [w|] eqn:W; [|destruct (Hnone eq_refl) as (N1 & N2 & _); auto]. destruct (Hw w eq_refl) as (_ & _ & r0 & _ & _ & C & _). congruence. }
  right. destruct Q as (Rr & M & Hn & Dl). set (ev := remote_events dops) in *. unfold remote_result in M.
  destruct (result_of (arrived ev)) as [rr|] eqn:Er.
  - left. destruct (result_of_says _ _ _ _ _ _ _ H Er) as (w & W & Hx & V & Ea & El). fold ev in Ea, El. destruct (Hw w W) as (X & (rc & srv & Hrc & Hc) & _). assert (Hse := ctx_sent _ _ _ _ _ _ H _ _ Hrc).
    destruct (Hctx rc srv Hrc) as (st' & Hst' & -> & Hr'). exists w, st', srv, rr. repeat (split; [assumption|]).
    assert (Hcl : clean ev -> last_line ev = []).
    { intros C. unfold last_line. destruct (find ends_client ev) as [i|] eqn:Fi; [|reflexivity]. apply find_some in Fi as [Fi1 Fi2]. specialize (C i Fi1).
      destruct i as [[]| | | | | | |? []]; try discriminate C; try discriminate Fi2. rewrite Er. reflexivity. }
    rewrite El in Dl. destruct Dl as [Dl|[Dl _]]; [exists (last_line ev); auto|exists []; rewrite app_nil_r; auto].
  - right. specialize (Hn eq_refl). destruct (server_inv _ _ Rr) as [S1 S2]. split; [|split; [exact M|]].
    + intros C. destruct (S2 C Hn) as [Hwr Sd]. assert (Ap := arrived_prefix _ _ Rr). rewrite Hwr, app_nil_r in Ap. rewrite Sd in S1. destruct S1 as [(r' & S1 & _)|[_ Hi]].
      * rewrite <- Ap, S1, result_of_map in Er. discriminate.
      * specialize (C _ Hi). discriminate C.
    + destruct Dl as [Dl|[_ C]]; [|congruence]. destruct (relayed _ _ _ _ _ _ H) as [rest Hrest]. fold ev in Hrest. assert (Ap := arrived_prefix _ _ Rr).
      rewrite Ap, <- app_assoc in Hrest. apply (f_equal Remote_spec.logs_of) in Hrest. rewrite logs_of_says, Remote_proof.logs_of_app in Hrest.
      assert (Ll : exists e, last_line ev = [log_error e]).
      { destruct (rinv_run _ _ Rr) as [del I]. assert (Fi : find ends_client ev <> None) by (intros C; apply (ri_done _ _ _ I) in C; congruence).
        unfold last_line. rewrite Er. destruct (find ends_client ev) as [i|]; [|congruence]. destruct i as [[e|]| | | | | |e|]; eauto. }
      destruct Ll as [e He]. rewrite He in Dl. eauto.
Qed.
(** ** Signals *)
Lemma heard_once ops s tr dops gs ins : hist ops s tr dops gs ins -> raised ins = [] \/ exists g rest, gs = g :: rest /\ raised ins = [g].
Proof.
  intros H. apply khist_inv in H as [Hd _ [S1 S2] _ _ _]. destruct (signal_once _ _ _ _ _ _ _ _ Hd) as [E|(g & rest & -> & E)]; rewrite E in *; cbn in S2.
  - left. destruct (raised ins); [reflexivity|cbn in S2; lia].
  - destruct (raised ins) as [|g' [|]] eqn:Er; [left; reflexivity| |cbn in S2; lia]. right. exists g, rest. split; [reflexivity|].
    destruct (S1 g') as [<-|[]]; [left; left; reflexivity|reflexivity].
Qed.
Lemma heard_when_told ops s tr dops gs ins g : hist ops s tr dops gs ins -> ~ In KForget ops -> In (RiSignal g None) (remote_events dops) -> raised ins = [g].
Proof.
  intros H N G. assert (K := H). apply khist_inv in K as [_ _ _ _ _ Hh]. destruct (Hh N) as [_ L]. specialize (L g G).
  assert (I : In g (raised ins)) by (unfold raised; apply in_flat_map; exists (XISignal g); split; [exact L|left; reflexivity]).
  destruct (heard_once _ _ _ _ _ _ H) as [E|(g' & rest & _ & E)]; rewrite E in I; [contradiction|]. destruct I as [<-|[]]. exact E.
Qed.
Lemma cancelled_why ops s tr dops gs ins r : hist ops s tr dops gs ins -> ds_step (k_d s) = SpDone r -> sr_state r = Cancelled -> raised ins = [SigCancel] /\ exists rest, gs = SigCancel :: rest.
Proof.
  intros H D C. destruct (worker_result _ _ _ _ _ _ _ H D) as [(_ & M & _)|[(w & st & srv & rr & _ & _ & _ & _ & _ & _ & V & M & _)|(_ & M & _)]]; try (cbn in M; destruct M; congruence).
  assert (rr = RCancelled) by (destruct rr; cbn in M; destruct M; congruence). subst rr. apply verdict_cancelled in V as [V|V]; [discriminate|].
  assert (I : In SigCancel (raised ins)) by (unfold raised; apply in_flat_map; exists (XISignal SigCancel); split; [exact V|left; reflexivity]).
  destruct (heard_once _ _ _ _ _ _ H) as [E|(g' & rest & -> & E)]; rewrite E in I; [contradiction|]. destruct I as [->|[]]. split; [exact E|]. eauto.
Qed.
End Thm.
