From Coq Require Import Sorting.Permutation.
From Verif Require Import Base Types Signals_model Signals_proof Stream_model Cond_model Plugins_model Exec_model Workflow_model Workflow_proof Runner_model Sched_model Sched_spec Sched_proof
  Remote_model Remote_spec Remote_proof Distant_model System_model System_spec System_proof System_inst Fleet_model Fleet_spec Fleet_proof Dispatch_model Dispatch_spec Dispatch_proof Dispatch_main
  Worker_model Worker_spec Worker_proof Worker_live Chain_model Chain_spec Chain_proof Farm_model Farm_spec Farm_place.

(** *** A fleet up to the shared states its runs saw last *)
Section Same.
Context {T iop iobs : Type}.
Variable R : ectx -> rside T iop iobs.
Variable glob : glob_oracle.
Definition unsettled (s : @system T) : @system T := settle 0%N sm_init None s.
Definition fresh (r : @frun T) : @frun T := FRun (fr_ctx r) (fr_wf r) (unsettled (fr_sys r)).
Definition same_fleet (f g : @fleet T) : Prop := fl_now f = fl_now g /\ fl_sm f = fl_sm g /\ fl_ctx f = fl_ctx g /\ map fresh (fl_runs f) = map fresh (fl_runs g).
Lemma same_refl f : same_fleet f f.
Proof. repeat split. Qed.
Lemma same_sym f g : same_fleet f g -> same_fleet g f.
Proof. intros (H1 & H2 & H3 & H4). repeat split; congruence. Qed.
Lemma same_trans f g h : same_fleet f g -> same_fleet g h -> same_fleet f h.
Proof. intros (H1 & H2 & H3 & H4) (G1 & G2 & G3 & G4). repeat split; congruence. Qed.
Lemma same_run f g k r : same_fleet f g -> nth_error (fl_runs f) k = Some r -> exists r', nth_error (fl_runs g) k = Some r' /\ fresh r' = fresh r.
Proof.
  intros (_ & _ & _ & H) E. assert (K : nth_error (map fresh (fl_runs g)) k = Some (fresh r)) by (rewrite <- H; apply map_nth_error, E).
  destruct (nth_error (fl_runs g) k) as [r'|] eqn:E'; [|apply nth_error_None in E'; assert (C : nth_error (map fresh (fl_runs g)) k <> None) by congruence; apply nth_error_Some in C; rewrite map_length in C; lia].
  exists r'. split; [reflexivity|]. rewrite (map_nth_error fresh _ _ E') in K. congruence.
Qed.
Lemma fresh_settle now sm ca r r' : fresh r' = fresh r -> settle now sm ca (fr_sys r') = settle now sm ca (fr_sys r).
Proof.
  intros H. assert (K : unsettled (fr_sys r') = unsettled (fr_sys r)) by exact (f_equal fr_sys H).
  assert (C : forall s, settle now sm ca s = settle now sm ca (unsettled s)) by reflexivity. rewrite (C (fr_sys r')), (C (fr_sys r)), K. reflexivity.
Qed.
Lemma fresh_set k x r (l l' : list frun) : map fresh l = map fresh l' -> fresh x = fresh r -> map fresh (list_set k x l) = map fresh (list_set k r l').
Proof.
  revert k l'. induction l as [|a l IH]; intros k [|b l'] H Hx; try discriminate H; [destruct k; reflexivity|].
  assert (H1 : fresh a = fresh b) by exact (f_equal (fun l => match l with y :: _ => y | [] => fresh a end) H). assert (H2 : map fresh l = map fresh l') by exact (f_equal (@tl _) H). clear H.
  destruct k as [|k]; cbn [list_set map]; [rewrite Hx, H2; reflexivity|]. rewrite H1. f_equal. apply IH; assumption.
Qed.
Lemma fstep_same f g op f' o : same_fleet f g -> fstep R glob f op = Some (f', o) -> exists g', fstep R glob g op = Some (g', o) /\ same_fleet f' g'.
Proof.
  intros S E. assert (S' := S). destruct S' as (H1 & H2 & H3 & H4). destruct op as [cx|c wf|k so|d|c j|c]; cbn [fstep] in *.
  - injection E as <- <-. eexists. split; [reflexivity|]. repeat split; cbn [fl_now fl_sm fl_ctx fl_runs]; congruence.
  - rewrite <- H3. destruct (nth_error (fl_ctx f) c) as [[cx ca]|]; [|discriminate]. injection E as <- <-. eexists. split; [reflexivity|].
    repeat split; cbn [fl_now fl_sm fl_ctx fl_runs]; try congruence. rewrite !map_app, H4, H1, H2. reflexivity.
  - destruct (nth_error (fl_runs f) k) as [r|] eqn:Er; [|discriminate]. destruct (same_run _ _ _ _ S Er) as (r' & Er' & Hf). rewrite Er'.
    assert (Hc : fr_ctx r' = fr_ctx r /\ fr_wf r' = fr_wf r) by (split; [exact (f_equal fr_ctx Hf)|exact (f_equal fr_wf Hf)]). destruct Hc as [Hc Hw]. rewrite Hc, Hw, <- H3.
    destruct (nth_error (fl_ctx f) (fr_ctx r)) as [[cx ca]|]; [|discriminate]. destruct (is_env so); [discriminate|]. rewrite <- H1, <- H2, (fresh_settle _ _ _ _ _ Hf).
    destruct (sysstep _ _ _ _ _ _) as [[s' o']|]; [|discriminate]. injection E as <- <-. eexists. split; [reflexivity|]. repeat split; cbn [fl_now fl_sm fl_ctx fl_runs]; try congruence.
    apply fresh_set; [exact H4|reflexivity].
  - injection E as <- <-. eexists. split; [reflexivity|]. repeat split; cbn [fl_now fl_sm fl_ctx fl_runs]; congruence.
  - injection E as <- <-. eexists. split; [reflexivity|]. repeat split; cbn [fl_now fl_sm fl_ctx fl_runs]; try congruence. rewrite <- H2. reflexivity.
  - injection E as <- <-. eexists. split; [reflexivity|]. repeat split; cbn [fl_now fl_sm fl_ctx fl_runs]; try congruence. rewrite <- H2. reflexivity.
Qed.
End Same.
Lemma same_wanting f g k i : same_fleet f g -> wanting f k i = wanting g k i.
Proof.
  intros S. unfold wanting. destruct (nth_error (fl_runs f) k) as [r|] eqn:Er.
  - destruct (same_run _ _ _ _ S Er) as (r' & -> & Hf). unfold fresh, unsettled, settle in Hf. injection Hf as _ _ _ Ht _ Hc _. rewrite Ht, Hc. reflexivity.
  - destruct (nth_error (fl_runs g) k) as [r|] eqn:Eg; [|reflexivity]. apply same_sym in S. destruct (same_run _ _ _ _ S Eg) as (r' & C & _). congruence.
Qed.

(** *** Without the servers *)
Definition outer_past (e : nat * (shared * step_phase * kside)) : nat * (shared * step_phase * option dtask) := (fst e, (fst (snd e), kd_task (snd (snd e)))).
Definition outer_sys (s : @system kside) : @system (option dtask) := System (sy_w s) (map kd_task (sy_cur s)) (map outer_past (sy_past s)).
Definition outer_run (r : @frun kside) : @frun (option dtask) := FRun (fr_ctx r) (fr_wf r) (outer_sys (fr_sys r)).
Definition outer_fleet (f : @fleet kside) : @fleet (option dtask) := Fleet (fl_now f) (fl_sm f) (fl_ctx f) (map outer_run (fl_runs f)).
Definition sys_view (tr : list (sysobs (iobs := kobs))) : list (sysobs (iobs := obs)) :=
  flat_map (fun e => match e with (w, inl x) => [(w, inl x)] | (w, inr (KObs x)) => [(w, inr x)] | (_, inr (KEff _)) => [] end) tr.
Definition fleet_view (tr : list (nat * sysobs (iobs := kobs))) : list (nat * sysobs (iobs := obs)) := flat_map (fun e => map (fun y => (fst e, y)) (sys_view [snd e])) tr.
Lemma sys_view_app a b : sys_view (a ++ b) = sys_view a ++ sys_view b.
Proof. apply flat_map_app. Qed.
Lemma sys_view_inl tr : sys_view (map (fun x : who * obs => (fst x, inl (snd x))) tr) = map (fun x => (fst x, inl (snd x))) tr.
Proof. induction tr as [|[w o] tr IH]; cbn; [reflexivity|]. f_equal. exact IH. Qed.
Lemma sys_view_inr i o : sys_view (map (fun e => (Some i, inr e)) o) = map (fun e => (Some i, inr e)) (k_events o).
Proof. induction o as [|[x|x] o IH]; cbn; [reflexivity|f_equal; exact IH|exact IH]. Qed.
Lemma fleet_view_one k o : fleet_view (map (fun x => (k, x)) o) = map (fun x => (k, x)) (sys_view o).
Proof. induction o as [|e o IH]; [reflexivity|]. cbn [map fleet_view flat_map fst snd]. fold (fleet_view (map (fun x => (k, x)) o)). rewrite IH, <- map_app, <- sys_view_app. reflexivity. Qed.
Lemma outer_settle now sm ca s : outer_sys (settle now sm ca s) = settle now sm ca (outer_sys s).
Proof. reflexivity. Qed.
Lemma map_set {A B} (h : A -> B) i x l : map h (list_set i x l) = list_set i (h x) (map h l).
Proof. revert i; induction l as [|a l IH]; intros [|i]; cbn; [reflexivity..|]. rewrite IH. reflexivity. Qed.
Lemma farm_wanting_outer f k i : farm_wanting f k i = wanting (outer_fleet f) k i.
Proof.
  unfold farm_wanting, wanting. cbn [outer_fleet fl_runs]. rewrite nth_error_map. destruct (nth_error (fl_runs f) k) as [r|]; [|reflexivity]. cbn [option_map outer_run fr_sys outer_sys sy_w sy_cur].
  rewrite nth_error_map. destruct (nth_error (ws_tasks (sy_w (fr_sys r))) i) as [t|]; [|reflexivity]. destruct (nth_error (sy_cur (fr_sys r)) i) as [x|]; [|reflexivity]. cbn [option_map]. destruct (kd_task x); reflexivity.
Qed.

Section P.
Variables (cl sv : task -> task) (rhooks : runner_meta -> run_context -> run_context) (conf : runner_meta -> run_context -> xconf) (glob : glob_oracle).
Notation C cx := (chained cx cl sv rhooks conf).
Notation D cx := (distant cx cl).
(** One action of a step. *)
Lemma side_step cx me sh p x op sh' p' x' o : rs_step (C cx) me sh p x op = Some (sh', p', x', o) ->
  (sh' = sh /\ p' = p /\ kd_task x' = kd_task x /\ k_events o = [] /\ forall d, op <> KFlow d) \/
  (exists d, outward (kwhole sh p x) op = [d] /\ rs_step (D cx) me sh p (kd_task x) d = Some (sh', p', kd_task x', k_events o)).
Proof.
  intros E. destruct (chained_step _ _ _ _ _ _ _ _ _ _ _ _ _ _ E) as [E1 N]. destruct (kstep_dstep _ _ _ _ _ _ _ _ _ _ E1) as [(H0 & H1 & H2)|(d & H1 & H2)].
  - left. cbn in H1. injection H1 as -> -> ->. repeat split; auto. intros d ->. discriminate H0.
  - right. exists d. split; [exact H1|]. assert (Nd := outward_world _ _ _ _ _ _ _ _ _ _ _ _ E1 N _ H1). cbn [rs_step distant]. cbn [kwhole k_d] in H2. rewrite H2. destruct d; try reflexivity. destruct (Nd e eq_refl).
Qed.
Definition outer_picks (op : sysop (iop := dop)) : bool := match op with YStep _ (DPick _ _) | YPast _ (DPick _ _) => true | _ => false end.
Definition inner_picks (op : sysop (iop := kop)) : bool := match op with YStep _ (KFlow (DPick _ _)) | YPast _ (KFlow (DPick _ _)) => true | _ => false end.
Lemma outward_pick s op d : outward s op = [d] -> match d with DPick _ _ => op = KFlow d | _ => forall c r, op <> KFlow (DPick c r) end.
Proof.
  destruct op as [d0| | | | | |]; cbn [outward]; try discriminate; [intros [= <-]; destruct d0; try reflexivity; discriminate|].
  destruct (k_w s) as [w|]; [|discriminate]. destruct (posting s); try discriminate. destruct (wk_fwd w); try discriminate; intros [= <-]; discriminate.
Qed.
Lemma pad_outer cx n (l : list kside) : map kd_task (pad (C cx) n l) = pad (D cx) n (map kd_task l).
Proof. unfold pad. rewrite map_app, map_length. f_equal. induction (n - length l) as [|m IH]; [reflexivity|]. cbn [repeat map]. rewrite IH. reflexivity. Qed.
Lemma sys_outer cx wf s op s' o : sysstep (C cx) glob cx wf s op = Some (s', o) ->
  (outer_sys s' = outer_sys s /\ sys_view o = [] /\ inner_picks op = false) \/
  (exists op', sysstep (D cx) glob cx wf (outer_sys s) op' = Some (outer_sys s', sys_view o) /\ outer_picks op' = inner_picks op /\ (is_env op = false -> is_env op' = false) /\
     forall i clients r, op = YStep i (KFlow (DPick clients r)) -> op' = YStep i (DPick clients r)).
Proof.
  intros E. destruct op as [wo|i io|k io]; cbn [sysstep] in E.
  - right. exists (YFlow wo). destruct (is_step_op wo) eqn:Hs; [discriminate|]. destruct (wstep glob cx wf (sy_w s) wo) as [[w' wtr]|] eqn:Ew; [|discriminate].
    split; [|split; [reflexivity|split; [auto|discriminate]]]. cbn [sysstep]. rewrite Hs. cbn [outer_sys sy_w]. rewrite Ew.
    destruct (step_over (sy_w s) wo) as [[i p]|]; injection E as <- <-; rewrite sys_view_inl; cbn [sy_cur sy_past]; (f_equal; f_equal; unfold outer_sys; cbn [sy_w sy_cur sy_past]; rewrite pad_outer, map_app).
    + rewrite map_set, nth_error_map. cbn [rs_init chained distant kd_task]. f_equal. f_equal. destruct (nth_error (sy_cur s) i); reflexivity.
    + reflexivity.
  - destruct (nth_error (ws_tasks (sy_w s)) i) as [t|] eqn:Et; [|discriminate]. destruct (nth_error (sy_cur s) i) as [x|] eqn:Ex; [|discriminate].
    destruct (tk_phase t) as [| | | | | | | | | |t0 js rs sp rest| | | |] eqn:Ep; try discriminate E.
    destruct (rs_step (C cx) (S i) (ws_sh (sy_w s)) sp x io) as [[[[sh' sp'] x'] out]|] eqn:Es; [|discriminate]. injection E as <- <-. rewrite sys_view_inr.
    destruct (side_step _ _ _ _ _ _ _ _ _ _ Es) as [(-> & -> & Hk & He & Nd)|(d & Ho & Hd)].
    + left. rewrite He. split; [|split; [reflexivity|]].
      * unfold outer_sys. cbn [sy_w sy_cur sy_past]. f_equal; [|rewrite map_set, Hk; apply list_set_same; rewrite nth_error_map, Ex; reflexivity].
        destruct s as [[sh m ts ch] cur past]. cbn [sy_w ws_sh ws_main ws_tasks ws_chan] in *. f_equal. apply list_set_same. rewrite Et. f_equal. rewrite <- Ep. destruct t; reflexivity.
      * destruct io as [d| | | | | |]; try reflexivity. destruct (Nd d eq_refl).
    + right. exists (YStep i d). split; [|split; [|split; [reflexivity|]]].
      * cbn [sysstep outer_sys sy_w sy_cur]. rewrite Et, nth_error_map, Ex, Ep. cbn [option_map]. rewrite Hd. f_equal. f_equal. unfold outer_sys. cbn [sy_w sy_cur sy_past]. rewrite map_set. reflexivity.
      * cbn [outer_picks inner_picks]. apply outward_pick in Ho. destruct d; try (destruct io as [[]| | | | | |]; try reflexivity; destruct (Ho _ _ eq_refl)). rewrite Ho. reflexivity.
      * intros i' cs r [= -> ->]. cbn [outward] in Ho. congruence.
  - destruct (nth_error (sy_past s) k) as [[i [[sh p] x]]|] eqn:Ek; [|discriminate]. destruct (rs_step (C cx) (S i) sh p x io) as [[[[sh' p'] x'] out]|] eqn:Es; [|discriminate]. injection E as <- <-. rewrite sys_view_inr.
    destruct (side_step _ _ _ _ _ _ _ _ _ _ Es) as [(-> & -> & Hk & He & Nd)|(d & Ho & Hd)].
    + left. rewrite He. split; [|split; [reflexivity|]].
      * unfold outer_sys. cbn [sy_w sy_cur sy_past]. f_equal. rewrite map_set. apply list_set_same. rewrite nth_error_map, Ek. unfold outer_past. cbn [option_map fst snd]. rewrite Hk. reflexivity.
      * destruct io as [d| | | | | |]; try reflexivity. destruct (Nd d eq_refl).
    + right. exists (YPast k d). split; [|split; [|split; [reflexivity|discriminate]]].
      * cbn [sysstep outer_sys sy_past]. rewrite nth_error_map, Ek. unfold outer_past at 1. cbn [option_map fst snd]. rewrite Hd. f_equal. f_equal. unfold outer_sys. cbn [sy_w sy_cur sy_past]. rewrite map_set. reflexivity.
      * cbn [outer_picks inner_picks]. apply outward_pick in Ho. destruct d; try (destruct io as [[]| | | | | |]; try reflexivity; destruct (Ho _ _ eq_refl)). rewrite Ho. reflexivity.
Qed.
Notation fsC := (farm_fleet_step cl sv rhooks conf glob).
Notation fsD := (remote_fleet_step cl glob).
Lemma fleet_outer f op f' o : fsC f op = Some (f', o) ->
  (same_fleet (outer_fleet f') (outer_fleet f) /\ fleet_view o = [] /\ picks_server op = false) \/
  (exists op', fsD (outer_fleet f) op' = Some (outer_fleet f', fleet_view o) /\ picks_runner op' = picks_server op /\
     forall k i clients r, op = FRunOp k (YStep i (KFlow (DPick clients r))) -> op' = FRunOp k (YStep i (DPick clients r))).
Proof.
  unfold farm_fleet_step, remote_fleet_step. intros E. destruct op as [cx|c wf|k so|d|c j|c]; cbn [fstep] in E.
  - right. exists (FContext cx). injection E as <- <-. repeat split; discriminate.
  - right. exists (FStart c wf). destruct (nth_error (fl_ctx f) c) as [[cx ca]|] eqn:Ec; [|discriminate]. injection E as <- <-. split; [|split; [reflexivity|discriminate]].
    cbn [fstep outer_fleet fl_ctx]. rewrite Ec. unfold outer_fleet. cbn [fl_now fl_sm fl_ctx fl_runs]. rewrite map_app. reflexivity.
  - destruct (nth_error (fl_runs f) k) as [r|] eqn:Er; [|discriminate]. destruct (nth_error (fl_ctx f) (fr_ctx r)) as [[cx ca]|] eqn:Ec; [|discriminate]. destruct (is_env so) eqn:Hv; [discriminate|].
    destruct (sysstep _ _ _ _ _ so) as [[s' o']|] eqn:Es; [|discriminate]. injection E as <- <-. rewrite fleet_view_one. destruct (sys_outer _ _ _ _ _ _ Es) as [(H1 & H2 & H3)|(op' & H1 & H2 & H3 & H4)].
    + left. rewrite H2. split; [|split; [reflexivity|exact H3]]. rewrite outer_settle in H1.
      assert (Hw : sy_w s' = sy_w (settle (fl_now f) (fl_sm f) ca (fr_sys r))) by (apply (f_equal sy_w) in H1; exact H1). rewrite Hw. cbn [settle sy_w ws_sh sh_now sh_sm sh_cache].
      repeat split; cbn [outer_fleet fl_now fl_sm fl_ctx fl_runs]; [apply list_set_same, Ec|]. rewrite !map_map, map_set. apply list_set_same. rewrite nth_error_map, Er. cbn [option_map].
      f_equal. unfold fresh, outer_run. cbn [fr_ctx fr_wf fr_sys]. f_equal. rewrite H1. reflexivity.
    + right. exists (FRunOp k op'). split; [|split; [|intros k' i cs p [= -> ->]; f_equal; exact (H4 _ _ _ eq_refl)]].
      * cbn [fstep outer_fleet fl_runs]. rewrite nth_error_map, Er. cbn [option_map outer_run fr_ctx fl_ctx fr_wf fr_sys outer_fleet fl_now fl_sm]. rewrite Ec, (H3 Hv), <- outer_settle, H1. cbn [outer_sys sy_w]. f_equal. f_equal. unfold outer_fleet. cbn [fl_now fl_sm fl_ctx fl_runs]. rewrite map_set. reflexivity.
      * destruct op' as [|? []|? []], so as [|? [[]| | | | | |]|? [[]| | | | | |]]; try discriminate H2; reflexivity.
  - right. exists (FTick d). injection E as <- <-. repeat split; discriminate.
  - right. exists (FLook c j). injection E as <- <-. repeat split; discriminate.
  - right. exists (FFire c). injection E as <- <-. repeat split; discriminate.
Qed.

(** *** The farm without its servers is a dispatch *)
Record seen_as (q : farm) (d : dispatch) : Prop := {
  sa_fleet : same_fleet (dp_fleet d) (outer_fleet (fm_fleet q));
  sa_clients : dp_clients d = fm_clients q;
  sa_sched : dp_sched d = fm_sched q;
  sa_asked : dp_asked d = fm_asked q }.
Lemma cview_app a b : client_view (a ++ b) = client_view a ++ client_view b.
Proof. apply flat_map_app. Qed.
Lemma cview_sched o : client_view (map QSched o) = map PSched o.
Proof. induction o as [|e o IH]; [reflexivity|]. cbn. f_equal. exact IH. Qed.
Lemma cview_seen x : client_view (map (fun y : nat * sysobs (iobs := kobs) => QSeen (fst y) (snd y)) x) = map (fun y => PSeen (fst y) (snd y)) (fleet_view x).
Proof. induction x as [|[k [w [e|[e|e]]]] x IH]; [reflexivity|..]; cbn; try f_equal; exact IH. Qed.
Lemma asked_for_outer q d k i : seen_as q d -> asked_for d k i = farm_asked_for q k i.
Proof. intros [_ _ S A]. unfold asked_for, farm_asked_for. rewrite S, A. reflexivity. Qed.
Lemma wanting_outer q d k i : seen_as q d -> wanting (dp_fleet d) k i = farm_wanting (fm_fleet q) k i.
Proof. intros [F _ _ _]. rewrite farm_wanting_outer. apply same_wanting, F. Qed.
Lemma outer_then q d asked a m o1 q' o : seen_as q d -> then_send cl sv rhooks conf glob q asked a m o1 = Some (q', o) ->
  exists d', then_pick cl glob d asked a m o1 = Some (d', client_view o) /\ seen_as q' d'.
Proof.
  intros [F Ec Es Ea]. unfold then_send, then_pick. destruct (answered o1) as [r|].
  - destruct (fsC (fm_fleet q) _) as [[f x]|] eqn:Ef; [|discriminate]. intros [= <- <-]. destruct (fleet_outer _ _ _ _ Ef) as [(_ & _ & C)|(op' & H1 & _ & H2)]; [discriminate C|].
    rewrite (H2 _ _ _ _ eq_refl) in H1. destruct (fstep_same _ _ _ _ _ _ _ (same_sym _ _ F) H1) as (g & Hg & Sg). unfold remote_fleet_step. rewrite Hg. eexists. split; [rewrite cview_app, cview_sched, cview_seen; reflexivity|].
    split; cbn [dp_fleet dp_clients dp_sched dp_asked fm_fleet fm_clients fm_sched fm_asked]; [apply same_sym, Sg|assumption|reflexivity..].
  - intros [= <- <-]. eexists. split; [rewrite cview_sched; reflexivity|]. split; cbn [dp_fleet dp_clients dp_sched dp_asked fm_fleet fm_clients fm_sched fm_asked]; auto.
Qed.
(** What an action of the farm is for the client. *)
Definition as_client (op : qop) (op' : pop) : Prop :=
  match op, op' with
  | QConnect a, PConnect a' => a = a'
  | QFleet _, PFleet _ => True
  | QAsk k i l, PAsk k' i' l' => k = k' /\ i = i' /\ l = l'
  | QLock c, PLock c' => c = c'
  | _, _ => False
  end.
Lemma outer_step q d op q' o : seen_as q d -> qstep cl sv rhooks conf glob q op = Some (q', o) ->
  (client_view o = [] /\ seen_as q' d /\ (exists fo, op = QFleet fo)) \/ exists op' d', pstep cl glob d op' = Some (d', client_view o) /\ seen_as q' d' /\ as_client op op'.
Proof.
  intros S E. assert (S' := S). destruct S' as [F Ec Es Ea]. destruct op as [a|fo|k i l|c]; cbn [qstep] in E.
  - injection E as <- <-. right. exists (PConnect a). eexists. split; [reflexivity|]. split; [|reflexivity]. split; cbn [dp_fleet dp_clients dp_sched dp_asked fm_fleet fm_clients fm_sched fm_asked]; [exact F|rewrite Ec; reflexivity|exact Es|exact Ea].
  - destruct (picks_server fo) eqn:Ep; [discriminate|]. destruct (fsC (fm_fleet q) fo) as [[f x]|] eqn:Ef; [|discriminate]. injection E as <- <-. rewrite cview_seen.
    destruct (fleet_outer _ _ _ _ Ef) as [(H1 & H2 & _)|(op' & H1 & H2 & _)].
    + left. rewrite H2. split; [reflexivity|]. split; [|eauto]. split; cbn [fm_fleet fm_clients fm_sched fm_asked]; auto. eapply same_trans; [exact F|apply same_sym, H1].
    + right. exists (PFleet op'). cbn [pstep]. rewrite H2, Ep. destruct (fstep_same _ _ _ _ _ _ _ (same_sym _ _ F) H1) as (g & Hg & Sg). unfold remote_fleet_step. rewrite Hg. eexists. split; [reflexivity|]. split; [|exact Logic.I].
      split; cbn [dp_fleet dp_clients dp_sched dp_asked fm_fleet fm_clients fm_sched fm_asked]; auto. apply same_sym, Sg.
  - right. exists (PAsk k i l). cbn [pstep]. rewrite (wanting_outer _ _ _ _ S), (asked_for_outer _ _ _ _ S), Ec, Es, Ea. destruct (farm_wanting (fm_fleet q) k i) as [st|]; [|discriminate]. destruct (_ || _); [discriminate|].
    destruct (smach_step _ _) as [[m o1]|]; [|discriminate]. destruct (outer_then _ _ _ _ _ _ _ _ S E) as (d' & H1 & H2). exists d'. split; [exact H1|]. split; [exact H2|cbn; auto].
  - right. exists (PLock c). cbn [pstep]. rewrite Es, Ea. destruct (nth_error _ _) as [a|]; [|discriminate]. destruct (smach_step _ _) as [[m o1]|]; [|discriminate].
    destruct (outer_then _ _ _ _ _ _ _ _ S E) as (d' & H1 & H2). exists d'. split; [exact H1|]. split; [exact H2|reflexivity].
Qed.
Variable now : time.
Notation run := (farm_run cl sv rhooks conf glob now).
Lemma connect_all_two a b (m : map_ string runner_meta) : connect_all (a ++ b) m = connect_all b (connect_all a m).
Proof. apply fold_left_app. Qed.
Lemma outer_farm ops q tr : run ops q tr -> exists pops d, dispatch_run cl glob now pops d (client_view tr) /\ seen_as q d /\ connected pops = farm_connected ops /\
  (forall k i l, In (PAsk k i l) pops -> In (QAsk k i l) ops).
Proof.
  induction 1 as [|ops q tr op q' o R (pops & d & Hd & S & Hc & Ha) E].
  - exists [], (pinit now). split; [constructor|]. split; [split; [apply same_refl|reflexivity..]|]. split; [reflexivity|intros k i l []].
  - rewrite cview_app. destruct (outer_step _ _ _ _ _ S E) as [(H1 & H2 & fo & ->)|(op' & d' & H1 & H2 & H3)].
    + exists pops, d. rewrite H1, app_nil_r. split; [exact Hd|]. split; [exact H2|]. split; [|intros k i l H; apply in_or_app; left; auto]. rewrite Hc. unfold farm_connected. rewrite flat_map_app, app_nil_r. reflexivity.
    + exists (pops ++ [op']), d'. split; [eapply dispatch_step; eassumption|]. split; [exact H2|]. split.
      * unfold connected, tried, farm_connected in *. rewrite !flat_map_app, !connect_all_two, Hc. destruct op, op'; cbn in H3; try (exfalso; exact H3); try reflexivity. subst. reflexivity.
      * intros k i l H. apply in_app_iff in H as [H|[->|[]]]; [apply in_or_app; left; auto|]. apply in_or_app. right. destruct op; cbn in H3; try (exfalso; exact H3). destruct H3 as (-> & -> & ->). left. reflexivity.
Qed.
End P.
