From Verif Require Import Base Types Signals_model Stream_model Cond_model Cond_spec Cond_proof Plugins_model Exec_model Exec_spec Step_proof Step_props Job_proof
  Workflow_model Workflow_spec Workflow_proof Workflow_inv Workflow_term Workflow_props Outcome_spec Outcome_proof Outcome_props Reach_spec.

Section R.
Variable glob : glob_oracle.
Variable cx : ectx.
Variable matches : condition -> bool.
Variable res : string -> nat -> wf_state.
Hypothesis Hres : forall k n, step_end (res k n).

Definition honest (o : list obs) : Prop := forall c b, In (OMatch c b) o -> b = matches c.
(** Every condition can be judged, now or after GitHub's answer, as [matches] says. *)
Definition decides (sh : shared) : Prop :=
  (forall c, is_match_first glob (cx_matcher cx) (sh_cache sh) c = Decided (matches c)) \/
  (sh_cache sh = None /\ cm_auth (cx_matcher cx) = true /\ exists ev gh, cm_event (cx_matcher cx) = Some ev /\
     match fetch_payload gh ev with Ok p => forall c, matches c = cond_is_match glob c p | Err _ => forall c, matches c = true end).
Lemma decides_check sh c : decides sh ->
  is_match_first glob (cx_matcher cx) (sh_cache sh) c = Decided (matches c) \/
  exists ev gh cache, is_match_first glob (cx_matcher cx) (sh_cache sh) c = NeedFetch ev /\
    is_match_second glob (fetch_payload gh ev) (sh_cache sh) c = (cache, matches c) /\ decides (set_cache cache sh).
Proof.
  intros [D|(N & A & ev & gh & E & F)]; [left; apply D|]. right. exists ev, gh.
  destruct (fetch_payload gh ev) as [p|e] eqn:Ef.
  - exists (Some p). split; [unfold is_match_first; rewrite A, E, N; reflexivity|]. split; [cbn [is_match_second]; rewrite (F c); reflexivity|].
    left. intros c'. unfold is_match_first. rewrite A, E. cbn [negb set_cache sh_cache]. rewrite F. reflexivity.
  - exists None. split; [unfold is_match_first; rewrite A, E, N; reflexivity|]. split; [cbn [is_match_second]; rewrite N, (F c); reflexivity|].
    right. split; [reflexivity|]. split; [exact A|]. exists ev, gh. rewrite Ef. auto.
Qed.
Definition good (k : string) (rs : list step_run_result) : Prop := forall n x, nth_error rs n = Some x -> sr_state x <> Skipped -> sr_state x = res k n.

Lemma honest_nil : honest [].
Proof. intros c b []. Qed.
Lemma honest_app a b : honest a -> honest b -> honest (a ++ b).
Proof. intros A B c x H. apply in_app_iff in H as [H|H]; auto. Qed.

Fixpoint jexec (me : task) (j : job) (sh : shared) (p : job_phase) (ops : list job_op) : option (shared * job_phase * list obs) :=
  match ops with
  | [] => Some (sh, p, [])
  | op :: r => match job_step glob cx me j sh p op with
               | Some (sh1, p1, o1) => match jexec me j sh1 p1 r with Some (sh2, p2, o2) => Some (sh2, p2, o1 ++ o2) | None => None end
               | None => None
               end
  end.
Lemma jexec_app me j a : forall b sh p sh1 p1 o1 sh2 p2 o2, jexec me j sh p a = Some (sh1, p1, o1) -> jexec me j sh1 p1 b = Some (sh2, p2, o2) ->
  jexec me j sh p (a ++ b) = Some (sh2, p2, o1 ++ o2).
Proof.
  induction a as [|op a IH]; intros b sh p sh1 p1 o1 sh2 p2 o2 E1 E2; cbn [jexec app] in *; [injection E1 as <- <- <-; exact E2|].
  destruct (job_step glob cx me j sh p op) as [[[sh' p'] o']|]; [|discriminate]. destruct (jexec me j sh' p' a) as [[[sh3 p3] o3]|] eqn:E3; [|discriminate].
  injection E1 as <- <- <-. rewrite (IH _ _ _ _ _ _ _ _ _ E3 E2), app_assoc. reflexivity.
Qed.

(** One step runs and ends with [rr]. *)
Definition step_ops (rr : run_result) : list job_op :=
  job_open ++ [JStep (OpRunner (REndCheck 1 rr)); JStep (OpRunner (REndCommit 1)); JStep OpStream] ++ repeat (JStep OpNext) 4 ++ [JNext].
Lemma step_goes me j sh st a rr t0 js rs rest : lookup (step_id_job_id (st_id st)) (sm_reg (sh_sm sh)) = Some a ->
  exists r o, jexec me j sh (JpStepRun t0 js rs (SpBefore st) rest) (step_ops rr) = Some (sh, JpSteps t0 (job_state_after js r) (rs ++ [r]) rest, o) /\
    sr_state r = fst (result_state rr) /\ honest o.
Proof.
  intros L. exists (StepRunResult (st_id st) (fst (result_state rr)) (snd (result_state rr)) (Some (sh_now sh)) (Some (sh_now sh))). eexists. split; [|split].
  - unfold step_ops, job_open. cbn [app repeat jexec job_step step_step]. change (snd (call_on_before_run_step unit c26_hooks st tt)) with st.
    rewrite L. cbn [jexec job_step step_step runner_step runner_stream_op]. reflexivity.
  - reflexivity.
  - intros c b H. cbn in H. repeat (destruct H as [H|H]; [discriminate H|]). destruct H.
Qed.

Definition rr_of (s : wf_state) : run_result := match s with Succeeded => RSucceeded | Cancelled => RCancelled | _ => RFailed 1%Z end.
Lemma rr_of_state k n : fst (result_state (rr_of (res k n))) = res k n.
Proof. destruct (Hres k n) as [E|[E|E]]; rewrite E; reflexivity. Qed.

Lemma good_app k rs x : good k rs -> (sr_state x <> Skipped -> sr_state x = res k (length rs)) -> good k (rs ++ [x]).
Proof.
  intros G X n y E N. destruct (Nat.lt_ge_cases n (length rs)) as [Hl|Hl].
  - rewrite nth_error_app1 in E by exact Hl. exact (G _ _ E N).
  - rewrite nth_error_app2 in E by exact Hl. destruct (n - length rs) as [|m] eqn:D; cbn in E; [|destruct m; discriminate].
    injection E as <-. replace n with (length rs) by lia. auto.
Qed.

Lemma steps_go me j k a :
  forall sts sh t0 js rs, lookup (jb_id j) (sm_reg (sh_sm sh)) = Some a -> decides sh -> (forall st, In st sts -> step_id_job_id (st_id st) = jb_id j) -> good k rs ->
  exists ops sh' js' rs' o, jexec me j sh (JpSteps t0 js rs sts) ops = Some (sh', JpSteps t0 js' rs' [], o) /\ good k rs' /\ honest o /\ decides sh'.
Proof.
  induction sts as [|st sts IH]; intros sh t0 js rs L D Own G.
  { exists [], sh, js, rs, []. split; [reflexivity|]. split; [exact G|]. split; [apply honest_nil|exact D]. }
  assert (Skip : forall ops1 sh1 o, honest o -> decides sh1 -> sh_sm sh1 = sh_sm sh -> jexec me j sh (JpSteps t0 js rs (st :: sts)) ops1 = Some (sh1, JpStepSkip t0 js rs st sts, o) ->
    exists ops sh' js' rs' o, jexec me j sh (JpSteps t0 js rs (st :: sts)) ops = Some (sh', JpSteps t0 js' rs' [], o) /\ good k rs' /\ honest o /\ decides sh').
  { intros ops1 sh1 o Ho D1 S1 E. rewrite <- S1 in L. destruct (IH sh1 t0 js (rs ++ [skipped_step_result st]) L D1) as (ops & sh' & js' & rs' & o' & E' & G' & H' & D'); [intros; apply Own; right; assumption| |].
    { apply good_app; [exact G|]. cbn. intros Hn. destruct (Hn eq_refl). }
    exists (ops1 ++ JNext :: ops), sh', js', rs', (o ++ step_obs st Skipped ++ o'). split; [|split; [exact G'|split; [|exact D']]].
    - eapply jexec_app; [exact E|]. cbn [jexec job_step]. rewrite E'. reflexivity.
    - apply honest_app; [exact Ho|]. apply honest_app; [|exact H']. intros c b [X|[]]. discriminate X. }
  assert (Run : forall ops1 sh1 o, honest o -> decides sh1 -> sh_sm sh1 = sh_sm sh -> jexec me j sh (JpSteps t0 js rs (st :: sts)) ops1 = Some (sh1, JpStepRun t0 js rs (SpBefore st) sts, o) ->
    exists ops sh' js' rs' o, jexec me j sh (JpSteps t0 js rs (st :: sts)) ops = Some (sh', JpSteps t0 js' rs' [], o) /\ good k rs' /\ honest o /\ decides sh').
  { intros ops1 sh1 o Ho D1 S1 E. rewrite <- S1 in L.
    destruct (step_goes me j sh1 st a (rr_of (res k (length rs))) t0 js rs sts) as (r & o1 & E1 & R1 & H1); [rewrite (Own st (or_introl eq_refl)); exact L|].
    destruct (IH sh1 t0 (job_state_after js r) (rs ++ [r]) L D1) as (ops & sh' & js' & rs' & o' & E' & G' & H' & D'); [intros; apply Own; right; assumption| |].
    { apply good_app; [exact G|]. intros _. rewrite R1. apply rr_of_state. }
    exists (ops1 ++ step_ops (rr_of (res k (length rs))) ++ ops), sh', js', rs', (o ++ o1 ++ o'). split; [|split; [exact G'|split; [|exact D']]].
    - eapply jexec_app; [exact E|]. eapply jexec_app; [exact E1|]. exact E'.
    - apply honest_app; [exact Ho|]. apply honest_app; assumption. }
  destruct (forced_skip js st) eqn:F.
  - apply (Skip [JNext] sh []); [apply honest_nil|exact D|reflexivity|]. cbn [jexec job_step]. rewrite F. reflexivity.
  - destruct (st_on st) as [c|] eqn:On.
    + assert (Hc : honest [OMatch c (matches c)]) by (intros c' b' [X|[]]; injection X as <- <-; reflexivity).
      destruct (decides_check sh c D) as [Dc|(ev & gh & cache & N1 & N2 & Dc)]; destruct (matches c) eqn:M.
      * apply (Run [JNext] sh _ Hc D eq_refl). cbn [jexec job_step]. rewrite F, On, Dc. reflexivity.
      * apply (Skip [JNext] sh _ Hc D eq_refl). cbn [jexec job_step]. rewrite F, On, Dc. reflexivity.
      * apply (Run [JNext; JGithub gh] _ _ Hc Dc eq_refl). cbn [jexec job_step]. rewrite F, On, N1. cbn [job_step]. rewrite N2. reflexivity.
      * apply (Skip [JNext; JGithub gh] _ _ Hc Dc eq_refl). cbn [jexec job_step]. rewrite F, On, N1. cbn [job_step]. rewrite N2. reflexivity.
    + apply (Run [JNext] sh []); [apply honest_nil|exact D|reflexivity|]. cbn [jexec job_step]. rewrite F, On. reflexivity.
Qed.

(** A whole job. *)
Lemma job_goes me j k sh : owns_steps j -> decides sh ->
  exists ops sh' r o, jexec me j sh JpCheck ops = Some (sh', JpReturned r, o) /\ good k (jr_steps r) /\ honest o /\ decides sh'.
Proof.
  intros Own D.
  assert (Go : forall ops1 sh0 o, honest o -> decides sh0 -> jexec me j sh JpCheck ops1 = Some (sh0, JpStart, o) ->
    exists ops sh' r o, jexec me j sh JpCheck ops = Some (sh', JpReturned r, o) /\ good k (jr_steps r) /\ honest o /\ decides sh').
  { intros ops1 sh0 o Ho D0 E. set (sh1 := set_sm (fst (sm_step (sh_sm sh0) (MRegister (jb_id j)))) sh0).
    assert (D1 : decides sh1) by exact D0.
    assert (L : exists a, lookup (jb_id j) (sm_reg (sh_sm sh1)) = Some a).
    { subst sh1. unfold set_sm. cbn [sh_sm sm_step fst sm_reg]. eexists. apply lookup_insert_eq. }
    destruct L as (a & L).
    destruct (steps_go me j k a (jb_steps j) sh1 (sh_now sh0) InProgress [] L D1) as (ops & sh2 & js' & rs' & o' & E' & G' & H' & D2); [exact Own|intros n x X; destruct n; discriminate X|].
    do 4 eexists. split; [|split; [|split]].
    - eapply jexec_app; [exact E|]. eapply (jexec_app _ _ [JNext; JNext; JNext; JNext]); [reflexivity|]. eapply jexec_app; [exact E'|].
      instantiate (4 := [JNext; JNext; JNext; JNext]). reflexivity.
    - exact G'.
    - apply honest_app; [exact Ho|]. apply honest_app; [|apply honest_app; [exact H'|]]; intros c b X; cbn in X;
        repeat (destruct X as [X|X]; [discriminate X|]); destruct X.
    - exact D2. }
  assert (Not : forall ops1 sh0 o, honest o -> decides sh0 -> jexec me j sh JpCheck ops1 = Some (sh0, JpSkip, o) ->
    exists ops sh' r o, jexec me j sh JpCheck ops = Some (sh', JpReturned r, o) /\ good k (jr_steps r) /\ honest o /\ decides sh').
  { intros ops1 sh0 o Ho D0 E. exists (ops1 ++ [JNext]), sh0, (JobRunResult (jb_id j) Skipped None None []), (o ++ job_obs j Skipped). split; [|split; [|split; [|exact D0]]].
    - eapply jexec_app; [exact E|]. reflexivity.
    - intros n x X. destruct n; discriminate X.
    - apply honest_app; [exact Ho|]. intros c' b' [X|[]]. discriminate X. }
  destruct (jb_on j) as [c|] eqn:On.
  - assert (Hc : honest [OMatch c (matches c)]) by (intros c' b' [X|[]]; injection X as <- <-; reflexivity).
    destruct (decides_check sh c D) as [Dc|(ev & gh & cache & N1 & N2 & Dc)]; destruct (matches c) eqn:M.
    + apply (Go [JNext] sh _ Hc D). cbn [jexec job_step]. rewrite On, Dc. reflexivity.
    + apply (Not [JNext] sh _ Hc D). cbn [jexec job_step]. rewrite On, Dc. reflexivity.
    + apply (Go [JNext; JGithub gh] _ _ Hc Dc). cbn [jexec job_step]. rewrite On, N1. cbn [job_step]. rewrite N2. reflexivity.
    + apply (Not [JNext; JGithub gh] _ _ Hc Dc). cbn [jexec job_step]. rewrite On, N1. cbn [job_step]. rewrite N2. reflexivity.
  - apply (Go [JNext] sh []); [apply honest_nil|exact D|]. cbn [jexec job_step]. rewrite On. reflexivity.
Qed.

(** ** The workflow *)
Variable wf : workflow.
Definition outside (op : wop) : bool := match op with WEnv _ => true | _ => false end.
Definition goes (s : wstate) (t : trace) (s' : wstate) : Prop := exists ops, wexec glob cx wf s ops = Some (s', t) /\ existsb outside ops = false.
Lemma goes_refl s : goes s [] s.
Proof. exists []. split; reflexivity. Qed.
Lemma goes_step s op o s1 t s2 : wstep glob cx wf s op = Some (s1, o) -> outside op = false -> goes s1 t s2 -> goes s (o ++ t) s2.
Proof. intros E N (ops & H & M). exists (op :: ops). cbn [wexec existsb]. rewrite E, H, N, M. split; reflexivity. Qed.
Lemma goes_trans s t s1 t1 s2 : goes s t s1 -> goes s1 t1 s2 -> goes s (t ++ t1) s2.
Proof.
  intros (ops & H & M) (ops1 & H1 & M1). exists (ops ++ ops1). split; [|rewrite existsb_app, M, M1; reflexivity]. clear M M1.
  revert s t H. induction ops as [|op ops IH]; intros s t H; cbn [wexec app] in *; [injection H as -> <-; exact H1|].
  destruct (wstep glob cx wf s op) as [[s' o]|]; [|discriminate]. destruct (wexec glob cx wf s' ops) as [[s2' o2]|] eqn:E; [|discriminate]. injection H as -> <-.
  rewrite (IH _ _ E), app_assoc. reflexivity.
Qed.

(** What a piece of a run shows about conditions and results. *)
Definition fine (t : trace) (recs : list (string * job_run_result)) : Prop :=
  received t = recs /\ (forall w c b, In (w, OMatch c b) t -> b = matches c) /\ (forall k r, In (k, r) recs -> good k (jr_steps r)).
Lemma fine_nil : fine [] [].
Proof. split; [reflexivity|]. split; [intros w c b []|intros k r []]. Qed.
Lemma fine_app t1 r1 t2 r2 : fine t1 r1 -> fine t2 r2 -> fine (t1 ++ t2) (r1 ++ r2).
Proof.
  intros (A1 & B1 & C1) (A2 & B2 & C2). split; [rewrite received_app; congruence|].
  split; [intros w c b H|intros k r H]; apply in_app_or in H as [H|H]; eauto.
Qed.
Lemma fine_plain w o : match o with OMatch _ _ | OReceive _ _ => False | _ => True end -> fine [(w, o)] [].
Proof.
  intros H. split; [|split; [|intros k r []]].
  - unfold received, events_of. cbn [flat_map fst snd]. destruct (eqb w None); [|reflexivity]. destruct o; try reflexivity; destruct H.
  - intros w' c b [E|[]]. injection E as <- ->. destruct H.
Qed.
Lemma fine_match w c : fine [(w, OMatch c (matches c))] [].
Proof.
  split; [|split; [|intros k r []]].
  - unfold received, events_of. cbn [flat_map fst snd]. destruct (eqb w None); reflexivity.
  - intros w' c' b [E|[]]. injection E as <- <- <-. reflexivity.
Qed.
Lemma fine_task i o : honest o -> fine (map (fun x => (Some i, x)) o) [].
Proof.
  intros H. split; [|split; [|intros k r []]].
  - unfold received, events_of. induction o as [|x o IH]; [reflexivity|]. cbn [map flat_map fst snd]. destruct (eqb (Some i) None) eqn:E; [apply (proj1 (eqb_true _ _)) in E; discriminate E|].
    apply IH. intros c b Hc. apply H. right. exact Hc.
  - intros w c b Hi. apply in_map_iff in Hi as (x & E & Hx). injection E as _ ->. exact (H _ _ Hx).
Qed.

Lemma task_goes i key j sent : forall ops sh main tasks chan p sh' p' o, nth_error tasks i = Some (WTask key j p sent) -> jexec (S i) j sh p ops = Some (sh', p', o) ->
  exists tasks', goes (WState sh main tasks chan) (map (fun x => (Some i, x)) o) (WState sh' main tasks' chan) /\
    nth_error tasks' i = Some (WTask key j p' sent) /\ forall n, n <> i -> nth_error tasks' n = nth_error tasks n.
Proof.
  induction ops as [|op ops IH]; intros sh main tasks chan p sh' p' o Ht E; cbn [jexec] in E.
  { injection E as <- <- <-. exists tasks. split; [apply goes_refl|]. auto. }
  destruct (job_step glob cx (S i) j sh p op) as [[[sh1 p1] o1]|] eqn:E1; [|discriminate]. destruct (jexec (S i) j sh1 p1 ops) as [[[sh2 p2] o2]|] eqn:E2; [|discriminate]. injection E as <- <- <-.
  destruct (IH sh1 main (list_set i (WTask key j p1 sent) tasks) chan p1 _ _ _ (list_set_eq i _ _ _ Ht) E2) as (tasks' & G & N & O).
  exists tasks'. split; [|split; [exact N|]].
  - rewrite map_app. eapply (goes_step _ (WTaskOp i op)); [|reflexivity|exact G]. cbn [wstep ws_tasks ws_sh ws_main ws_chan]. rewrite Ht. cbn [tk_job tk_phase tk_key tk_sent]. rewrite E1. reflexivity.
  - intros n Hn. rewrite (O n Hn). apply list_set_ne, Hn.
Qed.

(** Receiving the result of a task that has not begun yet. *)
Lemma deliver i key j sh t0 ws waiting results tasks : nth_error tasks i = Some (WTask key j JpCheck false) -> owns_steps j -> decides sh ->
  exists sh' tasks' r t, let results' := insert key r results in
    goes (WState sh (WpLoop t0 ws waiting results) tasks []) t
      (WState sh' (if Nat.eqb (length results') (length (wf_jobs wf))
                   then WpBroken t0 (match ws_after ws r with InProgress => Succeeded | _ => ws_after ws r end) results'
                   else let waiting' := filter (fun kj => negb (eqb (fst kj) key)) waiting in WpScan t0 (ws_after ws r) waiting' results' waiting') tasks' []) /\
    fine t [(key, r)] /\ decides sh' /\ forall n, n <> i -> nth_error tasks' n = nth_error tasks n.
Proof.
  intros Ht Own D. destruct (job_goes (S i) j key sh Own D) as (ops & sh' & r & o & E & G & H & D').
  destruct (task_goes i key j false ops sh (WpLoop t0 ws waiting results) tasks [] _ _ _ _ Ht E) as (tasks1 & G1 & N1 & O1).
  exists sh', (list_set i (WTask key j (JpReturned r) true) tasks1), r. eexists. cbv zeta. split; [|split; [|split; [exact D'|]]].
  - eapply goes_trans; [exact G1|]. eapply (goes_step _ (WSend i)).
    { cbn [wstep ws_tasks]. rewrite N1. cbn [ws_main ws_chan]. reflexivity. }
    { reflexivity. }
    eapply (goes_step _ WMain); [|reflexivity|apply goes_refl]. cbn [wstep main_step ws_main ws_chan app]. reflexivity.
  - apply (fine_app _ [] _ [_]); [apply fine_task, H|]. cbn [app]. split; [reflexivity|]. split; [intros w c b [X|[]]; discriminate X|].
    intros k' r' [X|[]]. injection X as <- <-. exact G.
  - intros n Hn. rewrite list_set_ne by exact Hn. apply O1, Hn.
Qed.

Lemma scan_goes sh t0 ws waiting results : forall todo tasks,
  exists t, goes (WState sh (WpScan t0 ws waiting results todo) tasks []) t
    (WState sh (WpLoop t0 ws waiting results) (tasks ++ map new_task (filter (fun kj => ready results (snd kj)) todo)) []) /\ fine t [].
Proof.
  induction todo as [|[k j] todo IH]; intros tasks.
  { eexists. split; [eapply (goes_step _ WMain); [reflexivity|reflexivity|]; cbn [filter map]; rewrite app_nil_r; apply goes_refl|apply fine_nil]. }
  cbn [filter snd]. destruct (ready results j) eqn:E.
  - destruct (IH (tasks ++ [new_task (k, j)])) as (t & G & Ft). exists ([(None, OSpawn k)] ++ t). split.
    + eapply (goes_step _ WMain).
      { cbn [wstep main_step ws_main]. rewrite E. reflexivity. }
      { reflexivity. }
      cbn [map] in *. rewrite <- app_assoc in G. exact G.
    + apply (fine_app _ [] _ []); [apply fine_plain; exact Logic.I|exact Ft].
  - destruct (IH tasks) as (t & G & Ft). exists ([] ++ t). split; [|exact Ft]. eapply (goes_step _ WMain); [|reflexivity|exact G].
    cbn [wstep main_step ws_main]. rewrite E. reflexivity.
Qed.
Lemma spawn_goes sh t0 : forall rest ws waiting tasks,
  exists ws' t, goes (WState sh (WpSpawn t0 ws waiting rest) tasks []) t
    (WState sh (WpLoop t0 ws' (waiting ++ filter (fun kj => has_deps (snd kj)) rest) []) (tasks ++ map new_task (filter (fun kj => negb (has_deps (snd kj))) rest)) []) /\ fine t [].
Proof.
  induction rest as [|[k j] rest IH]; intros ws waiting tasks.
  { exists ws. eexists. split; [eapply (goes_step _ WMain); [reflexivity|reflexivity|]; cbn [filter map]; rewrite !app_nil_r; apply goes_refl|apply fine_nil]. }
  cbn [filter snd]. destruct (has_deps j) eqn:E; cbn [negb].
  - destruct (IH (if has_missing_dep wf j then Failed else ws) (waiting ++ [(k, j)]) tasks) as (ws' & t & G & Ft). exists ws', ([] ++ t). split; [|exact Ft].
    eapply (goes_step _ WMain); [cbn [wstep main_step ws_main]; rewrite E; reflexivity|reflexivity|]. rewrite <- app_assoc in G. exact G.
  - destruct (IH ws waiting (tasks ++ [new_task (k, j)])) as (ws' & t & G & Ft). exists ws', ([(None, OSpawn k)] ++ t). split.
    + eapply (goes_step _ WMain); [cbn [wstep main_step ws_main]; rewrite E; reflexivity|reflexivity|]. cbn [map] in *. rewrite <- app_assoc in G. exact G.
    + apply (fine_app _ [] _ []); [apply fine_plain; exact Logic.I|exact Ft].
Qed.

(** The keys [P] have been received, nothing else has begun. *)
Definition at_loop (P : list string) (s : wstate) : Prop := exists sh t0 ws waiting results tasks,
  s = WState sh (WpLoop t0 ws waiting results) tasks [] /\ decides sh /\ (forall k, In k (keys results) <-> In k P) /\ length results = length P /\
  (forall k j, In (k, j) (wf_jobs wf) -> has_deps j = true -> ~ In k P -> In (k, j) waiting) /\
  (forall k j, In (k, j) (wf_jobs wf) -> ~ In k P -> (forall d, In d (jb_depends_on j) -> In d P) -> exists i, nth_error tasks i = Some (WTask k j JpCheck false)).

Lemma has_deps_none j : has_deps j = false <-> jb_depends_on j = [].
Proof. unfold has_deps. destruct (jb_depends_on j); split; congruence. Qed.

Lemma nth_in_app {A} (l l' : list A) x : In x l' -> exists i, nth_error (l ++ l') i = Some x.
Proof. intros H. apply In_nth_error. apply in_or_app. right. exact H. Qed.

(** The workflow's own condition. *)
Lemma check_goes sh : decides sh -> exists t sh', fine t [] /\ decides sh' /\ sh_now sh' = sh_now sh /\ sh_sm sh' = sh_sm sh /\
  goes (winit sh) t (WState sh' (if allowed matches (wf_on wf) then WpStart else WpSkip) [] []).
Proof.
  intros D. unfold winit. destruct (wf_on wf) as [c|] eqn:On; cbn [allowed].
  - destruct (decides_check sh c D) as [Dc|(ev & gh & cache & N1 & N2 & Dc)].
    + exists ([(None, OMatch c (matches c))] ++ []), sh. split; [apply (fine_app _ [] _ []); [apply fine_match|apply fine_nil]|]. split; [exact D|]. split; [reflexivity|]. split; [reflexivity|].
      eapply (goes_step _ WMain); [|reflexivity|apply goes_refl]. cbn [wstep main_step ws_main ws_sh]. rewrite On, Dc. reflexivity.
    + exists ([] ++ [(None, OMatch c (matches c))] ++ []), (set_cache cache sh). split; [exact (fine_match None c)|]. split; [exact Dc|]. split; [reflexivity|]. split; [reflexivity|].
      eapply (goes_step _ WMain); [cbn [wstep main_step ws_main ws_sh]; rewrite On, N1; reflexivity|reflexivity|].
      eapply (goes_step _ (WGithub gh)); [|reflexivity|apply goes_refl]. cbn [wstep set_main ws_main ws_sh ws_tasks ws_chan]. rewrite N2. reflexivity.
  - exists ([] ++ []), sh. split; [apply fine_nil|]. split; [exact D|]. split; [reflexivity|]. split; [reflexivity|].
    eapply (goes_step _ WMain); [|reflexivity|apply goes_refl]. cbn [wstep main_step ws_main]. rewrite On. reflexivity.
Qed.
Lemma begin_goes sh : decides sh -> allowed matches (wf_on wf) = true -> exists s t, goes (winit sh) t s /\ fine t [] /\ at_loop [] s.
Proof.
  intros D0 A. destruct (check_goes sh D0) as (t & sh' & Ft & D & _ & _ & G). rewrite A in G. clear D0. rename sh into sh0. rename sh' into sh.
  destruct (spawn_goes sh (sh_now sh) (wf_jobs wf) InProgress [] []) as (ws' & t1 & G1 & F1).
  do 2 eexists. split; [|split].
  - eapply goes_trans; [exact G|]. do 3 (eapply (goes_step _ WMain); [reflexivity|reflexivity|]). exact G1.
  - apply (fine_app _ [] _ []); [exact Ft|]. cbn [app].
    apply (fine_app [_] [] _ []); [apply fine_plain; exact Logic.I|]. apply (fine_app [_] [] _ []); [apply fine_plain; exact Logic.I|exact F1].
  - exists sh, (sh_now sh), ws'. do 3 eexists. split; [reflexivity|]. split; [exact D|]. split; [intros k; reflexivity|]. split; [reflexivity|]. split.
    + intros k j Hj Hd _. cbn [app]. apply filter_In. auto.
    + intros k j Hj _ Hd. cbn [app]. apply (nth_in_app []). apply in_map_iff. exists (k, j). split; [reflexivity|]. apply filter_In. split; [exact Hj|]. cbn [snd].
      destruct (has_deps j) eqn:E; [|reflexivity]. unfold has_deps in E. destruct (jb_depends_on j) as [|d ds]; [discriminate E|]. destruct (Hd d); left; reflexivity.
Qed.

Lemma length_insert_new {V} k (v : V) (m : map_ string V) : ~ In k (keys m) -> length (insert k v m) = S (length m).
Proof.
  intros H. rewrite length_insert, (proj2 (contains_key_false _ _) H). reflexivity.
Qed.

Lemma step_order P k j s : own_steps wf -> NoDup (keys (wf_jobs wf)) -> In (k, j) (wf_jobs wf) -> at_loop P s -> ~ In k P -> (forall d, In d (jb_depends_on j) -> In d P) ->
  exists s' r t, goes s t s' /\ fine t [(k, r)] /\
    (if Nat.eqb (S (length P)) (length (wf_jobs wf)) then exists t0 ws res, ws_main s' = WpBroken t0 ws res else at_loop (P ++ [k]) s').
Proof.
  intros Own Hnd Hj (sh & t0 & ws & waiting & results & tasks & -> & D & K & Len & W & T) Np Hd.
  destruct (T k j Hj Np Hd) as (i & Hi). destruct (deliver i k j sh t0 ws waiting results tasks Hi (Own _ _ Hj) D) as (sh' & tasks' & r & t & G & Ft & D' & O).
  cbv zeta in G. rewrite (length_insert_new k r) in G by (rewrite K; exact Np). rewrite Len in G.
  destruct (Nat.eqb (S (length P)) (length (wf_jobs wf))).
  { do 3 eexists. split; [exact G|]. split; [exact Ft|]. do 3 eexists. reflexivity. }
  set (results' := insert k r results) in *. set (waiting' := filter (fun kj => negb (eqb (fst kj) k)) waiting) in *.
  destruct (scan_goes sh' t0 (ws_after ws r) waiting' results' waiting' tasks') as (t2 & G2 & F2).
  do 3 eexists. split; [eapply goes_trans; [exact G|exact G2]|]. split; [apply (fine_app _ [_] _ []); [exact Ft|exact F2]|].
  assert (K' : forall x, In x (keys results') <-> In x (P ++ [k])).
  { intros x. subst results'. rewrite in_app_iff, <- K, keys_insert_in. cbn [In]. split; [intros [|]|intros [|[|[]]]]; subst; auto. }
  exists sh', t0, (ws_after ws r), waiting', results'. eexists. split; [reflexivity|]. split; [exact D'|]. split; [exact K'|]. split; [|split].
  - subst results'. rewrite length_insert_new by (rewrite K; exact Np). rewrite app_length, Len. cbn. lia.
  - intros k' j' Hj' Hd' Nk. subst waiting'. apply filter_In. split; [apply W; auto; intros X; apply Nk, in_or_app; auto|]. cbn [fst].
    destruct (eqb k' k) eqn:E; [|reflexivity]. apply (proj1 (eqb_true _ _)) in E. subst. destruct Nk. apply in_or_app. right. left. reflexivity.
  - intros k' j' Hj' Nk Hdd. destruct (has_deps j') eqn:E.
    + apply nth_in_app. apply in_map_iff. exists (k', j'). split; [reflexivity|]. apply filter_In. split.
      * subst waiting'. apply filter_In. split; [apply W; auto; intros X; apply Nk, in_or_app; auto|]. cbn [fst].
        destruct (eqb k' k) eqn:E'; [|reflexivity]. apply (proj1 (eqb_true _ _)) in E'. subst. destruct Nk. apply in_or_app. right. left. reflexivity.
      * cbn [snd]. unfold ready. rewrite E. cbn [andb]. apply forallb_forall. intros d Hdi. specialize (Hdd d Hdi). apply K' in Hdd.
        apply contains_key_true. exact Hdd.
    + apply has_deps_none in E. destruct (T k' j' Hj') as (i' & Hi'); [intros X; apply Nk, in_or_app; auto|rewrite E; intros d []|].
      exists i'. rewrite nth_error_app1.
      * rewrite O; [exact Hi'|]. intros ->. rewrite Hi in Hi'. injection Hi' as -> _. apply Nk, in_or_app. right. left. reflexivity.
      * apply nth_error_Some. rewrite O; [congruence|]. intros ->. rewrite Hi in Hi'. injection Hi' as -> _. apply Nk, in_or_app. right. left. reflexivity.
Qed.

Lemma order_goes L : own_steps wf -> NoDup (keys (wf_jobs wf)) -> job_order wf L -> forall Q P s, L = P ++ Q -> Q <> [] -> at_loop P s ->
  exists s' recs t r, goes s t s' /\ fine t recs /\ map fst recs = Q /\ ws_main s' = WpDone r.
Proof.
  intros Own Hnd (ND & Mem & Ord). induction Q as [|k Q IH]; intros P s E Ne A; [congruence|].
  assert (Hk : In k (keys (wf_jobs wf))) by (apply Mem; rewrite E; apply in_or_app; right; left; reflexivity).
  apply in_map_iff in Hk as ([k' j] & <- & Hj). cbn [fst] in *.
  assert (Np : ~ In k' P) by (rewrite E in ND; apply NoDup_remove_2 in ND; intros X; apply ND, in_or_app; auto).
  destruct (step_order P k' j s Own Hnd Hj A Np) as (s1 & r & t & G & Ft & H).
  { intros d Hd. apply (Ord P k' Q d E). exists j. auto. }
  assert (Len : length L = length (wf_jobs wf)).
  { transitivity (length (keys (wf_jobs wf))); [|apply map_length]. apply Permutation_length. apply NoDup_Permutation; assumption. }
  rewrite E, app_length in Len. cbn [length] in Len. destruct Q as [|k2 Q].
  - replace (Nat.eqb (S (length P)) (length (wf_jobs wf))) with true in H by (symmetry; apply Nat.eqb_eq; cbn in Len; lia).
    destruct H as (t0 & ws & res' & Em). destruct s1 as [sh1 m1 tk1 ch1]. cbn [ws_main] in Em. subst m1.
    do 4 eexists. split; [|split; [|split]].
    + eapply goes_trans; [exact G|]. do 3 (eapply (goes_step _ WMain); [reflexivity|reflexivity|]). apply goes_refl.
    + cbn [app]. apply (fine_app _ [(k', r)] _ []); [exact Ft|]. apply (fine_app [_] [] [_] []); apply fine_plain; exact Logic.I.
    + reflexivity.
    + reflexivity.
  - replace (Nat.eqb (S (length P)) (length (wf_jobs wf))) with false in H by (symmetry; apply Nat.eqb_neq; cbn in Len; lia).
    destruct (IH (P ++ [k']) s1) as (s' & recs & t' & r' & G' & F' & Em & Ed); [rewrite <- app_assoc; exact E|discriminate|exact H|].
    exists s', ((k', r) :: recs), (t ++ t'), r'. split; [eapply goes_trans; eassumption|]. split; [apply (fine_app _ [_]); assumption|]. split; [cbn [map fst]; congruence|exact Ed].
Qed.

Lemma order_run sh L : decides sh -> own_steps wf -> NoDup (keys (wf_jobs wf)) -> job_order wf L -> L <> [] -> allowed matches (wf_on wf) = true ->
  exists s tr r, goes (winit sh) tr s /\ ws_main s = WpDone r /\ came_out matches res tr /\ map fst (received tr) = L.
Proof.
  intros D Own Hnd Ho Ne A. destruct (begin_goes sh D A) as (s0 & t0 & G0 & F0 & A0).
  destruct (order_goes L Own Hnd Ho L [] s0 eq_refl Ne A0) as (s & recs & t & r & G & Ft & Em & Ed).
  assert (E := goes_trans _ _ _ _ _ G0 G). destruct (fine_app _ _ _ _ F0 Ft) as (R1 & R2 & R3). cbn [app] in R1, R3.
  exists s, (t0 ++ t), r. split; [exact E|split; [exact Ed|split; [split|]]].
  - exact R2.
  - rewrite R1. intros k r' n x Hin. apply (R3 k r' Hin).
  - rewrite R1. exact Em.
Qed.
Lemma goes_undisturbed now tr s : goes (winit (Shared now sm_init None)) tr s -> exists ls, undisturbed_run glob cx wf now ls s tr.
Proof.
  intros (ls & E & N). exists ls. split; [exact E|]. intros e Hin. assert (X : existsb outside ls = true) by (apply existsb_exists; exists (WEnv e); auto). congruence.
Qed.
End R.

Lemma judged_decides glob cx matches now : judged glob cx matches -> decides glob cx matches (Shared now sm_init None).
Proof.
  intros [A|(A & ev & files & E & K & M)].
  - destruct (cm_auth (cx_matcher cx)) eqn:Ea; [destruct (cm_event (cx_matcher cx)) as [ev|] eqn:Ee|].
    + right. split; [reflexivity|]. split; [exact Ea|]. exists ev, (GitHub (Err (WorkflowConfigError "")) (Err (WorkflowConfigError "")) (fun _ => Err (WorkflowConfigError ""))). split; [exact Ee|].
      unfold fetch_payload, get_changed_files, get_push_changed_files, get_pull_request_changed_files. destruct (eqb (te_event ev) "push"); [exact A|]. destruct (eqb (te_event ev) "pull_request"); exact A.
    + left. intros c. unfold is_match_first. rewrite Ea, Ee, A. reflexivity.
    + left. intros c. unfold is_match_first. rewrite Ea, A. reflexivity.
  - right. split; [reflexivity|]. split; [exact A|]. exists ev, (GitHub (Ok tt) (Ok (Some files)) (fun _ => Ok files)). split; [exact E|].
    assert (F : fetch_payload (GitHub (Ok tt) (Ok (Some files)) (fun _ => Ok files)) ev = Ok (ConditionPayload (te_event ev) (te_branch ev) files)).
    { unfold fetch_payload, get_changed_files, get_push_changed_files, get_pull_request_changed_files. destruct K as [K|[K Nn]]; rewrite K; cbn; [reflexivity|].
      destruct (te_pr_number ev); [reflexivity|congruence]. }
    rewrite F. intros c. apply Bool.eq_iff_eq_true. rewrite cond_is_match_spec. apply M.
Qed.
Lemma undisturbed_wrun glob cx wf now ls s tr : undisturbed_run glob cx wf now ls s tr -> wrun glob cx wf ls s tr.
Proof. intros [E _]. change ls with ([] ++ ls). change tr with ([] ++ tr). eapply wexec_run; [constructor|exact E]. Qed.

(** ** An order in which only dependents of [k0] come after [k0] *)
Section Order.
Variable wf : workflow.
Hypothesis Hnd : NoDup (keys (wf_jobs wf)).
Variable level : string -> nat.
Hypothesis Hlevel : forall k d, depends wf k d -> In d (keys (wf_jobs wf)) /\ level d < level k.
Variable k0 : string.

Definition deps_of (k : string) : list string := match lookup k (wf_jobs wf) with Some j => jb_depends_on j | None => [] end.
Lemma deps_of_spec k d : In d (deps_of k) <-> depends wf k d.
Proof.
  unfold deps_of, depends. split.
  - destruct (lookup k (wf_jobs wf)) as [j|] eqn:E; [|intros []]. intros H. exists j. split; [|exact H]. apply lookup_In. exact E.
  - intros (j & Hj & Hd). rewrite (In_lookup _ _ _ Hnd Hj). exact Hd.
Qed.
Fixpoint below (n : nat) (k : string) : bool :=
  match n with 0 => false | S n' => existsb (fun d => eqb d k0 || below n' d) (deps_of k) end.
Lemma below_spec : forall n k, level k < n -> (below n k = true <-> depends_trans wf k k0).
Proof.
  induction n as [|n IH]; intros k Hn; [lia|]. cbn [below]. rewrite existsb_exists. split.
  - intros (d & Hd & H). apply deps_of_spec in Hd. apply orb_true_iff in H as [H|H].
    + apply (proj1 (eqb_true _ _)) in H. subst d. apply dt_one, Hd.
    + eapply dt_more; [exact Hd|]. apply IH; [|exact H]. destruct (Hlevel _ _ Hd). lia.
  - intros H. inversion H as [a b Hd|a d b Hd Ht]; subst.
    + exists k0. split; [apply deps_of_spec, Hd|]. rewrite Base.eqb_refl. reflexivity.
    + exists d. split; [apply deps_of_spec, Hd|]. apply orb_true_iff. right. apply IH; [|exact Ht]. destruct (Hlevel _ _ Hd). lia.
Qed.
Definition dependent (k : string) : bool := below (S (level k)) k.
Lemma dependent_spec k : dependent k = true <-> depends_trans wf k k0.
Proof. apply below_spec. lia. Qed.
Lemma trans_level k d : depends_trans wf k d -> level d < level k.
Proof. induction 1 as [k d H|k d e H _ IH]; destruct (Hlevel _ _ H); lia. Qed.

Definition top : nat := S (list_max (map level (keys (wf_jobs wf)))).
Lemma top_spec k : In k (keys (wf_jobs wf)) -> level k < top.
Proof.
  intros H. unfold top. assert (X := proj1 (list_max_le (map level (keys (wf_jobs wf))) _) (Nat.le_refl _)). rewrite Forall_forall in X.
  specialize (X (level k) (in_map _ _ _ H)). lia.
Qed.
Definition rank (k : string) : nat := if dependent k then S (top + level k) else if eqb k k0 then top else level k.
Lemma rank_deps k d : depends wf k d -> rank d < rank k.
Proof.
  intros H. destruct (Hlevel _ _ H) as [Hk Hl]. assert (T := top_spec _ Hk). unfold rank.
  destruct (dependent k) eqn:E.
  - destruct (dependent d); [lia|]. destruct (eqb d k0); lia.
  - assert (Nd : dependent d = false).
    { destruct (dependent d) eqn:Ed; [|reflexivity]. apply dependent_spec in Ed. rewrite <- E. symmetry. apply dependent_spec. eapply dt_more; eassumption. }
    rewrite Nd. destruct (eqb d k0) eqn:E0.
    + apply (proj1 (eqb_true _ _)) in E0. subst d. exfalso. apply dt_one, dependent_spec in H. congruence.
    + destruct (eqb k k0); lia.
Qed.

Fixpoint ins (k : string) (l : list string) : list string :=
  match l with [] => [k] | x :: l' => if Nat.leb (rank k) (rank x) then k :: l else x :: ins k l' end.
Definition sorted (l : list string) : Prop := forall a k b x, l = a ++ k :: b -> In x b -> rank k <= rank x.
Lemma sorted_cons k l : (forall x, In x l -> rank k <= rank x) -> sorted l -> sorted (k :: l).
Proof. intros H S [|y a] k' b x E Hx; injection E as <- E; [subst; auto|]. exact (S _ _ _ _ E Hx). Qed.
Lemma ins_perm k l : Permutation (ins k l) (k :: l).
Proof. induction l as [|x l IH]; cbn [ins]; [reflexivity|]. destruct (Nat.leb (rank k) (rank x)); [reflexivity|]. rewrite IH. apply perm_swap. Qed.
Lemma sorted_tail k l : sorted (k :: l) -> sorted l.
Proof. intros S a k' b x -> Hx. apply (S (k :: a) k' b x eq_refl Hx). Qed.
Lemma ins_sorted k l : sorted l -> sorted (ins k l).
Proof.
  induction l as [|y l IH]; intros S; cbn [ins]; [apply sorted_cons; [intros x []|exact S]|].
  destruct (Nat.leb (rank k) (rank y)) eqn:E.
  - apply Nat.leb_le in E. apply sorted_cons; [|exact S]. intros x [->|Hx]; [exact E|]. assert (X := S [] y l x eq_refl Hx). lia.
  - apply Nat.leb_gt in E. apply sorted_cons; [|apply IH; eapply sorted_tail, S]. intros x Hx. apply (Permutation_in _ (ins_perm k l)) in Hx as [<-|Hx]; [lia|]. exact (S [] y l x eq_refl Hx).
Qed.
Definition order : list string := fold_right ins [] (keys (wf_jobs wf)).
Lemma order_perm : Permutation order (keys (wf_jobs wf)).
Proof.
  unfold order. generalize (keys (wf_jobs wf)) as l. intros l. induction l as [|k l IH]; cbn [fold_right]; [constructor|]. etransitivity; [apply ins_perm|apply perm_skip, IH]. Qed.
Lemma order_sorted : sorted order.
Proof.
  unfold order. generalize (keys (wf_jobs wf)) as l. intros l. induction l as [|k l IH]; cbn [fold_right]; [intros [|? ?] k b x E; discriminate E|]. apply ins_sorted, IH. Qed.

Lemma order_ok : job_order wf order.
Proof.
  split; [|split].
  - eapply Permutation_NoDup; [symmetry; apply order_perm|exact Hnd].
  - intros k. split; apply Permutation_in; [|symmetry]; apply order_perm.
  - intros a k b d E H. assert (Hr := rank_deps _ _ H). destruct (Hlevel _ _ H) as [Hd _].
    apply (Permutation_in _ (Permutation_sym order_perm)) in Hd. rewrite E in Hd. apply in_app_or in Hd as [Hd|[<-|Hd]]; [exact Hd|lia|].
    assert (X := order_sorted _ _ _ _ E Hd). lia.
Qed.
Lemma order_after a b x : order = a ++ k0 :: b -> In x b -> depends_trans wf x k0.
Proof.
  intros E Hx. apply dependent_spec. assert (X := order_sorted _ _ _ _ E Hx).
  assert (ND : NoDup order) by apply order_ok. rewrite E in ND. apply NoDup_remove_2 in ND.
  assert (Kx : In x (keys (wf_jobs wf))) by (apply (Permutation_in _ order_perm); rewrite E; apply in_or_app; right; right; exact Hx).
  assert (T := top_spec _ Kx). unfold rank in X. rewrite Base.eqb_refl in X.
  assert (N0 : dependent k0 = false).
  { destruct (dependent k0) eqn:Ed; [|reflexivity]. apply dependent_spec, trans_level in Ed. lia. }
  rewrite N0 in X. destruct (dependent x); [reflexivity|]. destruct (eqb x k0) eqn:E0; [|lia].
  apply (proj1 (eqb_true _ _)) in E0. subst x. destruct ND. apply in_or_app. auto.
Qed.
End Order.

Section Sound.
Variables (glob : glob_oracle) (cx : ectx) (wf : workflow).
Hypothesis Hnd : NoDup (keys (wf_jobs wf)).

Lemma received_after_deps ls s tr : wrun glob cx wf ls s tr -> forall a k r b d, received tr = a ++ (k, r) :: b -> depends wf k d -> In d (map fst a).
Proof.
  induction 1 as [sh|ls s tr op s' o R IH E]; intros a k r b d Er Hd; [destruct a; discriminate Er|].
  assert (R' := wrun_step _ _ _ _ _ _ _ _ _ R E).
  assert (Cases : received o = [] \/ exists x, received o = [x] /\ started o = []).
  { assert (L := wobs_le _ _ _ _ _ _ _ E). destruct o as [|[w x] [|? ?]]; [left; reflexivity| |cbn in L; lia]. destruct w as [n|]; [left; reflexivity|].
    destruct x; try (left; reflexivity). right. eexists. split; reflexivity. }
  rewrite received_app in Er. destruct Cases as [C|(x & C & C')].
  - rewrite C, app_nil_r in Er. eapply IH; eassumption.
  - rewrite C in Er. destruct b as [|y b _] using rev_ind.
    + apply app_inj_tail in Er as [Er ->]. destruct (started_is_job glob cx wf Hnd _ _ _ k R) as (j & Hj & Hdj).
      * assert (X := received_started glob cx wf Hnd _ _ _ k R'). rewrite received_app, started_app, C, C', app_nil_r in X. apply X.
        rewrite map_app. apply in_or_app. right. left. reflexivity.
      * destruct Hd as (j' & Hj' & Hd). rewrite (job_unique wf Hnd _ _ _ Hj' Hj) in Hd. rewrite <- Er. apply Hdj, Hd.
    + rewrite app_comm_cons, app_assoc in Er. apply app_inj_tail in Er as [Er _]. eapply IH; eassumption.
Qed.

Lemma received_after_trans ls s tr : wrun glob cx wf ls s tr -> forall k d, depends_trans wf k d -> forall a r b, received tr = a ++ (k, r) :: b -> In d (map fst a).
Proof.
  intros R k d H. induction H as [k d H|k d e H _ IH]; intros a r b E; [eapply received_after_deps; eassumption|].
  assert (X := received_after_deps _ _ _ R _ _ _ _ _ E H). apply in_map_iff in X as ([d' r'] & <- & Hin). cbn [fst] in *.
  apply in_split in Hin as (a1 & a2 & ->). rewrite <- app_assoc in E. cbn [app] in E. specialize (IH _ _ _ E). rewrite map_app. apply in_or_app. left. exact IH.
Qed.

Variable matches : condition -> bool.
Variable res : string -> nat -> wf_state.
Lemma received_outcome ls s tr : wrun glob cx wf ls s tr -> came_out matches res tr -> forall k jr, In (k, jr) (received tr) ->
  exists j, In (k, j) (wf_jobs wf) /\ fst (job_outcome matches res k j) = jr_state jr.
Proof.
  intros R [HM HR] k jr Hin. destruct (received_ran glob cx wf Hnd _ _ _ _ _ R Hin) as (i & j & _ & Hj & S). exists j. split; [exact Hj|].
  assert (E : (jr_state jr, map sr_state (jr_steps jr)) = job_outcome matches res k j); [|rewrite <- E; reflexivity].
  eapply job_out; [exact S| |].
  - intros c b H. apply (HM (Some i)). apply in_events_of. exact H.
  - intros m x. apply (HR k jr m x Hin).
Qed.
End Sound.
