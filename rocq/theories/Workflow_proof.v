From Verif Require Import Base Types Signals_model Signals_proof Stream_model Cond_model Plugins_model Exec_model Exec_spec
  Step_proof Job_proof Workflow_model Workflow_spec.

(** ** Lists *)
Lemma list_set_same {A} i (x : A) l : nth_error l i = Some x -> list_set i x l = l.
Proof. revert i; induction l as [|a l IH]; intros [|i] H; cbn in *; try discriminate; [congruence|rewrite IH; auto]. Qed.
Lemma map_list_set {A B} (f : A -> B) i x y l : nth_error l i = Some y -> f x = f y -> map f (list_set i x l) = map f l.
Proof. revert i; induction l as [|a l IH]; intros [|i] H E; cbn in *; try discriminate; [congruence|f_equal; apply IH; auto]. Qed.
Lemma list_set_eq {A} i (x : A) l y : nth_error l i = Some y -> nth_error (list_set i x l) i = Some x.
Proof. intros H. rewrite nth_error_list_set, H. destruct (Nat.eq_dec i i); congruence. Qed.
Lemma list_set_ne {A} i k (x : A) l : k <> i -> nth_error (list_set i x l) k = nth_error l k.
Proof. intros H. rewrite nth_error_list_set. destruct (Nat.eq_dec k i); congruence. Qed.
Lemma in_list_set {A} i (x : A) l z : In z (list_set i x l) -> z = x \/ In z l.
Proof. revert i; induction l as [|a l IH]; intros [|i]; cbn; intuition. destruct (IH _ H0); auto. Qed.
Lemma filter_filter {A} (f g : A -> bool) l : filter f (filter g l) = filter (fun x => g x && f x) l.
Proof. induction l as [|a l IH]; cbn; auto. destruct (g a); cbn; rewrite IH; reflexivity. Qed.
Lemma filter_nil {A} (f : A -> bool) l : (forall x, In x l -> f x = false) -> filter f l = [].
Proof. induction l as [|a l IH]; cbn; auto. intros H. rewrite (H a) by auto. apply IH. auto. Qed.

Lemma events_of_app w a b : events_of w (a ++ b) = events_of w a ++ events_of w b.
Proof. unfold events_of. apply flat_map_app. Qed.
Lemma events_of_map_same w l : events_of w (map (fun x => (w, x)) l) = l.
Proof. induction l as [|a l IH]; cbn; auto. rewrite eqb_refl. cbn. f_equal. exact IH. Qed.
Lemma events_of_map_other w w' l : w <> w' -> events_of w (map (fun x => (w', x)) l) = [].
Proof.
  intros H. assert (E : eqb w' w = false) by (apply eqb_false; congruence).
  induction l as [|a l IH]; [reflexivity|]. unfold events_of in *. cbn [map flat_map fst]. rewrite E. exact IH.
Qed.

Lemma received_in_app a b : received_in (a ++ b) = received_in a ++ received_in b.
Proof. apply flat_map_app. Qed.
Lemma started_in_app a b : started_in (a ++ b) = started_in a ++ started_in b.
Proof. apply flat_map_app. Qed.
Lemma received_spawns l : received_in (map OSpawn l) = [].
Proof. induction l; cbn; auto. Qed.
Lemma started_spawns l : started_in (map OSpawn l) = l.
Proof. induction l; cbn; auto. f_equal; assumption. Qed.

Lemma reactions_app wf a b : forall e, reactions wf e (a ++ b) = reactions wf e a ++ reactions wf (e ++ map fst a) b.
Proof.
  induction a as [|[k r] a IH]; intros e; cbn; [rewrite app_nil_r; reflexivity|].
  rewrite IH, <- !app_assoc. reflexivity.
Qed.
Lemma received_reactions wf recs : forall e, received_in (reactions wf e recs) = recs.
Proof.
  induction recs as [|[k r] recs IH]; intros e; [reflexivity|]. cbn [reactions]. change (OReceive k r :: ?x) with ([OReceive k r] ++ x).
  rewrite !received_in_app, received_spawns, IH. reflexivity.
Qed.

Section P.
Variable glob : glob_oracle.
Variable cx : ectx.
Variable wf : workflow.
Notation wstep := (wstep glob cx wf).
Notation wrun := (wrun glob cx wf).

(** ** Steps of the main task *)
Lemma main_sh s s' o : main_step glob cx wf s = Some (s', o) -> ws_sh s' = ws_sh s.
Proof.
  unfold main_step. destruct (ws_main s) as [|c ev| | |t0|t0|t0 w wa [|[k j] rest]|t0 w wa rs|t0 w wa rs [|[k j] todo]|t0 w rs|r|r|r]; try discriminate;
    try (intros [= <- <-]; reflexivity).
  - destruct (wf_on wf) as [c|]; [destruct (is_match_first _ _ _ _)|]; intros [= <- <-]; reflexivity.
  - destruct (has_deps j); intros [= <- <-]; reflexivity.
  - destruct (ws_chan s) as [|[k r] ch]; [discriminate|]. intros [= <- <-]; reflexivity.
  - destruct (ready rs j); intros [= <- <-]; reflexivity.
Qed.

Lemma main_tasks s s' o : main_step glob cx wf s = Some (s', o) ->
  (ws_tasks s' = ws_tasks s /\ started_in (events_of None o) = []) \/
  (exists kj, ws_tasks s' = ws_tasks s ++ [new_task kj] /\ o = [(None, OSpawn (fst kj))] /\ ws_chan s' = ws_chan s /\
     ((exists t0 w wa rest, ws_main s = WpSpawn t0 w wa (kj :: rest) /\ has_deps (snd kj) = false) \/
      (exists t0 w wa rs todo, ws_main s = WpScan t0 w wa rs (kj :: todo) /\ ready rs (snd kj) = true))).
Proof.
  unfold main_step. destruct (ws_main s) as [|c ev| | |t0|t0|t0 w wa [|[k j] rest]|t0 w wa rs|t0 w wa rs [|[k j] todo]|t0 w rs|r|r|r] eqn:Em; try discriminate;
    try (intros [= <- <-]; left; split; reflexivity).
  - destruct (wf_on wf) as [c|]; [destruct (is_match_first _ _ _ _)|]; intros [= <- <-]; left; split; reflexivity.
  - destruct (has_deps j) eqn:Eh; intros [= <- <-]; [left; split; reflexivity|].
    right. exists (k, j). repeat split; auto. left. eauto 6.
  - destruct (ws_chan s) as [|[k r] ch]; [discriminate|]. intros [= <- <-]; left; split; reflexivity.
  - destruct (ready rs j) eqn:Eh; intros [= <- <-]; [|left; split; reflexivity].
    right. exists (k, j). repeat split; auto. right. eauto 7.
Qed.

Lemma main_who s s' o : main_step glob cx wf s = Some (s', o) -> forall x, In x o -> fst x = None.
Proof.
  unfold main_step. destruct (ws_main s) as [|c ev| | |t0|t0|t0 w wa [|[k j] rest]|t0 w wa rs|t0 w wa rs [|[k j] todo]|t0 w rs|r|r|r]; try discriminate;
    try (intros [= <- <-] x Hx; cbn in Hx; repeat (destruct Hx as [<-|Hx]; [reflexivity|]); destruct Hx).
  - destruct (wf_on wf) as [c|]; [destruct (is_match_first _ _ _ _)|]; intros [= <- <-] x Hx; cbn in Hx; repeat (destruct Hx as [<-|Hx]; [reflexivity|]); destruct Hx.
  - destruct (has_deps j); intros [= <- <-] x Hx; cbn in Hx; repeat (destruct Hx as [<-|Hx]; [reflexivity|]); destruct Hx.
  - destruct (ws_chan s) as [|[k r] ch]; [discriminate|]. intros [= <- <-] x Hx; cbn in Hx; repeat (destruct Hx as [<-|Hx]; [reflexivity|]); destruct Hx.
  - destruct (ready rs j); intros [= <- <-] x Hx; cbn in Hx; repeat (destruct Hx as [<-|Hx]; [reflexivity|]); destruct Hx.
Qed.

Lemma who_none_map o : (forall x : who * obs, In x o -> fst x = None) -> o = map (fun x => (None, x)) (events_of None o).
Proof.
  induction o as [|[w x] o IH]; intros H; [reflexivity|]. assert (w = None) as -> by (apply (H (w, x)); left; reflexivity).
  cbn. f_equal. apply IH. intros y Hy; apply H; right; exact Hy.
Qed.

(** ** The effect of one job on the shared state is something its neighbours see as environment. *)
Definition env_steps (sh : shared) (es : list env_op) : shared := fold_left env_step es sh.

Lemma step_as_env me sh p op sh' p' o : step_step cx me sh p op = Some (sh', p', o) ->
  sh' = sh \/ exists a, sh' = env_step sh (ESig (MSignal a (OPoll me))).
Proof.
  intros E. unfold step_step in E.
  destruct p; destruct op; try discriminate E; try (injection E as <- <- <-; left; reflexivity);
    try (destruct (runner_step _ _ _); injection E as <- <- <-; left; reflexivity).
  - destruct (lookup _ _); injection E as <- <- <-; left; reflexivity.
  - destruct ok; injection E as <- <- <-; left; reflexivity.
  - destruct (_ <=? _)%N; [|discriminate]. injection E as <- <- <-; left; reflexivity.
  - destruct (sm_step (sh_sm sh) (MSignal a (OPoll me))) as [sm' out] eqn:Es.
    assert (H : set_sm sm' sh = env_step sh (ESig (MSignal a (OPoll me)))) by (cbn [env_step]; rewrite Es; reflexivity).
    destruct out as [| | |so|]; try discriminate.
    destruct so as [| |[x|]]; try discriminate; injection E as <- <- <-; right; eauto.
  - destruct (stream_poll _ _) as [[str' [l| |]] w]; injection E as <- <- <-; left; reflexivity.
  - destruct (ss_result str); injection E as <- <- <-; left; reflexivity.
Qed.

(** [harmless j e]: an operation other participants perform, not on the registry entry of another job than [j] *)
Definition touches (id : job_id) (e : env_op) : Prop := e = ESig (MRegister id) \/ e = ESig (MUnregister id).
Lemma job_as_env me j ls sh p tr op sh' p' o : jrun glob cx me j ls sh p tr -> job_step glob cx me j sh p op = Some (sh', p', o) ->
  exists es, sh' = env_steps sh es /\ length es <= 1 /\ forall e, In e es -> forall id, touches id e -> id = jb_id j.
Proof.
  intros R E. apply jrun_inv in R.
  assert (Nil : exists es, sh = env_steps sh es /\ length es <= 1 /\ forall e, In e es -> forall id, touches id e -> id = jb_id j).
  { exists []. cbn. intuition. }
  assert (Ca : forall c, exists es, set_cache c sh = env_steps sh es /\ length es <= 1 /\ forall e, In e es -> forall id, touches id e -> id = jb_id j).
  { intros c. exists [ECache c]. cbn. split; [reflexivity|]. split; [lia|]. intros e [<-|[]] id [C|C]; discriminate C. }
  unfold job_step in E. destruct p as [|c ev| | |t0|t0|t0|t0 js rs rest|t0 js rs st rest c ev|t0 js rs st rest|t0 js rs sp rest|r|r|r|r];
    destruct op as [|gh|sop]; try discriminate E; try (destruct rest; discriminate E); try (injection E as <- <- <-; exact Nil).
  - destruct (jb_on j); [destruct (is_match_first _ _ _ _)|]; injection E as <- <- <-; exact Nil.
  - destruct (is_match_second _ _ _ _); injection E as <- <- <-; apply Ca.
  - injection E as <- <- <-. exists [ESig (MRegister (jb_id j))]. split; [reflexivity|]. split; [cbn; lia|].
    intros e [<-|[]] id [C|C]; congruence.
  - destruct rest as [|st rest]; [|destruct (forced_skip js st); [|destruct (st_on st); [destruct (is_match_first _ _ _ _)|]]]; injection E as <- <- <-; exact Nil.
  - destruct (is_match_second _ _ _ _); injection E as <- <- <-; apply Ca.
  - destruct sp; try discriminate E; injection E as <- <- <-; exact Nil.
  - destruct sp; discriminate E.
  - assert (E' : match step_step cx me sh sp sop with
             | Some (sh'0, sp', o) => Some (sh'0, JpStepRun t0 js rs sp' rest, o) | None => None end = Some (sh', p', o))
          by (destruct sp; exact E). clear E.
    destruct (step_step cx me sh sp sop) as [[[sh1 sp1] o1]|] eqn:Es; [|discriminate]. injection E' as <- <- <-.
    apply step_as_env in Es as [->|[a ->]]; [exact Nil|]. exists [ESig (MSignal a (OPoll me))].
    split; [reflexivity|]. split; [cbn; lia|]. intros e [<-|[]] id [C|C]; discriminate C.
  - injection E as <- <- <-. cbn in R. destruct R as (tr' & (chk & evs & t0 & t1 & _ & _ & _ & _ & _ & Hid & _) & _).
    exists [ESig (MUnregister (jr_id r))]. split; [reflexivity|]. split; [cbn; lia|].
    intros e [<-|[]] id [C|C]; congruence.
Qed.

Lemma jrun_envs me j ls sh p tr es : jrun glob cx me j ls sh p tr -> jrun glob cx me j (ls ++ map JEnv es) (env_steps sh es) p tr.
Proof.
  intros R. induction es as [|e es IH] using rev_ind; [cbn; rewrite app_nil_r; exact R|].
  unfold env_steps in *. rewrite fold_left_snoc, map_app, app_assoc. apply jrun_env, IH.
Qed.

(** ** Every job task behaves like a job. [origin] records where the labels come from. *)
Definition label_ok (wls : list wop) (s : wstate) (i : nat) (l : jlabel) : Prop :=
  match l with
  | JOwn op => In (WTaskOp i op) wls
  | JEnv e => In (WEnv e) wls \/ (forall id, touches id e -> exists k t, k <> i /\ nth_error (ws_tasks s) k = Some t /\ id = jb_id (tk_job t))
  end.

Definition tasks_run (wls : list wop) (s : wstate) (tr : trace) : Prop :=
  (forall i t, nth_error (ws_tasks s) i = Some t ->
     exists jls, jrun glob cx (S i) (tk_job t) jls (ws_sh s) (tk_phase t) (events_of (Some i) tr) /\
       forall l, In l jls -> label_ok wls s i l) /\
  (forall i, length (ws_tasks s) <= i -> events_of (Some i) tr = []).

Lemma label_mono wls op s s' i l :
  (forall k t, nth_error (ws_tasks s) k = Some t -> exists t', nth_error (ws_tasks s') k = Some t' /\ tk_job t' = tk_job t) ->
  label_ok wls s i l -> label_ok (wls ++ [op]) s' i l.
Proof.
  intros H. destruct l as [o|e]; cbn; [intros; apply in_or_app; auto|].
  intros [L|L]; [left; apply in_or_app; auto|]. right. intros id T. destruct (L id T) as (k & t & Hk & Ht & E).
  destruct (H k t Ht) as (t' & Ht' & Ej). exists k, t'. repeat split; auto; congruence.
Qed.

Lemma tasks_run_inv wls s tr : wrun wls s tr -> tasks_run wls s tr.
Proof.
  induction 1 as [sh|wls s tr op s' o R [IH1 IH2] E].
  { split; [intros [|i] t C; discriminate C|reflexivity]. }
  destruct op as [|gh|i op|i|e]; cbn [Workflow_model.wstep] in E.
  - (* main *)
    assert (Hsh := main_sh _ _ _ E). assert (Hw := main_who _ _ _ E). apply main_tasks in E.
    assert (Hev : forall i, events_of (Some i) o = []).
    { intros i. rewrite (who_none_map o Hw). apply events_of_map_other. discriminate. }
    destruct E as [[Et _]|(kj & Et & Eo & _)].
    + split.
      * intros i t Ht. rewrite Et in Ht. destruct (IH1 i t Ht) as (jls & J & L). exists jls. rewrite Hsh, events_of_app, Hev, app_nil_r.
        split; [exact J|]. intros l Hl. eapply label_mono; [|apply L, Hl]. intros k t' Hk. rewrite Et. eauto.
      * intros i Hi. rewrite events_of_app, Hev, app_nil_r. apply IH2. rewrite <- Et. exact Hi.
    + split.
      * intros i t Ht. rewrite Et in Ht. destruct (Nat.lt_ge_cases i (length (ws_tasks s))) as [Hlt|Hge].
        -- rewrite nth_error_app1 in Ht by exact Hlt. destruct (IH1 i t Ht) as (jls & J & L). exists jls. rewrite Hsh, events_of_app, Hev, app_nil_r.
           split; [exact J|]. intros l Hl. eapply label_mono; [|apply L, Hl]. intros k t' Hk. exists t'. split; [|reflexivity].
           rewrite Et, nth_error_app1; [exact Hk|]. apply nth_error_Some. congruence.
        -- rewrite nth_error_app2 in Ht by exact Hge. destruct (i - length (ws_tasks s)) as [|m] eqn:Em; [|destruct m; discriminate Ht].
           cbn in Ht. injection Ht as <-. exists []. rewrite events_of_app, Hev, app_nil_r, IH2 by exact Hge.
           split; [apply jrun_init|intros l []].
      * intros i Hi. rewrite events_of_app, Hev, app_nil_r. apply IH2. rewrite Et, app_length in Hi. lia.
  - destruct (ws_main s); try discriminate. destruct (is_match_second _ _ _ _) as [cache' b]. injection E as <- <-. split.
    + intros i t Ht. cbn in Ht. destruct (IH1 i t Ht) as (jls & J & L). exists (jls ++ [JEnv (ECache cache')]).
      rewrite events_of_app. cbn. rewrite app_nil_r. split; [apply (jrun_env glob cx (S i) (tk_job t) _ _ _ _ (ECache cache') J)|].
      intros l Hl. apply in_app_iff in Hl as [Hl|[<-|[]]].
      * eapply label_mono; [|apply L, Hl]. cbn. eauto.
      * right. intros id [C|C]; discriminate C.
    + intros i Hi. rewrite events_of_app. cbn. rewrite app_nil_r. apply IH2, Hi.
  - destruct (nth_error (ws_tasks s) i) as [t|] eqn:Ei; [|discriminate].
    destruct (job_step glob cx (S i) (tk_job t) (ws_sh s) (tk_phase t) op) as [[[sh' p'] ob]|] eqn:Ej; [|discriminate]. injection E as <- <-.
    destruct (IH1 i t Ei) as (jls & J & L). split.
    + assert (Mono : forall k t0, nth_error (ws_tasks s) k = Some t0 ->
        exists t', nth_error (list_set i (WTask (tk_key t) (tk_job t) p' (tk_sent t)) (ws_tasks s)) k = Some t' /\ tk_job t' = tk_job t0).
      { intros k t0 Hk. destruct (Nat.eq_dec k i) as [->|Hne].
        - rewrite (list_set_eq _ _ _ t) by exact Ei. eexists; split; [reflexivity|]. cbn. congruence.
        - rewrite list_set_ne by exact Hne. eauto. }
      intros k t' Hk. cbn [ws_tasks ws_sh] in *. destruct (Nat.eq_dec k i) as [->|Hne].
      * rewrite (list_set_eq _ _ _ t) in Hk by exact Ei. injection Hk as <-. cbn.
        exists (jls ++ [JOwn op]). rewrite events_of_app, events_of_map_same. split; [eapply jrun_own; eauto|].
        intros l Hl. apply in_app_iff in Hl as [Hl|[<-|[]]].
        -- eapply label_mono; [|apply L, Hl]. exact Mono.
        -- cbn. apply in_or_app; right; left; reflexivity.
      * assert (Hk' := Hk). rewrite list_set_ne in Hk by exact Hne. destruct (IH1 k t' Hk) as (jls' & J' & L').
        destruct (job_as_env _ _ _ _ _ _ _ _ _ _ J Ej) as (es & -> & _ & Hes).
        exists (jls' ++ map JEnv es). rewrite events_of_app, events_of_map_other by congruence. rewrite app_nil_r.
        split; [apply jrun_envs, J'|]. intros l Hl. apply in_app_iff in Hl as [Hl|Hl].
        -- eapply label_mono; [|apply L', Hl]. exact Mono.
        -- apply in_map_iff in Hl as (e & <- & He). right. intros id T. rewrite (Hes e He id T). exists i.
           exists (WTask (tk_key t) (tk_job t) p' (tk_sent t)). split; [auto|]. split; [eapply list_set_eq; eauto|reflexivity].
    + intros k Hk. cbn [ws_tasks] in Hk. rewrite list_set_length in Hk. rewrite events_of_app, IH2 by exact Hk.
      apply events_of_map_other. intros [= ->]. assert (i < length (ws_tasks s)) by (apply nth_error_Some; congruence). lia.
  - destruct (nth_error (ws_tasks s) i) as [[key j p sent]|] eqn:Ei; [|discriminate]. destruct p as [| | | | | | | | | | | | | |r]; try discriminate.
    destruct sent; [discriminate|].
    assert (Et : ws_tasks s' = list_set i (WTask key j (JpReturned r) true) (ws_tasks s) /\ ws_sh s' = ws_sh s /\ o = []).
    { destruct (ws_main s); try (destruct (Nat.ltb _ _); [|discriminate E]); injection E as <- <-; auto. }
    destruct Et as (Et & Hsh & ->). rewrite app_nil_r.
    assert (Mono : forall k t0, nth_error (ws_tasks s) k = Some t0 ->
        exists t', nth_error (ws_tasks s') k = Some t' /\ tk_job t' = tk_job t0).
    { intros k t0 Hk. rewrite Et. destruct (Nat.eq_dec k i) as [->|Hne].
      - erewrite list_set_eq by exact Ei. eexists; split; [reflexivity|]. rewrite Hk in Ei. injection Ei as ->. reflexivity.
      - rewrite list_set_ne by exact Hne. eauto. }
    split.
    + intros k t' Hk. rewrite Hsh. rewrite Et in Hk. destruct (Nat.eq_dec k i) as [->|Hne].
      * erewrite list_set_eq in Hk by exact Ei. injection Hk as <-. cbn. destruct (IH1 i _ Ei) as (jls & J & L). exists jls. split; [exact J|].
        intros l Hl. eapply label_mono; [exact Mono|apply L, Hl].
      * rewrite list_set_ne in Hk by exact Hne. destruct (IH1 k _ Hk) as (jls & J & L). exists jls. split; [exact J|].
        intros l Hl. eapply label_mono; [exact Mono|apply L, Hl].
    + intros k Hk. rewrite Et, list_set_length in Hk. auto.
  - injection E as <- <-. rewrite app_nil_r. split; [|exact IH2]. intros i t Ht. cbn in Ht. destruct (IH1 i t Ht) as (jls & J & L).
    exists (jls ++ [JEnv e]). split; [apply jrun_env, J|]. intros l Hl. apply in_app_iff in Hl as [Hl|[<-|[]]].
    + eapply label_mono; [|apply L, Hl]. cbn. eauto.
    + left. apply in_or_app; right; left; reflexivity.
Qed.
End P.
