From Coq Require Import Permutation.
From Verif Require Import Base Types Signals_model Signals_proof Stream_model Stream_spec Stream_proof Cond_model
  Plugins_model Plugins_spec Plugins_proof Exec_model Exec_spec Step_proof Job_proof Workflow_model Workflow_spec Workflow_proof Workflow_inv
  Runner_model Runner_spec Runner_proof Sched_model Remote_model Remote_spec Local_model Local_spec Local_proof Distant_model Distant_spec Distant_proof System_model System_spec System_proof System_flow System_inst
  Finish_spec Finish_proof Finish_step Worker_model Worker_spec Worker_proof Worker_live Worker_props Chain_model Chain_spec Chain_proof Process_spec Process_proof Chainproc_spec.

(** ** Lists *)
Lemma flat_map_same {A B} (f g : A -> list B) l : (forall a, In a l -> f a = g a) -> flat_map f l = flat_map g l.
Proof. induction l as [|a l IH]; intros H; [reflexivity|]. cbn. rewrite H by (left; reflexivity). f_equal. apply IH. intros; apply H; right; assumption. Qed.
Lemma perm_pull {A} (f : nat -> list A) i L : NoDup L -> In i L -> Permutation (flat_map f L) (f i ++ flat_map (fun k => if Nat.eqb k i then [] else f k) L).
Proof.
  induction L as [|a L IH]; intros N H; [destruct H|]. inv N. cbn [flat_map]. destruct (Nat.eq_dec a i) as [->|Hne].
  - rewrite Nat.eqb_refl. cbn [app]. apply Permutation_app_head.
    assert (E : flat_map f L = flat_map (fun k => if Nat.eqb k i then [] else f k) L); [|rewrite E; reflexivity].
    apply flat_map_same. intros k Hk. destruct (Nat.eqb_spec k i); [subst; contradiction|reflexivity].
  - destruct H as [C|H]; [contradiction|]. rewrite (IH ltac:(assumption) H). destruct (Nat.eqb_spec a i); [contradiction|]. rewrite !app_assoc. apply Permutation_app_tail, Permutation_app_comm.
Qed.
Lemma perm_drop {A} (f g : nat -> list A) L : (forall k, In k L -> g k = f k \/ g k = []) -> exists e, Permutation (flat_map f L) (flat_map g L ++ e).
Proof.
  induction L as [|a L IH]; intros H; [exists []; reflexivity|]. destruct IH as [e He]; [intros; apply H; right; assumption|]. cbn [flat_map]. destruct (H a (or_introl eq_refl)) as [->| ->].
  - exists e. rewrite <- app_assoc. apply Permutation_app_head, He.
  - exists (f a ++ e). cbn [app]. rewrite He. rewrite !app_assoc. apply Permutation_app_tail, Permutation_app_comm.
Qed.
Lemma perm_set {A B} (f : A -> list B) l : forall k x y, nth_error l k = Some x -> exists e, Permutation (flat_map f l) (f x ++ e) /\ Permutation (flat_map f (list_set k y l)) (f y ++ e).
Proof.
  induction l as [|a l IH]; intros [|k] x y H; try discriminate H.
  - injection H as ->. exists (flat_map f l). split; reflexivity.
  - destruct (IH k x y H) as (e & E1 & E2). exists (f a ++ e). cbn [list_set flat_map]. rewrite E1, E2. split; rewrite !app_assoc; apply Permutation_app_tail, Permutation_app_comm.
Qed.
Lemma seq_beyond {A} (f : nat -> list A) n m : n <= m -> (forall k, n <= k -> f k = []) -> flat_map f (seq 0 m) = flat_map f (seq 0 n).
Proof.
  intros H F. replace m with (n + (m - n)) by lia. rewrite seq_app, flat_map_app.
  assert (E : forall l, (forall k, In k l -> n <= k) -> flat_map f l = []) by (induction l as [|a l IH]; intros G; [reflexivity|]; cbn; rewrite F by (apply G; left; reflexivity); apply IH; intros; apply G; right; assumption).
  rewrite (E (seq (0 + n) (m - n))); [|intros k Hk; apply in_seq in Hk; lia]. apply app_nil_r.
Qed.

(** ** What the rest of the system does to the runner's sides, for any runner *)
Section Flow.
Context {T iop iobs : Type}.
Variable R : rside T iop iobs.
Variable (cx : ectx) (glob : glob_oracle) (wf : workflow).
Definition kept (s s' : system (T := T)) (k : nat) : Prop := forall t' x, nth_error (ws_tasks (sy_w s')) k = Some t' -> nth_error (sy_cur s') k = Some x ->
  (exists t, nth_error (ws_tasks (sy_w s)) k = Some t /\ tk_phase t' = tk_phase t /\ nth_error (sy_cur s) k = Some x) \/
  (x = rs_init R /\ forall t0 js rs sp rest, tk_phase t' = JpStepRun t0 js rs sp rest -> exists st, sp = SpBefore st).
Lemma flow_shape ops s tr op s' o : sysinv R cx ops s tr -> sysstep R glob cx wf s (YFlow op) = Some (s', o) ->
  (forall w e, In (w, e) o -> exists y, e = inl y) /\
  ((sy_past s' = sy_past s /\ forall k, kept s s' k) \/
   (exists i t t0 js rs r rest sh x, nth_error (ws_tasks (sy_w s)) i = Some t /\ tk_phase t = JpStepRun t0 js rs (SpDone r) rest /\ nth_error (sy_cur s) i = Some x /\
      sy_past s' = sy_past s ++ [(i, (sh, SpDone r, x))] /\ (forall k, k <> i -> kept s s' k) /\
      (forall y, nth_error (sy_cur s') i = Some y -> y = rs_init R) /\
      (forall t' t0 js rs sp rest, nth_error (ws_tasks (sy_w s')) i = Some t' -> tk_phase t' = JpStepRun t0 js rs sp rest -> exists st, sp = SpBefore st))).
Proof.
  intros [I1 I2 I3 I4 I5] E. cbn [sysstep] in E. destruct (is_step_op op) eqn:Hs; [discriminate|]. destruct (wstep glob cx wf (sy_w s) op) as [[w' wtr]|] eqn:Ew; [|discriminate].
  assert (Inl : forall w e, In (w, e) o -> exists y, e = inl y).
  { intros w e H. destruct (step_over (sy_w s) op) as [[a b]|]; injection E as _ <-; apply in_map_iff in H as ([w0 y] & [= <- <-] & H); eauto. }
  split; [exact Inl|]. clear Inl.
  destruct op as [|gh|i jo|i|e].
  - left. cbn [step_over] in E. injection E as <- _. cbn [wstep] in Ew. apply main_tasks in Ew. cbn [sy_w sy_cur sy_past]. split; [apply app_nil_r|].
    intros k t' x Ht Hx. cbn [sy_w sy_cur] in Ht, Hx.
    assert (Hn : (k < length (ws_tasks (sy_w s)) /\ nth_error (ws_tasks (sy_w s)) k = Some t') \/ (length (ws_tasks (sy_w s)) <= k /\ tk_phase t' = JpCheck)).
    { destruct Ew as [[Et _]|(kj & Et & _)]; rewrite Et in Ht.
      - left. split; [apply nth_error_Some; congruence|exact Ht].
      - destruct (Nat.lt_ge_cases k (length (ws_tasks (sy_w s)))) as [Hl|Hl]; [rewrite nth_error_app1 in Ht by exact Hl; auto|].
        right. split; [exact Hl|]. rewrite nth_error_app2 in Ht by exact Hl. apply nth_error_In in Ht as [<-|[]]. reflexivity. }
    destruct Hn as [[Hl Ht']|[Hl Hp]].
    + left. exists t'. apply pad_nth in Hx as [[_ Hx]|[Hl' _]]; [|lia]. auto.
    + right. apply pad_nth in Hx as [[Hl' _]|[_ Hx]]; [lia|]. split; [exact Hx|]. intros. congruence.
  - left. cbn [step_over] in E. injection E as <- _. cbn [wstep] in Ew. destruct (ws_main (sy_w s)); try discriminate Ew.
    destruct (is_match_second _ _ _ _) as [cache' b]. injection Ew as <- <-. cbn [sy_w sy_cur sy_past ws_tasks]. split; [apply app_nil_r|].
    intros k t' x. cbn [sy_w sy_cur ws_tasks]. rewrite pad_eq by exact I1. intros Ht Hx. left. eauto.
  - cbn [wstep] in Ew. destruct (nth_error (ws_tasks (sy_w s)) i) as [t|] eqn:Et; [|discriminate Ew].
    destruct (job_step glob cx (S i) (tk_job t) (ws_sh (sy_w s)) (tk_phase t) jo) as [[[sh' p'] out]|] eqn:Ej; [|discriminate Ew]. injection Ew as <- <-.
    assert (Hlt : i < length (ws_tasks (sy_w s))) by (apply nth_error_Some; congruence).
    destruct (nth_error (sy_cur s) i) as [x|] eqn:Ex; [|apply nth_error_None in Ex; lia].
    assert (Hop : forall sop, jo <> JStep sop) by (intros sop ->; discriminate Hs).
    assert (Hbef : forall t0 js rs sp rest, p' = JpStepRun t0 js rs sp rest -> exists st, sp = SpBefore st).
    { intros t0 js rs sp rest ->. eapply calling_after_job; eauto. }
    assert (K : (exists t0 js rs r rest, tk_phase t = JpStepRun t0 js rs (SpDone r) rest /\
                   s' = System (WState sh' (ws_main (sy_w s)) (list_set i (set_phase t p') (ws_tasks (sy_w s))) (ws_chan (sy_w s))) (list_set i (rs_init R) (sy_cur s)) (sy_past s ++ [(i, (ws_sh (sy_w s), SpDone r, x))])) \/
                (in_step (tk_phase t) = false /\ s' = System (WState sh' (ws_main (sy_w s)) (list_set i (set_phase t p') (ws_tasks (sy_w s))) (ws_chan (sy_w s))) (sy_cur s) (sy_past s))).
    { unfold step_over in E. fold (set_phase t p') in E. destruct jo as [|gh|sop]; [| |destruct (Hop sop eq_refl)].
      - rewrite Et in E. destruct (tk_phase t) as [| | | | | | | | | |t0 js rs sp rest| | | |] eqn:Ep;
          try (right; split; [reflexivity|]; injection E as <- _; cbn [ws_tasks]; rewrite pad_eq by (rewrite list_set_length; exact I1); rewrite app_nil_r; reflexivity).
        left. cbn [job_step] in Ej. destruct sp; try discriminate Ej. rewrite Ex in E. injection E as <- _. cbn [ws_tasks]. rewrite pad_eq by (rewrite !list_set_length; exact I1).
        eexists _, _, _, _, _. split; reflexivity.
      - right. assert (Hn : in_step (tk_phase t) = false).
        { destruct (tk_phase t); try reflexivity. cbn [job_step] in Ej. destruct p; discriminate Ej. }
        split; [exact Hn|]. injection E as <- _. cbn [ws_tasks]. rewrite pad_eq by (rewrite list_set_length; exact I1). rewrite app_nil_r; reflexivity. }
    clear E. destruct K as [(t0 & js & rs & r & rest & Ep & ->)|[Hn ->]]; cbn [sy_w sy_cur sy_past ws_tasks].
    + right. exists i, t, t0, js, rs, r, rest, (ws_sh (sy_w s)), x. split; [exact Et|]. split; [exact Ep|]. split; [exact Ex|]. split; [reflexivity|]. split; [|split].
      * intros k Hne t' y Hk Hy. cbn [sy_w sy_cur ws_tasks] in Hk, Hy. left. rewrite list_set_ne in Hk by exact Hne. rewrite list_set_ne in Hy by exact Hne. eauto.
      * intros y Hy. erewrite list_set_eq in Hy by exact Ex. injection Hy as <-. reflexivity.
      * intros t' u0 js' rs' sp rest' Hk. erewrite list_set_eq in Hk by exact Et. injection Hk as <-. apply Hbef.
    + left. split; [reflexivity|]. intros k t' y Hk Hy. cbn [sy_w sy_cur ws_tasks] in Hk, Hy. destruct (Nat.eq_dec k i) as [->|Hne].
      * right. erewrite list_set_eq in Hk by exact Et. injection Hk as <-. split; [eapply I3; eauto|exact Hbef].
      * left. rewrite list_set_ne in Hk by exact Hne. eauto.
  - left. cbn [step_over] in E. injection E as <- _. cbn [wstep] in Ew. destruct (nth_error (ws_tasks (sy_w s)) i) as [[key j p sent]|] eqn:Ei; [|discriminate]. destruct p as [| | | | | | | | | | | | | |r]; try discriminate.
    destruct sent; [discriminate|].
    assert (Et : ws_tasks w' = list_set i (WTask key j (JpReturned r) true) (ws_tasks (sy_w s))).
    { destruct (ws_main (sy_w s)); try (destruct (Nat.ltb _ _); [|discriminate Ew]); injection Ew as <- <-; auto. }
    cbn [sy_w sy_cur sy_past]. split; [apply app_nil_r|].
    assert (Hl : length (ws_tasks w') = length (ws_tasks (sy_w s))) by (rewrite Et; apply list_set_length).
    intros k t' y Ht Hy. cbn [sy_w sy_cur] in Ht, Hy. rewrite pad_eq in Hy by congruence. left. rewrite Et in Ht. destruct (Nat.eq_dec k i) as [->|Hne].
    + erewrite list_set_eq in Ht by exact Ei. injection Ht as <-. eexists. split; [exact Ei|]. split; [reflexivity|exact Hy].
    + rewrite list_set_ne in Ht by exact Hne. eauto.
  - left. cbn [step_over] in E. injection E as <- _. cbn [wstep] in Ew. injection Ew as <- <-. cbn [sy_w sy_cur sy_past ws_tasks]. split; [apply app_nil_r|].
    intros k t' y Ht Hy. cbn [sy_w sy_cur ws_tasks] in Ht, Hy. rewrite pad_eq in Hy by exact I1. left. eauto.
Qed.
End Flow.

(** ** One step *)
Section Side.
Variables (cx : ectx) (cl sv : task -> task) (rhooks : runner_meta -> run_context -> run_context) (conf : runner_meta -> run_context -> xconf).
Notation C := (chained cx cl sv rhooks conf).
(** The call of the runner for which the step may still start a process. *)
Definition may (x : kside) : option bool := option_map (fun w => fresh_x (wk_x w)) (kd_w x).
Definition pend (i : nat) (sp : step_phase) (x : kside) : list (nat * run_context) :=
  match may x, kd_ctx x with
  | Some true, Some (rc, _) => [(i, rc)]
  | Some _, _ => []
  | None, Some (rc, _) => [(i, rc)]
  | None, None => match sp with SpCalling st _ _ _ _ => [(i, given cx st)] | _ => [] end
  end.
Lemma engine_cases me sh p op sh' p' o : step_step cx me sh p op = Some (sh', p', o) ->
  (exists st t0 a sg str, p' = SpCalling st t0 a sg str /\ o = [ORun (given cx st)]) \/
  ((forall rc, ~ In (ORun rc) o) /\ forall st t0 a sg str, p' = SpCalling st t0 a sg str -> exists t1 a1 sg1 str1, p = SpCalling st t1 a1 sg1 str1).
Proof.
  intros E. destruct p; destruct op; try discriminate E; cbn [step_step] in E;
    repeat match type of E with
    | (let '(_, _) := ?x in _) = _ => destruct x as [? ?]
    | match ?x with _ => _ end = _ => destruct x eqn:?; try discriminate E
    end; injection E as <- <- <-;
    first [left; do 5 eexists; split; reflexivity
          |right; split; [intros rc H; cbn in H; repeat (destruct H as [H|H]; [discriminate H|]); try destruct H; try (apply in_map_iff in H as (? & ? & _); discriminate)
                         |intros st1 t1 a1 sg1 str1 Eq; try discriminate Eq; try (injection Eq as <- <- <- <- <-); repeat eexists]].
Qed.
Definition quiet (out : list kobs) : Prop := forall e, In e out -> match e with KObs (ORun _) | KEff (EfSpawn _) => False | _ => True end.
Record kgood (all : list (sysop (iop := kop))) (i : nat) (x : kside) : Prop := {
  kg_task : kd_task x = None -> kd_ctx x = None;
  kg_ctx : kd_ctx x = None -> kd_w x = None;
  kg_srv : forall rc srv, kd_ctx x = Some (rc, srv) -> asked all i srv;
  kg_conf : forall w rc srv, kd_w x = Some w -> kd_ctx x = Some (rc, srv) -> wk_conf w = conf srv (rhooks srv rc) }.
Definition moved i sp x sp' x' (all : list (sysop (iop := kop))) (out : list kobs) : Prop :=
  (quiet out /\ (pend i sp' x' = pend i sp x \/ pend i sp' x' = [])) \/
  (exists rc, out = [KObs (ORun rc)] /\ (pend i sp' x' = pend i sp x \/ pend i sp' x' = [(i, rc)])) \/
  (exists rc srv, out = [KEff (EfSpawn (xc_spawned (conf srv (rhooks srv rc))))] /\ asked all i srv /\ pend i sp x = [(i, rc)] /\ pend i sp' x' = []).
Lemma moved_flow all i sh sp x op sh' sp' x' ob : rs_step C (S i) sh sp x op = Some (sh', sp', x', map KObs ob) -> kd_ctx x' = kd_ctx x -> may x' = may x -> moved i sp x sp' x' all (map KObs ob).
Proof.
  intros E Ec Ew. assert (Ev : step_events C (map KObs ob) = ob) by apply kev_obs.
  destruct (chained_faithful cx cl sv rhooks conf _ _ _ _ _ _ _ _ _ E) as [(_ & -> & H)|(sop & H)]; rewrite Ev in H.
  - subst ob. left. split; [intros e []|]. left. unfold pend. rewrite Ec, Ew. reflexivity.
  - apply engine_cases in H as [(st & t0 & a & sg & str & -> & ->)|[H1 H2]].
    + right. left. eexists. split; [reflexivity|]. unfold pend. rewrite Ec, Ew. destruct (may x) as [[]|]; destruct (kd_ctx x) as [[? ?]|]; auto.
    + left. split; [intros e He; apply in_map_iff in He as (y & <- & Hy); destruct y; try exact Logic.I; exact (H1 _ Hy)|].
      unfold pend. rewrite Ec, Ew. destruct (may x) as [[]|]; destruct (kd_ctx x) as [[? ?]|]; auto. destruct sp'; auto. destruct (H2 _ _ _ _ _ eq_refl) as (? & ? & ? & ? & ->). auto.
Qed.
Lemma step_side all i sh sp x op sh' sp' x' out : rs_step C (S i) sh sp x op = Some (sh', sp', x', out) ->
  (forall clients m, op = KFlow (DPick clients (Some m)) -> (forall r, sp <> SpDone r) -> In (YStep i op) all) -> kgood all i x -> kgood all i x' /\ moved i sp x sp' x' all out.
Proof.
  intros E Ha [G1 G2 G3 G4]. assert (E0 := E). destruct (chained_step _ _ _ _ _ _ _ _ _ _ _ _ _ _ E) as [E1 Nw]. apply kstep_trans in E1.
  assert (Fl : forall ob, out = map KObs ob -> kd_ctx x' = kd_ctx x -> may x' = may x -> moved i sp x sp' x' all out).
  { intros ob -> H1 H2. eapply moved_flow; eauto. }
  assert (Q : out = [] -> sp' = sp -> kd_ctx x' = kd_ctx x -> may x' = may x -> moved i sp x sp' x' all out).
  { intros -> -> H1 H2. left. split; [intros e []|]. left. unfold pend. rewrite H1, H2. reflexivity. }
  assert (Tk : forall d' ob dop, dstep cx (S i) (cl (S i)) (k_d (kwhole sh sp x)) dop = Some (d', ob) -> ds_task d' = None -> kd_task x = None).
  { intros d' ob dop D N. destruct (kd_task x) eqn:T; [|reflexivity]. exfalso. eapply task_stays_d; [exact D| |exact N]. cbn. rewrite T. discriminate. }
  destruct x as [tk ctx w lost], x' as [tk' ctx' w' lost']. cbn [kd_task kd_ctx kd_w kd_lost kwhole] in *.
  inversion E1; subst; cbn [k_d k_ctx k_w k_lost ds_task ds_step ds_sh kwhole kd_task kd_ctx kd_w kd_lost] in *; subst.
  - split; [|eapply Fl; reflexivity]. split; cbn; auto. intros ->. apply G1. eapply Tk; [eassumption|reflexivity].
  - match goal with X : dstep _ _ _ _ (DPick _ _) = _ |- _ => rename X into D end. cbn [dstep] in D. cbn [ds_step ds_task] in D. destruct tk; [discriminate D|]. specialize (G1 eq_refl). subst ctx. specialize (G2 eq_refl). subst. cbn [ds_sh ds_step ds_task] in *.
    destruct (client_start clients pick) as [[effs|srv]|] eqn:Cs; [| |discriminate D].
    + injection D as <- <- <- <-. split; [|apply Q; reflexivity]. split; cbn; auto; discriminate.
    + injection D as <- <- <- <-. split.
      * split; cbn; try discriminate. intros rc srv' [= <- <-]. destruct pick as [m|]; [|discriminate Cs]. cbn in Cs. destruct (lookup (rm_id m) clients) eqn:L; [|discriminate Cs]. injection Cs as ->.
        exists clients, m. split; [|exact L]. eapply Ha; [reflexivity|discriminate].
      * left. split; [intros e []|]. left. reflexivity.
  - split; [|eapply Fl; [reflexivity|reflexivity|]; unfold may; cbn; destruct w as [w|]; [|reflexivity]; cbn; unfold raise_at; destruct (wk_listed w); reflexivity].
    split; cbn; auto; [intros ->; apply G1; eapply Tk; [eassumption|reflexivity]|intros ->; rewrite (G2 eq_refl); reflexivity|].
    intros w' rc srv Hw Hc. destruct w as [w|]; [|discriminate Hw]. injection Hw as <-. rewrite <- (G4 _ _ _ eq_refl Hc). unfold raise_at. destruct (wk_listed w); reflexivity.
  - split; [|eapply Fl; reflexivity]. split; cbn; auto. intros ->. apply G1. eapply Tk; [eassumption|reflexivity].
  - split; [|left; split; [intros e []|]; left; reflexivity]. split; cbn; auto; [discriminate|]. intros w rc' srv' [= <-] [= <- <-]. reflexivity.
  - match goal with X : xstep _ _ _ = _ |- _ => destruct (x_step_fresh _ _ _ _ _ X) as [F1 F2] end. match type of G2 with ?c = None -> _ => destruct c as [[rc srv]|]; [|discriminate (G2 eq_refl)] end. specialize (G4 _ _ _ eq_refl eq_refl). cbn [wk_conf] in G4. subst c. split.
    + split; cbn; auto; [discriminate|]. intros w' rc' srv' [= <-] [= <- <-]. reflexivity.
    + unfold moved, pend, may. cbn [kd_w kd_ctx option_map wk_x]. destruct (existsb (fun e => match e with EfSpawn _ => true | _ => false end) o) eqn:Sp.
      * apply existsb_exists in Sp as (e & He & Hs). destruct e as [| |t| | | | |]; try discriminate Hs. destruct (F2 _ He) as (Hf & -> & ->). right. right. exists rc, srv.
        split; [reflexivity|]. split; [eapply G3; reflexivity|]. rewrite Hf. split; [reflexivity|]. destruct (fresh_x x') eqn:Hf'; [|reflexivity]. destruct (F1 eq_refl) as (_ & _ & N). destruct (N _ He).
      * left. split.
        -- intros e He. apply in_map_iff in He as (y & <- & Hy). destruct y as [| |t| | | | |]; try exact Logic.I.
           assert (K : existsb (fun e => match e with EfSpawn _ => true | _ => false end) o = true) by (apply existsb_exists; exists (EfSpawn t); auto). congruence.
        -- destruct (fresh_x x') eqn:Hf'; [|right; reflexivity]. destruct (F1 eq_refl) as (-> & _). left. reflexivity.
  - split; [|apply Q; reflexivity]. split; cbn; auto; [intros C0; discriminate (G2 C0)|]. intros w' rc srv [= <-] Hc. rewrite <- (G4 _ _ _ eq_refl Hc). reflexivity.
  - split; [|apply Q; reflexivity]. split; cbn; auto; [intros C0; discriminate (G2 C0)|]. intros w' rc srv [= <-] Hc. rewrite <- (G4 _ _ _ eq_refl Hc). reflexivity.
  - split; [|apply Q; reflexivity]. split; cbn; auto; [intros C0; discriminate (G2 C0)|]. intros w' rc srv [= <-] Hc. rewrite <- (G4 _ _ _ eq_refl Hc). reflexivity.
  - split; [|apply Q; reflexivity]. split; cbn; auto; [intros C0; discriminate (G2 C0)|]. intros w' rc srv [= <-] Hc. rewrite <- (G4 _ _ _ eq_refl Hc). reflexivity.
  - split; [|eapply Fl; reflexivity]. split; cbn; auto; [intros ->; apply G1; eapply Tk; [eassumption|reflexivity]|intros C0; discriminate (G2 C0)|]. intros w' rc srv [= <-] Hc. rewrite <- (G4 _ _ _ eq_refl Hc). reflexivity.
  - split; [|apply Q; reflexivity]. split; cbn; auto; [intros C0; discriminate (G2 C0)|]. intros w' rc srv [= <-] Hc. rewrite <- (G4 _ _ _ eq_refl Hc). reflexivity.
  - split; [|apply Q; try reflexivity; unfold may, raise_at; cbn; destruct (wk_listed w0); reflexivity]. split; cbn; auto; [intros C0; discriminate (G2 C0)|]. intros w' rc srv [= <-] Hc. rewrite <- (G4 _ _ _ eq_refl Hc). unfold raise_at. destruct (wk_listed w0); reflexivity.
  - split; [|apply Q; reflexivity]. split; cbn; auto; [intros C0; discriminate (G2 C0)|]. intros w' rc srv [= <-] Hc. rewrite <- (G4 _ _ _ eq_refl Hc). reflexivity.
Qed.
End Side.

(** ** The whole run *)
Section Whole.
Variables (cx : ectx) (cl sv : task -> task) (rhooks : runner_meta -> run_context -> run_context) (conf : runner_meta -> run_context -> xconf) (glob : glob_oracle) (wf : workflow).
Notation C := (chained cx cl sv rhooks conf).
Notation pend := (pend cx).
Notation kgood := (kgood rhooks conf).
Notation moved := (moved cx rhooks conf).
Notation permits := (permits rhooks conf).
Lemma permits_mono all all' tr l : (forall o, In o all -> In o all') -> permits all tr l -> permits all' tr l.
Proof.
  intros H. induction 1 as [|tr l i rc P IH|tr l1 l2 i rc srv t P IH (cs & m & A & B) E|tr l w e P IH N]; [constructor|apply permits_call, IH| |apply permits_other; assumption].
  eapply permits_start; [exact IH|exists cs, m; split; [apply H, A|exact B]|exact E].
Qed.
Lemma permits_quiet all tr l o : permits all tr l -> (forall w e, In (w, e) o -> ~ start_or_call e) -> permits all (tr ++ o) l.
Proof.
  intros P. induction o as [|[w e] o IH] using rev_ind; intros N; [rewrite app_nil_r; exact P|]. rewrite app_assoc. apply permits_other; [apply IH; intros w' e' H; apply (N w'), in_or_app; left; exact H|].
  apply (N w), in_or_app. right. left. reflexivity.
Qed.
Lemma good_mono all all' i x : (forall o, In o all -> In o all') -> kgood all i x -> kgood all' i x.
Proof. intros H [G1 G2 G3 G4]. split; auto. intros rc srv E. destruct (G3 _ _ E) as (cs & m & A & B). exists cs, m. auto. Qed.
Lemma permits_move all tr l i sp x sp' x' out rest : permits all tr l -> Permutation l (pend i sp x ++ rest) -> moved i sp x sp' x' all out ->
  exists l' extra, permits all (tr ++ map (fun e => (Some i, inr e)) out) l' /\ Permutation l' (pend i sp' x' ++ rest ++ extra).
Proof.
  intros P H [[Q D]|[(rc & -> & D)|(rc & srv & -> & A & D1 & D2)]].
  - exists l. assert (K : permits all (tr ++ map (fun e => (Some i, inr e)) out) l).
    { apply permits_quiet; [exact P|]. intros w e He. apply in_map_iff in He as (y & [= <- <-] & Hy). specialize (Q _ Hy). intros S0. destruct y as [o|o]; destruct o; first [exact Q|exact S0]. }
    destruct D as [-> | ->]; [exists []; rewrite app_nil_r; auto|]. exists (pend i sp x). split; [exact K|]. cbn [app]. rewrite H. apply Permutation_app_comm.
  - exists (l ++ [(i, rc)]). cbn [map]. destruct D as [-> | ->].
    + exists [(i, rc)]. split; [apply permits_call, P|]. rewrite H, <- app_assoc. reflexivity.
    + exists (pend i sp x). split; [apply permits_call, P|]. rewrite H. cbn [app]. rewrite <- app_assoc. rewrite (Permutation_app_comm (pend i sp x) (rest ++ [(i, rc)])), <- app_assoc. cbn [app].
      symmetry. apply Permutation_cons_app. reflexivity.
  - rewrite D1 in H. rewrite D2. cbn [app map] in *.
    assert (Hin : In (i, rc) l) by (apply (Permutation_in _ (Permutation_sym H)); left; reflexivity). apply in_split in Hin as (l1 & l2 & ->).
    exists (l1 ++ l2), []. split; [eapply permits_start; eauto|]. rewrite app_nil_r. apply (Permutation_cons_inv (a := (i, rc))). rewrite <- H. apply Permutation_middle.
Qed.
Definition at_ (s : system) (k : nat) : list (nat * run_context) :=
  match nth_error (ws_tasks (sy_w s)) k, nth_error (sy_cur s) k with
  | Some t, Some x => match tk_phase t with JpStepRun _ _ _ sp _ => pend k sp x | _ => [] end
  | _, _ => []
  end.
Definition of_past (e : nat * (shared * step_phase * kside)) : list (nat * run_context) := pend (fst e) (snd (fst (snd e))) (snd (snd e)).
Definition whole (s : system) : list (nat * run_context) := flat_map (at_ s) (seq 0 (length (ws_tasks (sy_w s)))) ++ flat_map of_past (sy_past s).
Lemma at_beyond s n : length (ws_tasks (sy_w s)) <= n -> flat_map (at_ s) (seq 0 (length (ws_tasks (sy_w s)))) = flat_map (at_ s) (seq 0 n).
Proof.
  intros H. symmetry. apply seq_beyond; [exact H|]. intros k Hk. unfold at_. apply nth_error_None in Hk as ->. reflexivity.
Qed.
Lemma kept_at s s' k : kept C s s' k -> at_ s' k = at_ s k \/ at_ s' k = [].
Proof.
  intros K. unfold at_ at 1 3. destruct (nth_error (ws_tasks (sy_w s')) k) as [t'|] eqn:Et; [|auto]. destruct (nth_error (sy_cur s') k) as [x|] eqn:Ex; [|auto].
  destruct (K _ _ Et Ex) as [(t & Ht & Hp & Hx)|[-> Hb]].
  - left. unfold at_. rewrite Ht, Hx, Hp. reflexivity.
  - right. destruct (tk_phase t') as [| | | | | | | | | |t0 js rs sp rest| | | |] eqn:Ep; try reflexivity. destruct (Hb _ _ _ _ _ eq_refl) as [st ->]. reflexivity.
Qed.
Lemma pull_at s i n : i < n -> Permutation (flat_map (at_ s) (seq 0 n)) (at_ s i ++ flat_map (fun k => if Nat.eqb k i then [] else at_ s k) (seq 0 n)).
Proof. intros H. apply perm_pull; [apply seq_NoDup|apply in_seq; lia]. Qed.

Record chain_inv (ops : list (sysop (iop := kop))) (s : system) (tr : list (who * (obs + kobs))) : Prop := {
  cv_cur : forall i x, nth_error (sy_cur s) i = Some x -> kgood ops i x;
  cv_past : forall e, In e (sy_past s) -> kgood ops (fst e) (snd (snd e));
  cv_permits : exists l extra, permits ops tr l /\ Permutation l (whole s ++ extra) }.
Lemma init_good all i : kgood all i (rs_init C).
Proof. split; cbn; auto; discriminate. Qed.
Lemma chain_run sh0 ops s tr : sysrun C glob cx wf sh0 ops s tr -> chain_inv ops s tr.
Proof.
  assert (F := chained_faithful cx cl sv rhooks conf).
  induction 1 as [|ops s tr op s' o Hr [V1 V2 (l & extra & P & HP)] E].
  { split; cbn; [intros [|i]; discriminate|intros e []|]. exists [], []. split; constructor. }
  assert (I := sys_inv C glob cx wf F _ _ _ _ Hr).
  assert (I' := sys_inv C glob cx wf F _ _ _ _ (sysrun_step _ _ _ _ _ _ _ _ _ _ _ Hr E)).
  assert (More : forall y, In y ops -> In y (ops ++ [op])) by (intros y Hy; apply in_or_app; left; exact Hy).
  assert (Last : In op (ops ++ [op])) by (apply in_or_app; right; left; reflexivity).
  assert (W1 := fun i x H => good_mono _ _ _ _ More (V1 i x H)). assert (W2 := fun e H => good_mono _ _ _ _ More (V2 e H)). assert (P' := permits_mono _ _ _ _ More P).
  destruct op as [wo|i io|k io].
  - destruct (flow_shape C cx glob wf _ _ _ _ _ _ I E) as (J1 & J2).
    assert (Pq : permits (ops ++ [YFlow wo]) (tr ++ o) l).
    { apply permits_quiet; [exact P'|]. intros w e He. destruct (J1 _ _ He) as [y ->]. exact (fun x => x). }
    assert (Cur : forall k x, nth_error (sy_cur s') k = Some x -> kept C s s' k -> kgood (ops ++ [YFlow wo]) k x).
    { intros k x Hx K. assert (Hl : k < length (ws_tasks (sy_w s'))) by (rewrite <- (si_len _ _ _ _ _ I'); apply nth_error_Some; congruence).
      destruct (nth_error (ws_tasks (sy_w s')) k) as [t'|] eqn:Et; [|apply nth_error_None in Et; lia]. destruct (K _ _ Et Hx) as [(t & _ & _ & Hx')|[-> _]]; [apply W1, Hx'|apply init_good]. }
    set (n := Nat.max (length (ws_tasks (sy_w s))) (length (ws_tasks (sy_w s')))).
    destruct J2 as [[Ep K]|(i & t & t0 & js & rs & r & rest & sh & x & Ht & Hp & Hx & Ep & K & Hi & Hb)].
    + split; [intros k x Hx; apply Cur; auto|rewrite Ep; exact W2|].
      destruct (perm_drop (at_ s) (at_ s') (seq 0 n)) as [e He]; [intros k _; apply kept_at, K|].
      exists l, (e ++ extra). split; [exact Pq|]. rewrite HP. unfold whole. rewrite Ep, (at_beyond s n), (at_beyond s' n) by (unfold n; lia). rewrite He, <- !app_assoc. apply Permutation_app_head.
      rewrite !app_assoc. apply Permutation_app_tail, Permutation_app_comm.
    + split.
      * intros k y Hy. destruct (Nat.eq_dec k i) as [->|Hne]; [rewrite (Hi _ Hy); apply init_good|apply Cur; auto].
      * rewrite Ep. intros e He. apply in_app_iff in He as [He|[<-|[]]]; [apply W2, He|]. cbn [fst snd]. apply W1, Hx.
      * assert (Hl : i < n) by (unfold n; assert (i < length (ws_tasks (sy_w s))) by (apply nth_error_Some; congruence); lia).
        destruct (perm_drop (fun k => if Nat.eqb k i then [] else at_ s k) (at_ s') (seq 0 n)) as [e He].
        { intros k _. destruct (Nat.eqb_spec k i) as [->|Hne]; [|apply kept_at, K, Hne]. left. unfold at_. destruct (nth_error (ws_tasks (sy_w s')) i) as [t'|] eqn:Et; [|reflexivity].
          destruct (nth_error (sy_cur s') i) as [y|] eqn:Ey; [|reflexivity]. rewrite (Hi _ eq_refl). destruct (tk_phase t') as [| | | | | | | | | |u0 ujs urs sp urest| | | |] eqn:Eq; try reflexivity.
          destruct (Hb _ _ _ _ _ _ eq_refl Eq) as [st ->]. reflexivity. }
        exists l, (e ++ extra). split; [exact Pq|]. rewrite HP. unfold whole. rewrite Ep, (at_beyond s n), (at_beyond s' n) by (unfold n; lia). rewrite (pull_at s i n Hl), He.
        rewrite flat_map_app. cbn [flat_map]. rewrite app_nil_r. unfold of_past at 3. cbn [fst snd]. unfold at_ at 1. rewrite Ht, Hx, Hp. rewrite <- !app_assoc.
        rewrite (Permutation_app_comm (pend i (SpDone r) x)). rewrite <- !app_assoc. apply Permutation_app_head.
        rewrite !app_assoc. rewrite (Permutation_app_comm e). rewrite <- !app_assoc. apply Permutation_app_head. rewrite (app_assoc e extra). apply Permutation_app_comm.
  - cbn [sysstep] in E. destruct (nth_error (ws_tasks (sy_w s)) i) as [t|] eqn:Et; [|discriminate]. destruct (nth_error (sy_cur s) i) as [x|] eqn:Ex; [|discriminate].
    destruct (tk_phase t) as [| | | | | | | | | |t0 js rs sp rest| | | |] eqn:Ep; try discriminate E.
    destruct (rs_step C (S i) (ws_sh (sy_w s)) sp x io) as [[[[sh' sp'] x'] out]|] eqn:Es; [|discriminate E]. injection E as <- <-.
    assert (Ga := W1 _ _ Ex). destruct (step_side cx cl sv rhooks conf (ops ++ [YStep i io]) _ _ _ _ _ _ _ _ _ Es) as [G M]; [intros; exact Last|exact Ga|].
    assert (Hl : i < length (ws_tasks (sy_w s))) by (apply nth_error_Some; congruence).
    split; cbn [sy_w sy_cur sy_past ws_tasks]; [|exact W2|].
    + intros k y Hy. destruct (Nat.eq_dec k i) as [->|Hne]; [erewrite list_set_eq in Hy by exact Ex; injection Hy as <-; exact G|rewrite list_set_ne in Hy by exact Hne; apply W1, Hy].
    + match goal with |- exists l0 e0, _ /\ Permutation l0 (whole ?z ++ _) => set (s' := z) end.
      set (others := flat_map (fun k => if Nat.eqb k i then [] else at_ s k) (seq 0 (length (ws_tasks (sy_w s))))).
      assert (W : Permutation (whole s) (pend i sp x ++ others ++ flat_map of_past (sy_past s))).
      { unfold whole. rewrite (pull_at s i _ Hl). unfold at_ at 1. rewrite Et, Ex, Ep, <- app_assoc. reflexivity. }
      assert (W' : Permutation (whole s') (pend i sp' x' ++ others ++ flat_map of_past (sy_past s))).
      { unfold whole. assert (Hn : length (ws_tasks (sy_w s')) = length (ws_tasks (sy_w s))) by (cbn; apply list_set_length). rewrite Hn, (pull_at s' i _ Hl).
        unfold at_ at 1. cbn [s' sy_w ws_tasks sy_cur]. erewrite list_set_eq by exact Et. erewrite list_set_eq by exact Ex. cbn [tk_phase set_phase]. rewrite <- app_assoc. apply Permutation_app_head.
        assert (Eo : flat_map (fun k => if Nat.eqb k i then [] else at_ s' k) (seq 0 (length (ws_tasks (sy_w s)))) = others); [|rewrite Eo; reflexivity].
        apply flat_map_same. intros k _. destruct (Nat.eqb_spec k i) as [|Hne]; [reflexivity|]. unfold at_. cbn [s' sy_w ws_tasks sy_cur]. rewrite !list_set_ne by exact Hne. reflexivity. }
      rewrite W, <- app_assoc in HP. destruct (permits_move _ _ _ _ _ _ _ _ _ _ P' HP M) as (l' & ex & Q & HQ). exists l', (extra ++ ex). split; [exact Q|]. rewrite HQ, W', <- !app_assoc. reflexivity.
  - cbn [sysstep] in E. destruct (nth_error (sy_past s) k) as [[i [[sh p] x]]|] eqn:Ek; [|discriminate].
    destruct (rs_step C (S i) sh p x io) as [[[[sh' p'] x'] out]|] eqn:Es; [|discriminate E]. injection E as <- <-.
    assert (Hin := nth_error_In _ _ Ek). destruct (si_past _ _ _ _ _ I _ Hin) as (st & r & iops & os & Hp & _). cbn [fst snd] in Hp. subst p.
    assert (Ga := W2 _ Hin). cbn [fst snd] in Ga. destruct (step_side cx cl sv rhooks conf (ops ++ [YPast k io]) _ _ _ _ _ _ _ _ _ Es) as [G M]; [intros cs m _ N; destruct (N r eq_refl)|exact Ga|].
    split; cbn [sy_w sy_cur sy_past]; [exact W1| |].
    + intros e He. apply In_nth_error in He as [n He]. destruct (Nat.eq_dec n k) as [->|Hne].
      * erewrite list_set_eq in He by exact Ek. injection He as <-. exact G.
      * rewrite list_set_ne in He by exact Hne. apply W2, (nth_error_In _ _ He).
    + destruct (perm_set of_past _ _ _ (i, (sh', p', x')) Ek) as (rest & R1 & R2). unfold of_past at 2 in R1. unfold of_past at 2 in R2. cbn [fst snd] in R1, R2.
      unfold whole in HP. rewrite R1, (Permutation_app_comm _ (pend i (SpDone r) x ++ rest)), <- !app_assoc in HP.
      destruct (permits_move _ _ _ _ _ _ _ _ _ _ P' HP M) as (l' & ex & Q & HQ). exists l', (extra ++ ex). split; [exact Q|]. rewrite HQ. unfold whole. cbn [sy_w sy_cur sy_past].
      assert (Ea : forall a b c : list (nat * run_context), Permutation (a ++ b ++ c) (b ++ a ++ c)) by (intros a b c; rewrite !app_assoc; apply Permutation_app_tail, Permutation_app_comm).
      change (at_ {| sy_w := sy_w s; sy_cur := sy_cur s; sy_past := list_set k (i, (sh', p', x')) (sy_past s) |}) with (at_ s).
      rewrite R2, <- !app_assoc. symmetry. etransitivity; [apply Ea|]. apply Permutation_app_head. apply Ea.
Qed.
End Whole.

(** ** Whose effects they are *)
Section Effects.
Variables (cx : ectx) (cl sv : task -> task) (rhooks : runner_meta -> run_context -> run_context) (conf : runner_meta -> run_context -> xconf) (glob : glob_oracle) (wf : workflow).
Notation C := (chained cx cl sv rhooks conf).
Notation wtrace := (list (who * (obs + kobs))).
Definition called (i : nat) (sp : step_phase) (x : kside) (tr : wtrace) : Prop :=
  (forall st t0 a sg str, sp = SpCalling st t0 a sg str -> In (Some i, inr (KObs (ORun (given cx st)))) tr) /\
  (forall rc srv, kd_ctx x = Some (rc, srv) -> In (Some i, inr (KObs (ORun rc))) tr).
Lemma called_app i sp x tr o : called i sp x tr -> called i sp x (tr ++ o).
Proof. intros [H1 H2]. split; intros; apply in_or_app; left; eauto. Qed.
Lemma called_step i sh sp x op sh' sp' x' out tr : rs_step C (S i) sh sp x op = Some (sh', sp', x', out) -> called i sp x tr -> called i sp' x' (tr ++ map (fun e => (Some i, inr e)) out).
Proof.
  intros E [H1 H2]. assert (E0 := E). destruct (chained_step _ _ _ _ _ _ _ _ _ _ _ _ _ _ E) as [E1 _]. apply kstep_trans in E1. split.
  - intros st t0 a sg str ->. destruct (chained_faithful cx cl sv rhooks conf _ _ _ _ _ _ _ _ _ E) as [(_ & <- & _)|(sop & H)]; [apply in_or_app; left; eapply H1; reflexivity|].
    apply in_or_app. assert (Q := H). apply engine_cases with (cx := cx) in H as [(st1 & t1 & a1 & sg1 & str1 & [= <- <- <- <- <-] & H)|[_ H]].
    + right. apply in_map_iff. eexists. split; [reflexivity|]. rewrite chained_events in H. assert (K : In (ORun (given cx st)) (k_events out)) by (rewrite H; left; reflexivity).
      unfold k_events in K. apply in_flat_map in K as (y & Hy & K). destruct y as [y|y]; cbn in K; [destruct K as [->|[]]; exact Hy|destruct K].
    + left. destruct (H _ _ _ _ _ eq_refl) as (? & ? & ? & ? & ->). eapply H1. reflexivity.
  - assert (K : kd_ctx x' = kd_ctx x \/ exists st t0 a sg str srv, sp = SpCalling st t0 a sg str /\ kd_ctx x' = Some (given cx st, srv)).
    { destruct x as [tk ctx w lost], x' as [tk' ctx' w' lost']. cbn [kd_ctx kwhole] in *. clear E0 E.
      inversion E1; subst; cbn [k_d k_ctx k_w k_lost ds_step kwhole kd_task kd_ctx kd_w kd_lost] in *; subst; try (left; congruence).
      match goal with |- context [client_start ?cs ?pk] => destruct (client_start cs pk) as [[?|?]|] end; [left; reflexivity| |left; reflexivity]. right. do 6 eexists. split; reflexivity. }
    intros rc srv Hc. apply in_or_app. left. destruct K as [K|(st & t0 & a & sg & str & srv' & K1 & K2)]; [eapply H2; rewrite <- K; exact Hc|]. rewrite K2 in Hc. injection Hc as <- _. eapply H1; exact K1.
Qed.
(** The effects come from a runner that was called. *)
Definition from_call (all : list (sysop (iop := kop))) (i : nat) (e : xeff) (pre : wtrace) : Prop :=
  exists rc srv ins x effs, In (Some i, inr (KObs (ORun rc))) pre /\ asked all i srv /\ xrun (conf srv (rhooks srv rc)) ins x effs /\ In e effs.
Lemma effect_step all i st iops os sh sp x op sh' sp' x' out tr e : irun C (S i) st iops sh sp x os -> rs_step C (S i) sh sp x op = Some (sh', sp', x', out) ->
  kgood rhooks conf all i x' -> called i sp x tr -> In (KEff e) out -> from_call all i e tr /\ exists effs, out = map KEff effs.
Proof.
  intros R E [G1 G2 G3 G4] [_ H2] He. assert (R' := irun_op _ _ _ _ _ _ _ _ _ _ _ _ _ R E). apply chained_hist in R' as (dops & gs & ins & Hh).
  assert (K : kd_ctx x' = kd_ctx x /\ kd_w x' <> None /\ exists effs, out = map KEff effs).
  { destruct (chained_step _ _ _ _ _ _ _ _ _ _ _ _ _ _ E) as [E1 _]. apply kstep_trans in E1. destruct x as [tk ctx w lost], x' as [tk' ctx' w' lost']. cbn [kd_ctx kd_w kwhole] in *.
    inversion E1; subst; cbn [k_ctx k_w kwhole kd_ctx kd_w] in *; try (exfalso; apply in_map_iff in He as (? & ? & _); discriminate); try (destruct He; fail).
    split; [congruence|]. split; [congruence|]. eexists. reflexivity. }
  destruct K as (Kc & Kw & Ke). split; [|exact Ke]. destruct (kd_w x') as [w|] eqn:Ew; [|destruct (Kw eq_refl)]. destruct (kd_ctx x') as [[rc srv]|] eqn:Ec; [|discriminate (G2 eq_refl)].
  destruct (C112_layers _ _ _ _ _ _ _ _ _ _ _ _ _ Hh) as [_ L]. cbn [kwhole k_w] in L. rewrite Ew in L. destruct L as [X _]. rewrite (G4 _ _ _ eq_refl eq_refl) in X.
  exists rc, srv, ins, (wk_x w), (k_effects (os ++ out)). split; [eapply H2; rewrite <- Kc; reflexivity|]. split; [eapply G3; reflexivity|]. split; [exact X|].
  unfold k_effects. apply in_flat_map. exists (KEff e). split; [apply in_or_app; right; exact He|left; reflexivity].
Qed.
Record call_inv (ops : list (sysop (iop := kop))) (s : system) (tr : wtrace) : Prop := {
  ci_cur : forall i t x t0 js rs sp rest, nth_error (ws_tasks (sy_w s)) i = Some t -> nth_error (sy_cur s) i = Some x -> tk_phase t = JpStepRun t0 js rs sp rest -> called i sp x tr;
  ci_past : forall e, In e (sy_past s) -> called (fst e) (snd (fst (snd e))) (snd (snd e)) tr;
  ci_from : forall pre w e post, tr = pre ++ (w, inr (KEff e)) :: post -> exists i, w = Some i /\ from_call ops i e pre }.
Lemma called_init i st tr : called i (SpBefore st) (rs_init C) tr.
Proof. split; cbn; discriminate. Qed.
Lemma from_mono all all' i e pre : (forall y, In y all -> In y all') -> from_call all i e pre -> from_call all' i e pre.
Proof. intros H (rc & srv & ins & x & effs & A & (cs & m & B1 & B2) & D). exists rc, srv, ins, x, effs. split; [exact A|]. split; [exists cs, m; auto|exact D]. Qed.
Lemma from_more all i e pre more : from_call all i e pre -> from_call all i e (pre ++ more).
Proof. intros (rc & srv & ins & x & effs & A & D). exists rc, srv, ins, x, effs. split; [apply in_or_app; left; exact A|exact D]. Qed.
Lemma call_run sh0 ops s tr : sysrun C glob cx wf sh0 ops s tr -> call_inv ops s tr.
Proof.
  assert (F := chained_faithful cx cl sv rhooks conf).
  induction 1 as [|ops s tr op s' o Hr [V1 V2 V3] E].
  { split; cbn; [intros [|i]; discriminate|intros e []|]. intros pre w e post H. destruct pre; discriminate H. }
  assert (I := sys_inv C glob cx wf F _ _ _ _ Hr).
  destruct (chain_run cx cl sv rhooks conf glob wf _ _ _ _ (sysrun_step _ _ _ _ _ _ _ _ _ _ _ Hr E)) as [Gc Gp _].
  assert (More : forall y, In y ops -> In y (ops ++ [op])) by (intros y Hy; apply in_or_app; left; exact Hy).
  assert (From : (forall pre w e post, o = pre ++ (w, inr (KEff e)) :: post -> exists i, w = Some i /\ from_call (ops ++ [op]) i e tr) ->
    forall pre w e post, tr ++ o = pre ++ (w, inr (KEff e)) :: post -> exists i, w = Some i /\ from_call (ops ++ [op]) i e pre).
  { intros H pre w e post Eq. apply mid_app in Eq as [(p & Eq)|(p & -> & Eq)].
    - destruct (V3 _ _ _ _ Eq) as (i & -> & K). exists i. split; [reflexivity|eapply from_mono; eassumption].
    - destruct (H _ _ _ _ Eq) as (i & -> & K). exists i. split; [reflexivity|apply from_more, K]. }
  destruct op as [wo|i io|k io].
  - destruct (flow_shape C cx glob wf _ _ _ _ _ _ I E) as (J1 & J2).
    assert (Cur : forall k t x t0 js rs sp rest, kept C s s' k -> nth_error (ws_tasks (sy_w s')) k = Some t -> nth_error (sy_cur s') k = Some x -> tk_phase t = JpStepRun t0 js rs sp rest -> called k sp x (tr ++ o)).
    { intros k t' x t0 js rs sp rest K Ht Hx Hp. destruct (K _ _ Ht Hx) as [(t & Ht' & Hp' & Hx')|[-> Hb]]; [apply called_app; eapply V1; [exact Ht'|exact Hx'|rewrite <- Hp'; exact Hp]|].
      destruct (Hb _ _ _ _ _ Hp) as [st ->]. apply called_init. }
    assert (Fr : forall pre w e post, tr ++ o = pre ++ (w, inr (KEff e)) :: post -> exists i, w = Some i /\ from_call (ops ++ [YFlow wo]) i e pre).
    { apply From. intros pre w e post ->. exfalso. destruct (J1 w (inr (KEff e))) as [y Cy]; [apply in_or_app; right; left; reflexivity|discriminate Cy]. }
    destruct J2 as [[Ep K]|(i & t & t0 & js & rs & r & rest & sh & x & Ht & Hp & Hx & Ep & K & Hi & Hb)]; (split; [| |exact Fr]).
    + intros; eapply Cur; eauto.
    + rewrite Ep. intros e He. apply called_app, V2, He.
    + intros k t' y u0 ujs urs sp urest Hk Hy Hq. destruct (Nat.eq_dec k i) as [->|Hne]; [|eapply Cur; eauto]. rewrite (Hi _ Hy). destruct (Hb _ _ _ _ _ _ Hk Hq) as [st ->]. apply called_init.
    + rewrite Ep. intros e He. apply in_app_iff in He as [He|[<-|[]]]; [apply called_app, V2, He|]. cbn [fst snd]. apply called_app. eapply V1; eassumption.
  - cbn [sysstep] in E. destruct (nth_error (ws_tasks (sy_w s)) i) as [t|] eqn:Et; [|discriminate]. destruct (nth_error (sy_cur s) i) as [x|] eqn:Ex; [|discriminate].
    destruct (tk_phase t) as [| | | | | | | | | |t0 js rs sp rest| | | |] eqn:Ep; try discriminate E.
    destruct (rs_step C (S i) (ws_sh (sy_w s)) sp x io) as [[[[sh' sp'] x'] out]|] eqn:Es; [|discriminate E]. injection E as <- <-. cbn [sy_w sy_cur sy_past ws_tasks] in *.
    assert (V := V1 _ _ _ _ _ _ _ _ Et Ex Ep). assert (G := si_task _ _ _ _ _ I _ _ _ Et Ex). rewrite Ep in G. destruct G as (st & _ & _ & _ & _ & _ & _ & _ & (iops & os & Hi & _)).
    split; cbn [sy_w sy_cur sy_past ws_tasks]; [|intros e He; apply called_app, V2, He|].
    + intros k t' y u0 ujs urs sp2 urest Hk Hy Hq. destruct (Nat.eq_dec k i) as [->|Hne].
      * erewrite list_set_eq in Hk by exact Et. injection Hk as <-. erewrite list_set_eq in Hy by exact Ex. injection Hy as <-. cbn [tk_phase set_phase] in Hq. injection Hq as <- <- <- <- <-.
        eapply called_step; eassumption.
      * rewrite list_set_ne in Hk by exact Hne. rewrite list_set_ne in Hy by exact Hne. apply called_app. eapply V1; eassumption.
    + apply From. intros pre w e post Eq. assert (K : In (w, inr (KEff e)) (map (fun e => (Some i, @inr obs kobs e)) out)) by (rewrite Eq; apply in_or_app; right; left; reflexivity).
      apply in_map_iff in K as (y & [= <- ->] & K). exists i. split; [reflexivity|]. refine (proj1 (effect_step _ _ _ _ _ _ _ _ _ _ _ _ _ _ _ Hi Es _ V K)). apply Gc. erewrite list_set_eq by exact Ex. reflexivity.
  - cbn [sysstep] in E. destruct (nth_error (sy_past s) k) as [[i [[sh p] x]]|] eqn:Ek; [|discriminate].
    destruct (rs_step C (S i) sh p x io) as [[[[sh' p'] x'] out]|] eqn:Es; [|discriminate E]. injection E as <- <-. cbn [sy_w sy_cur sy_past] in *.
    assert (Hin := nth_error_In _ _ Ek). destruct (si_past _ _ _ _ _ I _ Hin) as (st & r & iops & os & Hp & Hi & _). cbn [fst snd] in Hp, Hi. subst p.
    assert (V := V2 _ Hin). cbn [fst snd] in V. split; cbn [sy_w sy_cur sy_past].
    + intros; apply called_app; eapply V1; eassumption.
    + intros e He. apply In_nth_error in He as [n He]. destruct (Nat.eq_dec n k) as [->|Hne].
      * erewrite list_set_eq in He by exact Ek. injection He as <-. cbn [fst snd]. eapply called_step; eassumption.
      * rewrite list_set_ne in He by exact Hne. apply called_app, V2, (nth_error_In _ _ He).
    + apply From. intros pre w e post Eq. assert (K : In (w, inr (KEff e)) (map (fun e => (Some i, @inr obs kobs e)) out)) by (rewrite Eq; apply in_or_app; right; left; reflexivity).
      apply in_map_iff in K as (y & [= <- ->] & K). exists i. split; [reflexivity|]. refine (proj1 (effect_step _ _ _ _ _ _ _ _ _ _ _ _ _ _ _ Hi Es _ V K)).
      apply (Gp (i, (sh', p', x'))). eapply nth_error_In. erewrite list_set_eq by exact Ek. reflexivity.
Qed.
End Effects.
