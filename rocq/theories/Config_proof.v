From Verif Require Import Base Types Config_model Config_spec.

(** ** C15 *)
Lemma undefined_dep_none jobs deps : undefined_dep jobs deps = None <-> forall d, In d deps -> In d (keys jobs).
Proof.
  induction deps as [|d ds IH]; cbn; [split; [intros _ ? []|reflexivity]|].
  destruct (contains_key d jobs) eqn:E.
  - apply contains_key_true in E. rewrite IH. split; [intros H x [<-|Hx]; auto|auto].
  - apply contains_key_false in E. split; [discriminate|]. intros H; exfalso; apply E, H; auto.
Qed.
Lemma undefined_dep_some jobs deps d : undefined_dep jobs deps = Some d -> In d deps /\ ~ In d (keys jobs).
Proof.
  induction deps as [|d' ds IH]; cbn; [discriminate|].
  destruct (contains_key d' jobs) eqn:E; [intros H; apply IH in H; tauto|].
  intros [= <-]. apply contains_key_false in E. auto.
Qed.

Lemma validate_jobs_ok all flag l b :
  validate_jobs all flag l = Ok b <->
  (forall k j, In (k, j) l -> uj_steps j <> []) /\
  (forall k j d, In (k, j) l -> In d (deps_of j) -> In d (keys all)) /\
  (b = true <-> flag = true /\ forall k j, In (k, j) l -> deps_of j <> []).
Proof.
  revert flag; induction l as [|[k j] l IH]; intros flag; cbn [validate_jobs].
  - split.
    + intros [= <-]. split; [intros ? ? []|]. split; [intros ? ? ? []|].
      split; [intros H; split; [exact H|intros ? ? []]|tauto].
    + intros (_ & _ & H). f_equal. assert (E : flag = true <-> b = true) by (rewrite H; split; [intros ->; split; [reflexivity|intros ? ? []]|tauto]).
      destruct flag, b; intuition congruence.
  - change (option_default [] (uj_depends_on j)) with (deps_of j).
    destruct (uj_steps j) as [|s0 ss] eqn:Es.
    { assert (R : (match deps_of j with
       | [] => Err (WorkflowConfigError ("Job `" +++ k +++ "` must have at least one step"))
       | _ :: _ => match undefined_dep all (deps_of j) with
          | Some d => Err (WorkflowConfigError ("Job " +++ k +++ " depends on job " +++ d +++ ", but job " +++ d +++ " is not defined"))
          | None => Err (WorkflowConfigError ("Job `" +++ k +++ "` must have at least one step")) end end) <> Ok b)
        by (destruct (deps_of j); [discriminate|destruct (undefined_dep all _); discriminate]).
      split; [intros H; exfalso; apply R; exact H|].
      intros (H & _). exfalso; apply (H k j); [left; reflexivity|exact Es]. }
    destruct (deps_of j) as [|d0 ds] eqn:Ed.
    + rewrite IH. split.
      * intros (H1 & H2 & H3). split; [intros k' j' [[= <- <-]|Hi]; [congruence|eauto]|].
        split; [intros k' j' d [[= <- <-]|Hi]; [rewrite Ed; intros []|eauto]|].
        rewrite H3. split; [intros [? _]; discriminate|]. intros [_ H]. exfalso; apply (H k j); [left; reflexivity|exact Ed].
      * intros (H1 & H2 & H3). split; [intros k' j' Hi; apply (H1 k' j'); right; exact Hi|].
        split; [intros k' j' d Hi; apply (H2 k' j'); right; exact Hi|].
        rewrite H3. split; [|intros [? _]; discriminate]. intros [_ H]. exfalso; apply (H k j); [left; reflexivity|exact Ed].
    + destruct (undefined_dep all (d0 :: ds)) as [d|] eqn:Eu.
      * apply undefined_dep_some in Eu as [Hi Hn]. split; [discriminate|].
        intros (_ & H & _). exfalso; apply Hn, (H k j); [left; reflexivity|rewrite Ed; exact Hi].
      * rewrite IH. assert (Hu := proj1 (undefined_dep_none all (d0 :: ds)) Eu). split.
        -- intros (H1 & H2 & H3). split; [intros k' j' [[= <- <-]|Hi]; [congruence|eauto]|].
           split; [intros k' j' d [[= <- <-]|Hi]; [rewrite Ed; apply Hu|eauto]|].
           rewrite H3. split; (intros [Hf H]; split; [exact Hf|]).
           ++ intros k' j' [[= <- <-]|Hi]; [congruence|eauto].
           ++ intros k' j' Hi; apply (H k' j'); right; exact Hi.
        -- intros (H1 & H2 & H3). split; [intros k' j' Hi; apply (H1 k' j'); right; exact Hi|].
           split; [intros k' j' d Hi; apply (H2 k' j'); right; exact Hi|].
           rewrite H3. split; (intros [Hf H]; split; [exact Hf|]).
           ++ intros k' j' Hi; apply (H k' j'); right; exact Hi.
           ++ intros k' j' [[= <- <-]|Hi]; [congruence|eauto].
Qed.

Lemma deps_dec (l : map_ string user_job) :
  (exists k j, In (k, j) l /\ deps_of j = []) \/ (forall k j, In (k, j) l -> deps_of j <> []).
Proof.
  induction l as [|[k j] l [(k' & j' & H & E)|H]].
  - right; intros ? ? [].
  - left; exists k', j'; split; [right; exact H|exact E].
  - destruct (deps_of j) eqn:E.
    + left; exists k, j; split; [left; reflexivity|exact E].
    + right. intros k' j' [[= <- <-]|Hi]; [congruence|eauto].
Qed.

Lemma validate_spec w : validate w = Ok tt <-> acceptable (uw_jobs w).
Proof.
  unfold validate, acceptable. destruct (uw_jobs w) as [|x l] eqn:Ej.
  - split; [discriminate|]. intros (_ & _ & k & j & [] & _).
  - rewrite <- Ej. destruct (validate_jobs (uw_jobs w) true (uw_jobs w)) as [[]|e] eqn:E; cbn.
    + apply validate_jobs_ok in E as (H1 & H2 & H3). destruct H3 as [H3 _]. specialize (H3 eq_refl).
      split; [discriminate|]. intros (_ & _ & k & j & Hi & Hd). exfalso; eapply H3; eauto.
    + apply validate_jobs_ok in E as (H1 & H2 & H3). split; [intros _|reflexivity].
      split; [exact H1|]. split; [exact H2|].
      destruct (deps_dec (uw_jobs w)) as [H|H]; [exact H|]. destruct H3 as [_ H3]. exfalso; discriminate (H3 (conj eq_refl H)).
    + split; [discriminate|]. intros (H1 & H2 & H3).
      assert (validate_jobs (uw_jobs w) true (uw_jobs w) = Ok false); [|congruence].
      apply validate_jobs_ok. split; [exact H1|]. split; [exact H2|].
      split; [discriminate|]. intros [_ H]. destruct H3 as (k & j & Hi & Hd). exfalso; eapply H; eauto.
Qed.

(** The error names a real defect. *)
Lemma validate_jobs_err all flag l e : validate_jobs all flag l = Err e ->
  (exists k j d, In (k, j) l /\ In d (deps_of j) /\ ~ In d (keys all) /\
     e = WorkflowConfigError ("Job " +++ k +++ " depends on job " +++ d +++ ", but job " +++ d +++ " is not defined")) \/
  (exists k j, In (k, j) l /\ uj_steps j = [] /\
     e = WorkflowConfigError ("Job `" +++ k +++ "` must have at least one step")).
Proof.
  revert flag; induction l as [|[k j] l IH]; intros flag; cbn [validate_jobs]; [discriminate|].
  change (option_default [] (uj_depends_on j)) with (deps_of j).
  assert (L : forall f, validate_jobs all f l = Err e ->
    (exists k0 j0 d, In (k0, j0) ((k, j) :: l) /\ In d (deps_of j0) /\ ~ In d (keys all) /\
     e = WorkflowConfigError ("Job " +++ k0 +++ " depends on job " +++ d +++ ", but job " +++ d +++ " is not defined")) \/
    (exists k0 j0, In (k0, j0) ((k, j) :: l) /\ uj_steps j0 = [] /\
     e = WorkflowConfigError ("Job `" +++ k0 +++ "` must have at least one step"))).
  { intros f Hf. destruct (IH f Hf) as [(k' & j' & d & Hi & H)|(k' & j' & Hi & H)].
    - left; exists k', j', d; split; [right; exact Hi|exact H].
    - right; exists k', j'; split; [right; exact Hi|exact H]. }
  destruct (deps_of j) as [|d0 ds] eqn:Ed.
  - destruct (uj_steps j) eqn:Es; [|apply L].
    intros [= <-]. right; exists k, j; repeat split; [left; reflexivity|exact Es].
  - destruct (undefined_dep all (d0 :: ds)) as [d|] eqn:Eu.
    + intros [= <-]. apply undefined_dep_some in Eu as [Hi Hn].
      left; exists k, j, d. rewrite Ed. repeat split; [left; reflexivity|exact Hi|exact Hn].
    + destruct (uj_steps j) eqn:Es; [|apply L].
      intros [= <-]. right; exists k, j; repeat split; [left; reflexivity|exact Es].
Qed.

Lemma validate_err w e : validate w = Err e ->
  (uw_jobs w = [] /\ e = WorkflowConfigError "Workflow must have at least one job") \/
  (exists k j d, In (k, j) (uw_jobs w) /\ In d (deps_of j) /\ ~ In d (keys (uw_jobs w)) /\
     e = WorkflowConfigError ("Job " +++ k +++ " depends on job " +++ d +++ ", but job " +++ d +++ " is not defined")) \/
  (exists k j, In (k, j) (uw_jobs w) /\ uj_steps j = [] /\
     e = WorkflowConfigError ("Job `" +++ k +++ "` must have at least one step")) \/
  ((forall k j, In (k, j) (uw_jobs w) -> deps_of j <> []) /\ e = WorkflowConfigError "Cannot have all jobs has dependencies").
Proof.
  unfold validate. destruct (uw_jobs w) as [|x l] eqn:Ej; [intros [= <-]; left; auto|].
  rewrite <- Ej. destruct (validate_jobs (uw_jobs w) true (uw_jobs w)) as [[]|e'] eqn:E; cbn.
  - intros [= <-]. apply validate_jobs_ok in E as (_ & _ & H). right; right; right. split; [|reflexivity].
    apply H; reflexivity.
  - discriminate.
  - intros [= <-]. apply validate_jobs_err in E. tauto.
Qed.

Lemma acceptable_perm a b : Permutation a b -> acceptable a -> acceptable b.
Proof.
  intros P (H1 & H2 & (k & j & Hi & Hd)).
  assert (P' := Permutation_sym P).
  split; [intros k' j' Hi'; apply (H1 k' j'); eapply Permutation_in; eauto|]. split.
  - intros k' j' d Hi' Hd'. apply (Permutation_in _ (Permutation_map fst P)).
    apply (H2 k' j' d); [eapply Permutation_in; eauto|exact Hd'].
  - exists k, j; split; [eapply Permutation_in; eauto|exact Hd].
Qed.

(** ** C19: resolution *)
Lemma resolve_dynamic_spec plugins a f :
  resolve_dynamic_action plugins a = Some f <->
  exists pre p post, plugins = pre ++ p :: post /\ (forall q f', In q pre -> q a <> Ok (Some f')) /\ p a = Ok (Some f).
Proof.
  induction plugins as [|p ps IH]; cbn.
  - split; [discriminate|]. intros (pre & p & post & E & _). destruct pre; discriminate.
  - assert (Skip : (forall f', p a <> Ok (Some f')) ->
      (resolve_dynamic_action ps a = Some f <->
       exists pre p0 post, p :: ps = pre ++ p0 :: post /\ (forall q f', In q pre -> q a <> Ok (Some f')) /\ p0 a = Ok (Some f))).
    { intros Hn. rewrite IH. split.
      - intros (pre & p0 & post & -> & H1 & H2). exists (p :: pre), p0, post. split; [reflexivity|].
        split; [intros q f' [<-|Hq]; [apply Hn|eauto]|exact H2].
      - intros (pre & p0 & post & E & H1 & H2). destruct pre as [|q pre]; injection E as <- E.
        + exfalso; eapply Hn; eauto.
        + exists pre, p0, post. split; [exact E|]. split; [intros q f' Hq; apply H1; right; exact Hq|exact H2]. }
    destruct (p a) as [[g|]|e] eqn:Ep.
    + split.
      * intros [= <-]. exists [], p, ps. split; [reflexivity|]. split; [intros q f' []|exact Ep].
      * intros (pre & p0 & post & E & H1 & H2). destruct pre as [|q pre]; injection E as <- E; [congruence|].
        exfalso; eapply (H1 p); [left; reflexivity|exact Ep].
    + apply Skip; congruence.
    + apply Skip; congruence.
Qed.

Lemma resolve_dynamic_none plugins a :
  resolve_dynamic_action plugins a = None -> forall p f, In p plugins -> p a <> Ok (Some f).
Proof.
  induction plugins as [|p ps IH]; cbn; [intros _ ? ? []|].
  destruct (p a) as [[g|]|e] eqn:Ep; [discriminate| |]; intros H q f [<-|Hq]; try congruence; eauto.
Qed.

Lemma try_normalize_action_ok env a s : try_normalize_action env a = Ok s <-> resolves env a s.
Proof.
  unfold try_normalize_action, try_normalize. destruct (lookup (ua_uses a) (be_actions env)) as [f|] eqn:El; cbn.
  - destruct (f a) as [s'|e] eqn:Ef; cbn.
    + split; [intros [= <-]; eapply res_registered; eauto|].
      intros [f' E1 E2|pre p post f' E1 _ _ _ _]; congruence.
    + split; [discriminate|]. intros [f' E1 E2|pre p post f' E1 _ _ _ _]; congruence.
  - destruct (resolve_dynamic_action (be_plugins env) a) as [f|] eqn:Er.
    + apply resolve_dynamic_spec in Er as Hr. destruct Hr as (pre & p & post & E1 & E2 & E3).
      split; [intros H; eapply res_plugin; eauto|].
      intros [f' F1 F2|pre' p' post' f' F1 F2 F3 F4 F5]; [congruence|].
      assert (resolve_dynamic_action (be_plugins env) a = Some f') by (apply resolve_dynamic_spec; exists pre', p', post'; auto).
      congruence.
    + split; [discriminate|]. intros [f' F1 F2|pre' p' post' f' F1 F2 F3 F4 F5]; [congruence|].
      assert (resolve_dynamic_action (be_plugins env) a = Some f') by (apply resolve_dynamic_spec; exists pre', p', post'; auto).
      congruence.
Qed.

(** ** C17: expansion *)
Lemma pres_app a b : pres (a ++ b) = pres a ++ pres b.
Proof. unfold pres; apply flat_map_app. Qed.
Lemma posts_cons e es : posts (e :: es) = (let '(_, _, q) := e in opt_list q) ++ posts es.
Proof. destruct e as [[? ?] ?]; reflexivity. Qed.

Lemma normalize_loop_ok env l : forall pre steps post r,
  normalize_loop env pre steps post l = Ok r <->
  exists es, Forall2 (expands env) l es /\
    r = (pre ++ pres es, steps ++ mains es, rev (posts es) ++ post).
Proof.
  induction l as [|s l IH]; intros pre steps post r; cbn [normalize_loop].
  - split.
    + intros [= <-]. exists []. split; [constructor|]. cbn. rewrite !app_nil_r; reflexivity.
    + intros (es & H & ->). inv H. cbn. rewrite !app_nil_r; reflexivity.
  - destruct s as [c|a].
    + rewrite IH. split.
      * intros (es & H & ->). exists ((None, UCommand c, None) :: es).
        split; [constructor; [constructor|exact H]|]. cbn. rewrite <- app_assoc. reflexivity.
      * intros (es & H & ->). inversion H as [|x y l0 es' Hx Hl]; subst. inv Hx. exists es'. split; [exact Hl|].
        cbn. rewrite <- app_assoc. reflexivity.
    + destruct (try_normalize_action env a) as [[p ru q]|e] eqn:Ea; cbn.
      * apply try_normalize_action_ok in Ea as Hr. rewrite IH. split.
        -- intros (es & H & ->). exists ((p, ru, q) :: es).
           split; [constructor; [constructor; exact Hr|exact H]|].
           destruct p, q; cbn; rewrite <- ?app_assoc; reflexivity.
        -- intros (es & H & ->). inversion H as [|x y l0 es' Hx Hl]; subst. inversion Hx as [|a' p' ru' q' Hr' E1 E2]; subst.
           apply try_normalize_action_ok in Hr'. rewrite Ea in Hr'. injection Hr' as <- <- <-.
           exists es'. split; [exact Hl|].
           destruct p, q; cbn; rewrite <- ?app_assoc; reflexivity.
      * split; [discriminate|]. intros (es & H & _). inversion H as [|x y l0 es' Hx Hl]; subst.
        inversion Hx as [|a' p' ru' q' Hr' E1 E2]; subst. apply try_normalize_action_ok in Hr'. congruence.
Qed.

Lemma try_normalize_user_steps_ok env l r :
  try_normalize_user_steps env l = Ok r <->
  exists es, Forall2 (expands env) l es /\ r = pres es ++ mains es ++ rev (posts es).
Proof.
  unfold try_normalize_user_steps. destruct (normalize_loop env [] [] [] l) as [[[a b] c]|e] eqn:E; cbn.
  - apply normalize_loop_ok in E as (es & H & Hr). cbn in Hr. injection Hr as -> -> ->. rewrite app_nil_r.
    split; [intros [= <-]; eauto|]. intros (es' & H' & ->). 
    assert (E2 : normalize_loop env [] [] [] l = Ok (pres es', mains es', rev (posts es'))).
    { apply normalize_loop_ok. exists es'. cbn. rewrite app_nil_r. auto. }
    assert (E3 : normalize_loop env [] [] [] l = Ok (pres es, mains es, rev (posts es))).
    { apply normalize_loop_ok. exists es. cbn. rewrite app_nil_r. auto. }
    rewrite E2 in E3. injection E3 as -> -> E3. rewrite E3. reflexivity.
  - split; [discriminate|]. intros (es & H & _).
    assert (E2 : normalize_loop env [] [] [] l = Ok (pres es, mains es, rev (posts es))).
    { apply normalize_loop_ok. exists es. cbn. rewrite app_nil_r. auto. }
    congruence.
Qed.

Section P.
Variable pd : string -> option duration.

Lemma effective_container_spec own jd o :
  o = option_map container_normalize (match own with Some x => Some x | None => jd end) <-> effective_container own jd o.
Proof.
  assert (C : forall c x, x = container_normalize c <-> container_is c x).
  { intros [y|n] [a b d]; cbn; [tauto|]. split; [intros [= -> -> ->]; auto|intros (-> & -> & ->); reflexivity]. }
  destruct own as [c|]; cbn.
  - split; [intros ->; eexists; split; [reflexivity|apply C; reflexivity]|intros (x & -> & H); f_equal; apply C, H].
  - destruct jd as [c|]; cbn; [|tauto].
    split; [intros ->; eexists; split; [reflexivity|apply C; reflexivity]|intros (x & -> & H); f_equal; apply C, H].
Qed.

Lemma parse_step_ok id key jc idx u st :
  parse_step pd id key jc idx u = Ok st <-> st_id st = StepId id key idx /\ carries pd jc u st.
Proof.
  unfold parse_step, carries. destruct u as [c|a].
  - change (option_default "60m" (uc_timeout c)) with (match uc_timeout c with Some t => t | None => "60m" end).
    destruct (pd (match uc_timeout c with Some t => t | None => "60m" end)) as [d|] eqn:Ed.
    + split.
      * intros [= <-]. cbn. split; [reflexivity|]. exists c. repeat split; auto. apply effective_container_spec; reflexivity.
      * intros (Hid & c' & [= <-] & H1 & H2 & H3 & H4 & H5 & H6 & H7 & H8). apply effective_container_spec in H8.
        rewrite Ed in H7. injection H7 as H7.
        destruct st as [i n o ct r coe en se ti]; cbn in *. subst. reflexivity.
    + split; [discriminate|]. intros (Hid & c' & [= <-] & H1 & H2 & H3 & H4 & H5 & H6 & H7 & H8). congruence.
  - split; [discriminate|]. intros (_ & c & E & _). discriminate.
Qed.

Lemma parse_steps_ok id key jc l : forall idx sts,
  parse_steps pd id key jc idx l = Ok sts <->
  Forall2 (carries pd jc) l sts /\
  (forall i st, nth_error sts i = Some st -> st_id st = StepId id key (idx + N.of_nat i)).
Proof.
  induction l as [|u l IH]; intros idx sts; cbn [parse_steps].
  - split.
    + intros [= <-]. split; [constructor|]. intros [|i] st; discriminate.
    + intros [H _]. inv H; reflexivity.
  - destruct (parse_step pd id key jc idx u) as [st|e] eqn:Es.
    + apply parse_step_ok in Es as [Hid Hc].
      destruct (parse_steps pd id key jc (idx + 1) l) as [r|e] eqn:Er.
      * apply IH in Er as Hr. destruct Hr as [Hf Hi]. split.
        -- intros [= <-]. split; [constructor; assumption|].
           intros [|i] st' E; cbn in E.
           ++ injection E as <-. rewrite Hid. f_equal; lia.
           ++ rewrite (Hi _ _ E). f_equal; lia.
        -- intros [Hf' Hi']. inversion Hf' as [|x y l0 r' Hx Hl]; subst.
           assert (E1 : parse_step pd id key jc idx u = Ok y).
           { apply parse_step_ok. split; [rewrite (Hi' 0 y eq_refl); f_equal; cbn; lia|exact Hx]. }
           assert (E2 : parse_steps pd id key jc (idx + 1) l = Ok r').
           { apply IH. split; [exact Hl|]. intros i st' E. rewrite (Hi' (S i) st' E). f_equal; lia. }
           assert (parse_step pd id key jc idx u = Ok st) by (apply parse_step_ok; auto).
           congruence.
      * split; [discriminate|]. intros [Hf' Hi']. inversion Hf' as [|x y l0 r' Hx Hl]; subst.
        assert (E2 : parse_steps pd id key jc (idx + 1) l = Ok r').
        { apply IH. split; [exact Hl|]. intros i st' E. rewrite (Hi' (S i) st' E). f_equal; lia. }
        congruence.
    + split; [discriminate|]. intros [Hf' Hi']. inversion Hf' as [|x y l0 r' Hx Hl]; subst.
      assert (E1 : parse_step pd id key jc idx u = Ok y).
      { apply parse_step_ok. split; [rewrite (Hi' 0 y eq_refl); f_equal; cbn; lia|exact Hx]. }
      congruence.
Qed.

Local Notation built_job := (built_job pd).
Local Notation failure_cause := (failure_cause pd).
Lemma parse_job_ok env id key j jb : parse_job pd env id key j = Ok jb <-> built_job env id key j jb.
Proof.
  unfold parse_job, built_job. destruct (try_normalize_user_steps env (uj_steps j)) as [ex|e] eqn:En; cbn.
  - destruct (parse_steps pd id key (uj_container j) 0 ex) as [sts|e] eqn:Ep; cbn.
    + split.
      * intros [= <-]. cbn. apply parse_steps_ok in Ep as [Hf Hi]. apply try_normalize_user_steps_ok in En as (es & He & ->).
        repeat split; eauto.
      * intros (H1 & H2 & H3 & H4 & H5 & Hi & es & He & Hf).
        assert (E1 : try_normalize_user_steps env (uj_steps j) = Ok (pres es ++ mains es ++ rev (posts es)))
          by (apply try_normalize_user_steps_ok; eauto).
        rewrite En in E1. injection E1 as ->.
        assert (E2 : parse_steps pd id key (uj_container j) 0 (pres es ++ mains es ++ rev (posts es)) = Ok (jb_steps jb))
          by (apply parse_steps_ok; auto).
        rewrite Ep in E2. injection E2 as ->. destruct jb; cbn in *. subst. reflexivity.
    + split; [discriminate|]. intros (H1 & H2 & H3 & H4 & H5 & Hi & es & He & Hf).
      assert (E1 : try_normalize_user_steps env (uj_steps j) = Ok (pres es ++ mains es ++ rev (posts es)))
          by (apply try_normalize_user_steps_ok; eauto).
      rewrite En in E1. injection E1 as ->.
      assert (E2 : parse_steps pd id key (uj_container j) 0 (pres es ++ mains es ++ rev (posts es)) = Ok (jb_steps jb))
          by (apply parse_steps_ok; auto).
      congruence.
  - split; [discriminate|]. intros (H1 & H2 & H3 & H4 & H5 & Hi & es & He & Hf).
    assert (E1 : try_normalize_user_steps env (uj_steps j) = Ok (pres es ++ mains es ++ rev (posts es)))
          by (apply try_normalize_user_steps_ok; eauto).
    congruence.
Qed.

Lemma parse_jobs_ok env id l : forall acc r, NoDup (keys acc ++ keys l) ->
  (parse_jobs pd env id acc l = Ok r <->
   exists bs, r = acc ++ bs /\ Forall2 (fun '(k, j) '(k', jb) => k' = k /\ built_job env id k j jb) l bs).
Proof.
  induction l as [|[k j] l IH]; intros acc r ND; cbn [parse_jobs].
  - split.
    + intros [= <-]. exists []. rewrite app_nil_r. split; [reflexivity|constructor].
    + intros (bs & -> & H). inv H. rewrite app_nil_r; reflexivity.
  - cbn in ND.
    assert (Hn : ~ In k (keys acc)).
    { intros C. apply NoDup_remove_2 in ND. apply ND, in_or_app; auto. }
    assert (ND' : forall jb, NoDup (keys (insert k jb acc) ++ keys l)).
    { intros jb. rewrite keys_insert_new by exact Hn. rewrite <- app_assoc. exact ND. }
    destruct (parse_job pd env id k j) as [jb|e] eqn:Ej; cbn.
    + apply parse_job_ok in Ej as Hb. rewrite (IH _ _ (ND' jb)). rewrite insert_new by exact Hn. split.
      * intros (bs & -> & H). exists ((k, jb) :: bs). rewrite <- app_assoc. split; [reflexivity|]. constructor; auto.
      * intros (bs & -> & H). inversion H as [|x y l0 bs' Hx Hl]; subst; destruct y as [k' jb']; destruct Hx as [Hk Hx]; subst.
        apply parse_job_ok in Hx. rewrite Ej in Hx. injection Hx as <-. exists bs'. rewrite <- app_assoc. auto.
    + split; [discriminate|]. intros (bs & -> & H). inversion H as [|x y l0 bs' Hx Hl]; subst; destruct y as [k' jb']; destruct Hx as [Hk Hx]; subst.
      apply parse_job_ok in Hx. congruence.
Qed.

Lemma parse_ok env id w bw : NoDup (keys (uw_jobs w)) ->
  (parse pd env id w = Ok bw <->
   wf_id bw = WorkflowId id /\ wf_name bw = uw_name w /\ wf_on bw = uw_on w /\
   Forall2 (fun '(k, j) '(k', jb) => k' = k /\ built_job env id k j jb) (uw_jobs w) (wf_jobs bw)).
Proof.
  intros ND. unfold parse. destruct (parse_jobs pd env id [] (uw_jobs w)) as [jobs|e] eqn:E; cbn.
  - split.
    + intros [= <-]. cbn. apply (parse_jobs_ok env id (uw_jobs w) [] jobs ND) in E as (bs & -> & H). auto.
    + intros (H1 & H2 & H3 & H). assert (E2 : parse_jobs pd env id [] (uw_jobs w) = Ok (wf_jobs bw)).
      { apply (parse_jobs_ok env id (uw_jobs w) [] _ ND). exists (wf_jobs bw). split; [reflexivity|exact H]. }
      rewrite E in E2. injection E2 as ->. destruct bw; cbn in *. subst; reflexivity.
  - split; [discriminate|]. intros (H1 & H2 & H3 & H).
    assert (E2 : parse_jobs pd env id [] (uw_jobs w) = Ok (wf_jobs bw)).
    { apply (parse_jobs_ok env id (uw_jobs w) [] _ ND). exists (wf_jobs bw). split; [reflexivity|exact H]. }
    congruence.
Qed.

Lemma Forall2_keys env id (l : map_ string user_job) (bs : map_ string job) :
  Forall2 (fun '(k, j) '(k', jb) => k' = k /\ built_job env id k j jb) l bs -> keys bs = keys l.
Proof.
  induction 1 as [|[k j] [k' jb] l bs [Hk _] _ IH]; cbn; [reflexivity|]. subst. f_equal. exact IH.
Qed.

Lemma Forall2_built env id (l : map_ string user_job) (bs : map_ string job) k jb :
  Forall2 (fun '(k, j) '(k', jb) => k' = k /\ built_job env id k j jb) l bs ->
  In (k, jb) bs -> exists j, In (k, j) l /\ built_job env id k j jb.
Proof.
  induction 1 as [|[k0 j0] [k' jb'] l bs [Hk Hb] _ IH]; cbn; [tauto|]. intros [[= -> ->]|Hi].
  - subst. exists j0; auto.
  - destruct (IH Hi) as (j & H1 & H2). exists j; auto.
Qed.

Lemma Forall2_built_r env id (l : map_ string user_job) (bs : map_ string job) k j :
  Forall2 (fun '(k, j) '(k', jb) => k' = k /\ built_job env id k j jb) l bs ->
  In (k, j) l -> exists jb, In (k, jb) bs /\ built_job env id k j jb.
Proof.
  induction 1 as [|[k0 j0] [k' jb'] l bs [Hk Hb] _ IH]; cbn; [tauto|]. intros [[= -> ->]|Hi].
  - subst. exists jb'; auto.
  - destruct (IH Hi) as (jb & H1 & H2). exists jb; auto.
Qed.

(** existence of a build *)
Lemma carries_exists jc u c d idx id key :
  u = UCommand c -> pd (match uc_timeout c with Some t => t | None => "60m" end) = Some d ->
  exists st, parse_step pd id key jc idx u = Ok st.
Proof.
  intros -> E. unfold parse_step.
  change (option_default "60m" (uc_timeout c)) with (match uc_timeout c with Some t => t | None => "60m" end).
  rewrite E. eauto.
Qed.

Lemma parse_steps_exists jc id key l : forall idx,
  (forall u, In u l -> exists c d, u = UCommand c /\ pd (match uc_timeout c with Some t => t | None => "60m" end) = Some d) ->
  exists sts, parse_steps pd id key jc idx l = Ok sts.
Proof.
  induction l as [|u l IH]; intros idx H; cbn; [eauto|].
  destruct (H u (or_introl eq_refl)) as (c & d & E1 & E2).
  destruct (carries_exists jc u c d idx id key E1 E2) as [st ->].
  destruct (IH (idx + 1)%N) as [sts ->]; [intros; apply H; right; assumption|]. eauto.
Qed.

Lemma parse_job_exists env id key j : (exists jb, parse_job pd env id key j = Ok jb) <-> job_buildable pd env j.
Proof.
  split.
  - intros [jb H]. apply parse_job_ok in H as (_ & _ & _ & _ & _ & _ & es & He & Hf).
    exists es. split; [exact He|]. intros u Hu.
    assert (Hu' : In u (pres es ++ mains es ++ rev (posts es))).
    { rewrite !in_app_iff in *. rewrite <- in_rev. exact Hu. }
    clear -Hf Hu'. induction Hf as [|x y l sts Hx _ IH]; [destruct Hu'|].
    destruct Hu' as [<-|Hu']; [|auto]. destruct Hx as (c & E & _ & _ & _ & _ & _ & _ & Ht & _). exists c, (st_timeout y); auto.
  - intros (es & He & H). unfold parse_job.
    assert (E1 : try_normalize_user_steps env (uj_steps j) = Ok (pres es ++ mains es ++ rev (posts es)))
          by (apply try_normalize_user_steps_ok; eauto).
    rewrite E1; cbn.
    destruct (parse_steps_exists (uj_container j) id key (pres es ++ mains es ++ rev (posts es)) 0%N) as [sts ->]; [|cbn; eauto].
    intros u Hu. apply H. rewrite !in_app_iff in *. rewrite <- in_rev in Hu. exact Hu.
Qed.

Lemma parse_exists env id w : NoDup (keys (uw_jobs w)) ->
  ((exists bw, parse pd env id w = Ok bw) <-> forall k j, In (k, j) (uw_jobs w) -> job_buildable pd env j).
Proof.
  intros ND. split.
  - intros [bw H] k j Hi. apply (parse_ok env id w bw ND) in H as (_ & _ & _ & H).
    destruct (Forall2_built_r _ _ _ _ _ _ H Hi) as (jb & _ & Hb). apply (parse_job_exists env id k). exists jb. apply parse_job_ok, Hb.
  - intros H. unfold parse.
    assert (exists r, parse_jobs pd env id [] (uw_jobs w) = Ok r) as [r ->]; [|cbn; eauto].
    clear ND. generalize (@nil (string * job)) as acc. induction (uw_jobs w) as [|[k j] l IH]; intros acc; cbn; [eauto|].
    destruct (proj2 (parse_job_exists env id k j)) as [jb ->]; [eapply H; left; reflexivity|]. cbn.
    apply IH. intros k' j' Hi; eapply H; right; exact Hi.
Qed.

(** causes of failure *)
Lemma normalize_loop_err env l : forall pre steps post e,
  normalize_loop env pre steps post l = Err e -> exists a, In (UAction a) l /\ try_normalize_action env a = Err e.
Proof.
  induction l as [|s l IH]; intros pre steps post e; cbn [normalize_loop]; [discriminate|].
  destruct s as [c|a].
  - intros H. destruct (IH _ _ _ _ H) as (a & Hi & Ha). exists a; split; [right|]; assumption.
  - destruct (try_normalize_action env a) as [r|e'] eqn:Ea; cbn.
    + intros H. destruct (IH _ _ _ _ H) as (a' & Hi & Ha). exists a'; split; [right|]; assumption.
    + intros [= <-]. exists a; split; [left; reflexivity|exact Ea].
Qed.

Lemma parse_steps_err id key jc l : forall idx e,
  parse_steps pd id key jc idx l = Err e ->
  exists u, In u l /\ ((exists a, u = UAction a /\ e = UnsupportedFeature "Only command step is supported") \/
      (exists c, u = UCommand c /\ pd (match uc_timeout c with Some t => t | None => "60m" end) = None /\ e = bad_timeout)).
Proof.
  induction l as [|u l IH]; intros idx e; cbn [parse_steps]; [discriminate|].
  destruct (parse_step pd id key jc idx u) as [st|e'] eqn:Es.
  - destruct (parse_steps pd id key jc (idx + 1) l) as [r|e'] eqn:Er; [discriminate|]. intros [= <-].
    destruct (IH _ _ Er) as (u' & Hi & Hu). exists u'; split; [right|]; assumption.
  - intros [= <-]. exists u; split; [left; reflexivity|]. unfold parse_step in Es. destruct u as [c|a].
    + right. exists c. split; [reflexivity|].
      change (option_default "60m" (uc_timeout c)) with (match uc_timeout c with Some t => t | None => "60m" end) in Es.
      destruct (pd _) eqn:Ed in Es; [discriminate|]. injection Es as <-. auto.
    + left. injection Es as <-. eauto.
Qed.

Lemma parse_job_err env id key j e : parse_job pd env id key j = Err e -> failure_cause env j e.
Proof.
  unfold parse_job. destruct (try_normalize_user_steps env (uj_steps j)) as [ex|e'] eqn:En; cbn.
  - apply try_normalize_user_steps_ok in En as (es & He & ->).
    destruct (parse_steps pd id key (uj_container j) 0 _) as [sts|e'] eqn:Ep; cbn; [discriminate|]. intros [= <-].
    destruct (parse_steps_err _ _ _ _ _ _ Ep) as (u & Hu & Hc). right. exists es, u. split; [exact He|]. split; [|exact Hc].
    rewrite !in_app_iff in *. rewrite <- in_rev in Hu. exact Hu.
  - intros [= <-]. left. unfold try_normalize_user_steps in En.
    destruct (normalize_loop env [] [] [] (uj_steps j)) as [[[? ?] ?]|e0] eqn:El; cbn in En; [discriminate|]. injection En as <-.
    destruct (normalize_loop_err _ _ _ _ _ _ El) as (a & Hi & Ha). exists a. split; [exact Hi|].
    unfold try_normalize_action, try_normalize in Ha. destruct (lookup (ua_uses a) (be_actions env)) as [f|] eqn:Ef; cbn in Ha.
    + left. exists f. split; [left; reflexivity|]. destruct (f a); cbn in Ha; congruence.
    + destruct (resolve_dynamic_action (be_plugins env) a) as [f|] eqn:Er.
      * left. exists f. split; [right|exact Ha]. split; [reflexivity|]. apply resolve_dynamic_spec, Er.
      * right. injection Ha as <-. split; [reflexivity|]. split; [|reflexivity]. apply resolve_dynamic_none, Er.
Qed.

Lemma parse_err env id w e : parse pd env id w = Err e -> exists k j, In (k, j) (uw_jobs w) /\ failure_cause env j e.
Proof.
  unfold parse. destruct (parse_jobs pd env id [] (uw_jobs w)) as [r|e'] eqn:E; cbn; [discriminate|]. intros [= <-].
  revert E. generalize (@nil (string * job)) as acc.
  induction (uw_jobs w) as [|[k j] l IH]; intros acc; cbn; [discriminate|].
  destruct (parse_job pd env id k j) as [jb|e1] eqn:Ej; cbn.
  - intros E. destruct (IH _ E) as (k' & j' & Hi & Hc). exists k', j'; auto.
  - intros [= <-]. exists k, j. split; [left; reflexivity|]. eapply parse_job_err; eauto.
Qed.

Lemma step_ids_distinct env id w bw : NoDup (keys (uw_jobs w)) -> parse pd env id w = Ok bw ->
  NoDup (map st_id (flat_map (fun '(_, jb) => jb_steps jb) (wf_jobs bw))).
Proof.
  intros ND H. apply (parse_ok env id w bw ND) in H as (_ & _ & _ & H).
  assert (Ek := Forall2_keys _ _ _ _ H).
  assert (NDb : NoDup (keys (wf_jobs bw))) by (rewrite Ek; exact ND).
  assert (Hb : forall k jb, In (k, jb) (wf_jobs bw) -> forall i st, nth_error (jb_steps jb) i = Some st -> st_id st = StepId id k (N.of_nat i)).
  { intros k jb Hi. destruct (Forall2_built _ _ _ _ _ _ H Hi) as (j & _ & Hj). apply Hj. }
  clear -NDb Hb. induction (wf_jobs bw) as [|[k jb] l IH]; cbn; [constructor|].
  rewrite map_app. cbn in NDb. apply NoDup_cons_iff in NDb as [Hn NDb].
  assert (A : forall x, In x (map st_id (jb_steps jb)) -> sid_1 x = k).
  { intros x Hx. apply in_map_iff in Hx as (st & <- & Hx). apply In_nth_error in Hx as [i Hx].
    rewrite (Hb k jb (or_introl eq_refl) _ _ Hx). reflexivity. }
  assert (B : forall x, In x (map st_id (flat_map (fun '(_, jb) => jb_steps jb) l)) -> In (sid_1 x) (keys l)).
  { intros x Hx. apply in_map_iff in Hx as (st & <- & Hx). apply in_flat_map in Hx as ([k' jb'] & Hi & Hx).
    apply In_nth_error in Hx as [i Hx]. rewrite (Hb k' jb' (or_intror Hi) _ _ Hx). cbn. apply (in_map fst) in Hi. exact Hi. }
  assert (C : NoDup (map st_id (jb_steps jb))).
  { apply NoDup_nth_error. intros i i' Hi E. rewrite map_length in Hi. rewrite !nth_error_map in E.
    destruct (nth_error (jb_steps jb) i) as [st|] eqn:Ei; [|apply nth_error_None in Ei; lia]. cbn in E.
    destruct (nth_error (jb_steps jb) i') as [st'|] eqn:Ei'; [|discriminate]. cbn in E. injection E as E.
    rewrite (Hb k jb (or_introl eq_refl) _ _ Ei), (Hb k jb (or_introl eq_refl) _ _ Ei') in E. injection E as E. lia. }
  assert (D : NoDup (map st_id (flat_map (fun '(_, jb) => jb_steps jb) l))).
  { apply IH; [exact NDb|]. intros k' jb' Hi. apply (Hb k' jb'). right; exact Hi. }
  revert A C. generalize (map st_id (jb_steps jb)) as s. induction s as [|x s IHs]; intros A C; cbn; [exact D|].
  apply NoDup_cons_iff in C as [C1 C2]. constructor.
  - rewrite in_app_iff. intros [Hx|Hx]; [exact (C1 Hx)|]. apply B in Hx. rewrite (A x (or_introl eq_refl)) in Hx. exact (Hn Hx).
  - apply IHs; [|exact C2]. intros y Hy; apply A; right; exact Hy.
Qed.

Lemma validate_nonempty env id w bw : NoDup (keys (uw_jobs w)) -> validate w = Ok tt -> parse pd env id w = Ok bw ->
  wf_jobs bw <> [] /\ (forall k jb, In (k, jb) (wf_jobs bw) -> jb_steps jb <> [] /\
     (forall d, In d (jb_depends_on jb) -> In d (keys (wf_jobs bw)))) /\
  (exists k jb, In (k, jb) (wf_jobs bw) /\ jb_depends_on jb = []).
Proof.
  intros ND V H. apply validate_spec in V as (V1 & V2 & (k0 & j0 & V3 & V4)).
  apply (parse_ok env id w bw ND) in H as (_ & _ & _ & H). assert (Ek := Forall2_keys _ _ _ _ H).
  destruct (Forall2_built_r _ _ _ _ _ _ H V3) as (jb0 & Hi0 & Hb0).
  split; [intros C; rewrite C in Hi0; exact Hi0|]. split.
  - intros k jb Hi. destruct (Forall2_built _ _ _ _ _ _ H Hi) as (j & Hj & Hb).
    destruct Hb as (_ & _ & _ & Hd & _ & _ & es & He & Hc). split.
    + intros C. rewrite C in Hc. inversion Hc as [E|]. symmetry in E. apply app_eq_nil in E as [_ E]. apply app_eq_nil in E as [E _].
      destruct es as [|[[? ?] ?] es]; [|discriminate]. inversion He as [E'|]. apply (V1 k j Hj). congruence.
    + intros d Hdd. rewrite Ek. rewrite Hd in Hdd. eapply V2; eauto.
  - exists k0, jb0. split; [exact Hi0|]. destruct Hb0 as (_ & _ & _ & Hd & _). congruence.
Qed.
End P.
