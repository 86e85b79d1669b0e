(** Property C119: the requests made to GitHub for a condition. *)
From Verif Require Import Base Types Ids_model Cond_model Cond_spec Cond_proof Setup_model Github_model Github_spec.

Definition runtime {A} (x : A + string) : result A := match x with inl a => Ok a | inr e => Err (InternalRuntimeError e) end.

Lemma api_admitted : forall sv a o r,
  exists x l, get_github_api_by_repo sv a o r = (runtime x, l) /\ admitted sv o r a l x.
Proof.
  intros sv [t|id key] o r; unfold get_github_api_by_repo; cbn [is_personal_access_token].
  - exists (inl (CrPersonal t)), []. split; [reflexivity|constructor].
  - unfold create_github_api_by_app_authorization; cbn [create_github_api]. unfold send, io_bind, pure.
    destruct (sv_installation sv (CrApp (show_usize id) key) o r) as [i|e] eqn:E1; cbn [fst snd app].
    + destruct (sv_access_token sv (CrApp (show_usize id) key) i) as [t|e] eqn:E2; cbn [fst snd app].
      * exists (inl (CrInstallation t)). eexists. split; [reflexivity|eapply ad_installation; eassumption].
      * exists (inr ("Failed to create installation access token: " +++ e)). eexists. split; [reflexivity|eapply ad_no_token; eassumption].
    + exists (inr ("Failed to get installation for repository: " +++ e)). eexists. split; [reflexivity|apply ad_no_installation; assumption].
Qed.

Lemma admitted_fun : forall sv o r a l x l' x', admitted sv o r a l x -> admitted sv o r a l' x' -> l = l' /\ x = x'.
Proof. intros sv o r a l x l' x' H H'. inversion H; subst; inversion H'; subst; split; congruence. Qed.

Lemma exchange_holds : forall sv a ev, exchange sv a ev (snd (get_changed_files_io sv a ev)) (fst (get_changed_files_io sv a ev)).
Proof.
  intros sv a ev. unfold get_changed_files_io.
  destruct (eqb (te_event ev) "push") eqn:E1.
  - apply (proj1 (eqb_true _ _)) in E1. unfold get_push_changed_files_io.
    destruct (api_admitted sv a (te_repo_owner ev) (te_repo_name ev)) as (x & l & E & Ad). rewrite E. unfold io_bind.
    destruct x as [cr|e]; cbn [runtime fst snd].
    + unfold send, pure. destruct (sv_commit _ _ _ _ _) as [[fs|]|e] eqn:Ec; cbn [fst snd option_default app].
      * eapply ex_push; eauto.
      * eapply ex_push; eauto.
      * eapply ex_push_failed; eauto.
    + apply ex_not_admitted; auto.
  - apply eqb_false in E1. destruct (eqb (te_event ev) "pull_request") eqn:E2.
    + apply (proj1 (eqb_true _ _)) in E2. unfold get_pull_request_changed_files_io.
      destruct (api_admitted sv a (te_repo_owner ev) (te_repo_name ev)) as (x & l & E & Ad). rewrite E. unfold io_bind.
      destruct x as [cr|e]; cbn [runtime fst snd].
      * unfold pure. destruct (te_pr_number ev) as [n|] eqn:En; cbn [fst snd].
        -- unfold send. destruct (sv_pull_files _ _ _ _ _) as [fs|e] eqn:Ef; cbn [fst snd app].
           ++ eapply ex_pull; eauto.
           ++ eapply ex_pull_failed; eauto.
        -- rewrite app_nil_r. eapply ex_no_number; eauto.
      * apply ex_not_admitted; auto.
    + apply eqb_false in E2. apply ex_unsupported; assumption.
Qed.

Lemma exchange_fun : forall sv a ev l r l' r', exchange sv a ev l r -> exchange sv a ev l' r' -> l = l' /\ r = r'.
Proof.
  intros sv a ev l r l' r' H H'. inversion H; subst; inversion H'; subst;
    try congruence;
    try (match goal with A : ?x = ?u \/ ?x = ?v |- _ => destruct A; congruence end);
    try (split; reflexivity);
    match goal with A : admitted _ _ _ _ _ _, B : admitted _ _ _ _ _ _ |- _ => destruct (admitted_fun _ _ _ _ _ _ _ _ A B) as [-> X]; try discriminate X; inversion X; subst end;
    try (split; reflexivity);
    try (split; [congruence|]);
    repeat match goal with A : _ \/ _ |- _ => destruct A as [A|A] | A : _ /\ _ |- _ => destruct A end; try congruence;
    split; congruence.
Qed.

(** C119: the exchange with GitHub is exactly the one described: these requests, in this order, with these credentials, and this end. *)
Theorem C119_exchange : forall sv a ev l r,
  get_changed_files_io sv a ev = (r, l) <-> exchange sv a ev l r.
Proof.
  intros sv a ev l r. pose proof (exchange_holds sv a ev) as H. split.
  - intros E. rewrite E in H. exact H.
  - intros H'. destruct (exchange_fun _ _ _ _ _ _ _ H H') as [<- <-]. destruct (get_changed_files_io sv a ev); reflexivity.
Qed.
Print Assumptions C119_exchange.

(** Requests are sent exactly when there is an authorization, an event, nothing cached, and the event is one whose files can be asked for
    (for a pull request without number, only an App asks anything: its installation and token). *)
Theorem C119_silent : forall glob auth event sv cache c,
  snd (is_match_io glob auth event sv cache c) = [] <->
  auth = None \/ event = None \/ cache <> None \/
  (exists ev, event = Some ev /\ te_event ev <> "push" /\ te_event ev <> "pull_request") \/
  (exists ev token, event = Some ev /\ auth = Some (PersonalAccessToken token) /\ te_event ev = "pull_request" /\ te_pr_number ev = None).
Proof.
  intros glob auth event sv cache c. unfold is_match_io.
  destruct auth as [a|]; [|split; [left; reflexivity|reflexivity]].
  destruct event as [ev|]; [|split; [right; left; reflexivity|reflexivity]].
  destruct cache as [p|]; [split; [intros _; do 2 right; left; discriminate|reflexivity]|].
  unfold condition_payload_io. pose proof (exchange_holds sv a ev) as H.
  destruct (get_changed_files_io sv a ev) as [r l]; cbn [fst snd] in H.
  assert (snd (match io_bind (r, l) (fun files => pure (Ok (ConditionPayload (te_event ev) (te_branch ev) files))) with
               | (Ok p, l0) => (Some p, cond_is_match glob c p, l0) | (Err _, l0) => (None, true, l0) end) = l) as ->.
  { unfold io_bind, pure. destruct r; cbn [fst snd]; [apply app_nil_r|reflexivity]. }
  split.
  - intros ->. right; right; right. inversion H; subst;
      try (match goal with A : _ ++ [_] = [] |- _ => destruct (app_cons_not_nil _ _ _ (eq_sym A)) end).
    + left. exists ev. auto.
    + match goal with A : admitted _ _ _ _ _ _ |- _ => inversion A end.
    + match goal with A : admitted _ _ _ _ _ _ |- _ => inversion A; subst end. right. exists ev, token. auto.
  - intros [A|[A|[A|[(ev' & A & B & C)|(ev' & t & A & B & C & D)]]]]; try congruence.
    + inversion A; subst. inversion H; subst; try congruence. destruct H0; congruence.
    + inversion A; inversion B; subst. inversion H; subst; try congruence;
        match goal with A : admitted _ _ _ _ _ _ |- _ => inversion A; reflexivity end.
Qed.
Print Assumptions C119_silent.

(** Which credential goes where. Nothing but the configured personal token is ever sent when one is configured; an App's id and key
    accompany only the two requests that obtain its token; files are read only with the personal token or with the token GitHub gave, in
    the same call, for the installation it named for this repository. *)
Theorem C119_credentials : forall sv a ev cr rq,
  In (cr, rq) (snd (get_changed_files_io sv a ev)) ->
  match a with
  | PersonalAccessToken token => cr = CrPersonal token /\ reads_files rq
  | GithubApp id key =>
      (cr = CrApp (show_usize id) key /\ rq = RqInstallation (te_repo_owner ev) (te_repo_name ev)) \/
      exists i, sv_installation sv (CrApp (show_usize id) key) (te_repo_owner ev) (te_repo_name ev) = inl i /\
        ((cr = CrApp (show_usize id) key /\ rq = RqAccessToken i) \/
         exists token, sv_access_token sv (CrApp (show_usize id) key) i = inl token /\ cr = CrInstallation token /\ reads_files rq)
  end.
Proof.
  intros sv a ev cr rq HIn. pose proof (exchange_holds sv a ev) as H. revert HIn.
  assert (forall l x, admitted sv (te_repo_owner ev) (te_repo_name ev) a l x -> forall tl,
            (tl = [] \/ exists cr' rq', x = inl cr' /\ tl = [(cr', rq')] /\ reads_files rq') ->
            In (cr, rq) (l ++ tl) ->
            match a with
            | PersonalAccessToken token => cr = CrPersonal token /\ reads_files rq
            | GithubApp id key =>
                (cr = CrApp (show_usize id) key /\ rq = RqInstallation (te_repo_owner ev) (te_repo_name ev)) \/
                exists i, sv_installation sv (CrApp (show_usize id) key) (te_repo_owner ev) (te_repo_name ev) = inl i /\
                  ((cr = CrApp (show_usize id) key /\ rq = RqAccessToken i) \/
                   exists token, sv_access_token sv (CrApp (show_usize id) key) i = inl token /\ cr = CrInstallation token /\ reads_files rq)
            end) as K.
  { intros l x Ad tl Ht HIn. apply in_app_or in HIn. destruct HIn as [HIn|HIn].
    - inversion Ad; subst; cbn [In] in HIn; try contradiction.
      + destruct HIn as [E|[]]. inversion E; subst; auto.
      + destruct HIn as [E|[E|[]]]; inversion E; subst; eauto 6.
      + destruct HIn as [E|[E|[]]]; inversion E; subst; eauto 6.
    - destruct Ht as [->|(cr' & rq' & -> & -> & Hr)]; [destruct HIn|]. destruct HIn as [E|[]]; inversion E; subst.
      inversion Ad; subst; eauto 8. }
  destruct (get_changed_files_io sv a ev) as [r l]; cbn [fst snd] in *.
  inversion H; subst; intros HIn; try contradiction.
  - eapply K; [eassumption|left; reflexivity|]. rewrite app_nil_r. exact HIn.
  - eapply K; cycle 2; [exact HIn|eassumption|right; do 2 eexists; repeat split; exact I].
  - eapply K; cycle 2; [exact HIn|eassumption|right; do 2 eexists; repeat split; exact I].
  - eapply K; [eassumption|left; reflexivity|]. rewrite app_nil_r. exact HIn.
  - eapply K; cycle 2; [exact HIn|eassumption|right; do 2 eexists; repeat split; exact I].
  - eapply K; cycle 2; [exact HIn|eassumption|right; do 2 eexists; repeat split; exact I].
Qed.
Print Assumptions C119_credentials.

(** Only the event's repository, commit and pull request are asked about; files are asked for at most once and last, so one answer, and
    for a pull request one page of it, decides; and no call sends more than three requests. *)
Theorem C119_asks_once : forall sv a ev,
  (forall cr rq, In (cr, rq) (snd (get_changed_files_io sv a ev)) -> about ev rq) /\
  (forall pre cr rq post, snd (get_changed_files_io sv a ev) = pre ++ (cr, rq) :: post -> reads_files rq -> post = []) /\
  length (snd (get_changed_files_io sv a ev)) <= 3.
Proof.
  intros sv a ev. pose proof (exchange_holds sv a ev) as H.
  assert (forall l x, admitted sv (te_repo_owner ev) (te_repo_name ev) a l x ->
            (forall cr rq, In (cr, rq) l -> about ev rq /\ ~ reads_files rq) /\ length l <= 2) as K.
  { intros l x Ad. inversion Ad; subst; cbn [In length]; split; try lia; intros cr rq HIn; try contradiction;
      repeat (destruct HIn as [E|HIn]; [inversion E; subst; cbn; repeat split; auto|]); try contradiction. }
  assert (forall l x, admitted sv (te_repo_owner ev) (te_repo_name ev) a l x ->
            forall pre (cr : credential) rq post, l = pre ++ (cr, rq) :: post -> reads_files rq -> post = []) as K0.
  { intros l x Ad pre cr rq post E Hr. exfalso. apply (proj1 (K _ _ Ad) cr rq); [|exact Hr]. rewrite E. apply in_or_app; right; left; reflexivity. }
  assert (forall l x, admitted sv (te_repo_owner ev) (te_repo_name ev) a l x -> forall cr0 rq0, about ev rq0 ->
            (forall cr rq, In (cr, rq) (l ++ [(cr0, rq0)]) -> about ev rq) /\
            (forall pre cr rq post, l ++ [(cr0, rq0)] = pre ++ (cr, rq) :: post -> reads_files rq -> post = []) /\
            length (l ++ [(cr0, rq0)]) <= 3) as K1.
  { intros l x Ad cr0 rq0 Ha. split; [|split].
    - intros cr rq HIn. apply in_app_or in HIn. destruct HIn as [HIn|[E|[]]]; [apply (proj1 (K _ _ Ad) cr rq HIn)|]. inversion E; subst; exact Ha.
    - intros pre cr rq post E Hr. destruct post as [|q post] using rev_ind; [reflexivity|].
      exfalso. rewrite app_comm_cons, app_assoc in E. apply app_inj_tail in E. destruct E as [E _].
      apply (proj1 (K _ _ Ad) cr rq); [|exact Hr]. rewrite E. apply in_or_app; right; left; reflexivity.
    - rewrite app_length. cbn [length]. pose proof (proj2 (K _ _ Ad)). lia. }
  destruct (get_changed_files_io sv a ev) as [r l]; cbn [fst snd] in *.
  inversion H; subst.
  - split; [intros ? ? []|split; [intros [] ? ? ? E; discriminate E|cbn; lia]].
  - pose proof (K _ _ H1) as [Ka Kb]. split; [intros cr rq HIn; apply (Ka _ _ HIn)|split; [apply (K0 _ _ H1)|lia]].
  - eapply K1; [eassumption|cbn; auto].
  - eapply K1; [eassumption|cbn; auto].
  - match goal with A : admitted _ _ _ _ _ _ |- _ => pose proof (K _ _ A) as [Ka Kb]; split; [intros ? ? HIn; apply (Ka _ _ HIn)|split; [apply (K0 _ _ A)|lia]] end.
  - eapply K1; [eassumption|cbn; auto].
  - eapply K1; [eassumption|cbn; auto].
Qed.
Print Assumptions C119_asks_once.

(** The verdict: "no match" exactly when the condition fails on the cached files or on those this exchange delivered; a failed exchange
    is a match and leaves nothing behind, a successful one is remembered. *)
Theorem C119_verdict : forall glob auth event sv cache c cache' b l,
  is_match_io glob auth event sv cache c = (cache', b, l) ->
  (b = false <-> exists a ev p, auth = Some a /\ event = Some ev /\ ~ condition_holds glob c p /\
     (cache = Some p \/
      cache = None /\ exists files, exchange sv a ev l (Ok files) /\ p = ConditionPayload (te_event ev) (te_branch ev) files)) /\
  (cache' <> cache <-> exists a ev files, auth = Some a /\ event = Some ev /\ cache = None /\ exchange sv a ev l (Ok files) /\
     cache' = Some (ConditionPayload (te_event ev) (te_branch ev) files)).
Proof.
  intros glob auth event sv cache c cache' b l E. unfold is_match_io in E.
  destruct auth as [a|];
    [|inversion E; subst; split; split; [discriminate|intros (? & ? & ? & X & _); discriminate X|intros N; destruct N; reflexivity|intros (? & ? & ? & X & _); discriminate X]].
  destruct event as [ev|];
    [|inversion E; subst; split; split; [discriminate|intros (? & ? & ? & _ & X & _); discriminate X|intros N; destruct N; reflexivity|intros (? & ? & ? & _ & X & _); discriminate X]].
  assert (forall p, cond_is_match glob c p = false <-> ~ condition_holds glob c p) as Hc.
  { intros p. rewrite <- cond_is_match_spec. destruct (cond_is_match glob c p); intuition congruence. }
  destruct cache as [p|].
  { inversion E; subst. rewrite Hc. split; split.
    - intros N. exists a, ev, p. auto.
    - intros (a' & ev' & p' & A & B & C & [D|(D & _)]); [inversion D; subst; exact C|discriminate].
    - intros N; destruct N; reflexivity.
    - intros (? & ? & ? & _ & _ & X & _); discriminate X. }
  unfold condition_payload_io in E. pose proof (exchange_holds sv a ev) as H.
  destruct (get_changed_files_io sv a ev) as [[fs|e] l0] eqn:Ef; cbn [fst snd] in H; unfold io_bind, pure in E; cbn [fst snd] in E;
    inversion E; subst; try rewrite app_nil_r.
  - rewrite Hc. split; split.
    + intros N. exists a, ev, (ConditionPayload (te_event ev) (te_branch ev) fs). repeat split; auto. right. split; [reflexivity|]. exists fs. auto.
    + intros (a' & ev' & p' & A & B & C & [D|(_ & fs' & D & ->)]); [discriminate|]. inversion A; inversion B; subst.
      destruct (exchange_fun _ _ _ _ _ _ _ H D) as [_ X]. inversion X; subst. exact C.
    + intros _. exists a, ev, fs. auto.
    + intros _. discriminate.
  - split; split; try discriminate.
    + intros (a' & ev' & p' & A & B & C & [D|(_ & fs' & D & ->)]); [discriminate|]. inversion A; inversion B; subst.
      destruct (exchange_fun _ _ _ _ _ _ _ H D) as [_ X]. discriminate X.
    + intros N; destruct N; reflexivity.
    + intros (? & ? & ? & _ & _ & _ & _ & X); discriminate X.
Qed.
Print Assumptions C119_verdict.

(** The exchange is the one [Cond_model] takes as given: whatever GitHub does, some abstract answer explains the same call. *)
Theorem C119_same_as_answers : forall glob auth event sv, exists gh, forall cache c,
  fst (is_match_io glob auth event sv cache c) =
  is_match glob (Matcher (match auth with Some _ => true | None => false end) event) gh cache c.
Proof.
  intros glob auth event sv.
  destruct auth as [a|]; [|exists (GitHub (Ok tt) (Ok None) (fun _ => Ok [])); intros; reflexivity].
  destruct event as [ev|]; [|exists (GitHub (Ok tt) (Ok None) (fun _ => Ok [])); intros; reflexivity].
  destruct (api_admitted sv a (te_repo_owner ev) (te_repo_name ev)) as (x & l & E & Ad).
  exists (match x with
          | inr e => GitHub (Err (InternalRuntimeError e)) (Ok None) (fun _ => Ok [])
          | inl cr => GitHub (Ok tt)
              (fst (send cr (RqCommit "" "" "") (sv_commit sv cr (te_repo_owner ev) (te_repo_name ev) (te_sha ev)) "Failed to get commit"))
              (fun n => fst (send cr (RqCommit "" "" "") (sv_pull_files sv cr (te_repo_owner ev) (te_repo_name ev) n) "Failed to get pull request files"))
          end).
  intros cache c. unfold is_match_io, is_match, is_match_first; cbn [cm_auth cm_event negb].
  destruct cache as [p|]; [reflexivity|]. unfold condition_payload_io, fetch_payload, get_changed_files_io, get_changed_files, is_match_second.
  destruct (eqb (te_event ev) "push"); [|destruct (eqb (te_event ev) "pull_request"); [|reflexivity]].
  - unfold get_push_changed_files_io, get_push_changed_files. rewrite E. destruct x as [cr|e]; cbn [runtime gh_api gh_commit]; unfold io_bind, send, pure; cbn [fst snd].
    + destruct (sv_commit _ _ _ _ _) as [[fs|]|e]; reflexivity.
    + reflexivity.
  - unfold get_pull_request_changed_files_io, get_pull_request_changed_files. rewrite E. destruct x as [cr|e]; cbn [runtime gh_api gh_pull_files]; unfold io_bind, send, pure; cbn [fst snd].
    + destruct (te_pr_number ev) as [n|]; cbn [fst snd]; [|reflexivity]. destruct (sv_pull_files _ _ _ _ _) as [fs|e]; reflexivity.
    + reflexivity.
Qed.
Print Assumptions C119_same_as_answers.

Lemma checks_cached : forall glob auth event calls p,
  checks_io glob auth event (Some p) calls =
  (map (fun call => match auth, event with Some _, Some _ => cond_is_match glob (snd call) p | _, _ => true end) calls, []).
Proof.
  intros glob auth event calls p. induction calls as [|[sv c] calls IH]; [reflexivity|].
  cbn [checks_io map snd]. destruct auth as [a|]; [destruct event as [ev|]|]; cbn [is_match_io]; rewrite IH; reflexivity.
Qed.

(** A run's checks, one after the other, GitHub answering each differently: until the first exchange that delivers, every check is a match and
    the next one asks again; from then on all checks are judged on those files and nothing more is sent. *)
Theorem C119_history : forall glob a ev pre sv c post files l,
  (forall sv0 c0, In (sv0, c0) pre -> exists e, fst (get_changed_files_io sv0 a ev) = Err e) ->
  exchange sv a ev l (Ok files) ->
  exists bs,
    checks_io glob (Some a) (Some ev) None (pre ++ (sv, c) :: post) =
      (map (fun _ => true) pre ++ bs,
       concat (map (fun call => snd (get_changed_files_io (fst call) a ev)) pre) ++ l) /\
    Forall2 (fun b call => b = true <-> condition_holds glob (snd call) (ConditionPayload (te_event ev) (te_branch ev) files)) bs ((sv, c) :: post).
Proof.
  intros glob a ev pre sv c post files l Hpre Hex.
  apply C119_exchange in Hex.
  exists (map (fun call => cond_is_match glob (snd call) (ConditionPayload (te_event ev) (te_branch ev) files)) ((sv, c) :: post)).
  split.
  - induction pre as [|[sv0 c0] pre IH].
    + cbn [app map concat]. cbn [checks_io is_match_io]. unfold condition_payload_io. rewrite Hex. unfold io_bind, pure; cbn [fst snd].
      rewrite checks_cached. cbn [map snd fst]. rewrite !app_nil_r. reflexivity.
    + cbn [app checks_io is_match_io]. unfold condition_payload_io.
      destruct (Hpre sv0 c0 (or_introl eq_refl)) as [e He]. cbn [map concat fst].
      destruct (get_changed_files_io sv0 a ev) as [r0 l0]; cbn [fst snd] in *; subst r0. unfold io_bind; cbn [fst snd].
      rewrite IH; [|intros ? ? HIn; apply Hpre with c1; right; exact HIn]. cbn [app]. rewrite app_assoc. reflexivity.
  - generalize ((sv, c) :: post) as q. induction q as [|x q IH]; cbn [map]; constructor; [apply cond_is_match_spec|exact IH].
Qed.
Print Assumptions C119_history.

(** All requests of any history of checks are those of its exchanges: three per check at most, none at all without authorization or event. *)
Theorem C119_history_bound : forall glob auth event cache calls,
  length (snd (checks_io glob auth event cache calls)) <= 3 * length calls /\
  ((auth = None \/ event = None) -> snd (checks_io glob auth event cache calls) = [] /\
     forall b, In b (fst (checks_io glob auth event cache calls)) -> b = true).
Proof.
  intros glob auth event cache calls. revert cache. induction calls as [|[sv c] calls IH]; intros cache.
  - cbn. split; [lia|]. intros _. split; [reflexivity|intros b []].
  - cbn [checks_io length].
    assert (length (snd (is_match_io glob auth event sv cache c)) <= 3 /\
            ((auth = None \/ event = None) -> is_match_io glob auth event sv cache c = (cache, true, []))) as [H1 H2].
    { unfold is_match_io. destruct auth as [a|]; [|split; [cbn; lia|auto]]. destruct event as [ev|]; [|split; [cbn; lia|auto]].
      split; [|intros [X|X]; discriminate X]. destruct cache; [cbn; lia|]. unfold condition_payload_io.
      pose proof (proj2 (proj2 (C119_asks_once sv a ev))) as K. destruct (get_changed_files_io sv a ev) as [[fs|e] l]; unfold io_bind, pure; cbn [fst snd] in *; [rewrite app_nil_r|]; exact K. }
    destruct (is_match_io glob auth event sv cache c) as [[cache' b] l] eqn:E; cbn [snd] in H1.
    specialize (IH cache'). destruct (checks_io glob auth event cache' calls) as [bs l']; cbn [fst snd] in IH |- *.
    destruct IH as [IH1 IH2]. split; [rewrite app_length; lia|].
    intros Hn. destruct (IH2 Hn) as [-> Hb]. specialize (H2 Hn). inversion H2; subst. split; [reflexivity|].
    intros b0 [<-|HIn]; [reflexivity|apply Hb; exact HIn].
Qed.
Print Assumptions C119_history_bound.

(** ** Cases *)
Definition gh_glob : glob_oracle := fun p => Some (eqb p).
Definition pr_event : trigger_event := TriggerEvent "pull_request" "o" "r" (Some 7%Z) "abc" "main" "refs/pull/7".
Definition push_event : trigger_event := TriggerEvent "push" "o" "r" None "abc" "main" "refs/heads/main".
(** A server with one installation (number 12 of App 5), whose pull request 7 changes these files, handed out [page] at a time. *)
Definition all_files : list string := ["a"; "b"; "c"].
Definition paged_server (page : nat) : gh_server := GhServer
  (fun cr _ _ _ => match cr with CrInstallation "tok" | CrPersonal "pat" => inl None | _ => inr "401" end)
  (fun cr _ _ n => match cr with CrInstallation "tok" | CrPersonal "pat" => if Z.eqb n 7 then inl (firstn page all_files) else inr "404" | _ => inr "401" end)
  (fun cr _ _ => match cr with CrApp "5" "key" => inl 12%N | _ => inr "401" end)
  (fun cr i => match cr with CrApp "5" "key" => if N.eqb i 12 then inl "tok" else inr "404" | _ => inr "401" end).
Definition on_c : condition := CConfig (ConditionConfig None (Some (PullRequestCondition None (Some ["c"])))).

Example C119_app_case :
  is_match_io gh_glob (Some (GithubApp 5 "key")) (Some pr_event) (paged_server 3) None on_c =
    (Some (ConditionPayload "pull_request" "main" ["a"; "b"; "c"]), true,
     [(CrApp "5" "key", RqInstallation "o" "r"); (CrApp "5" "key", RqAccessToken 12); (CrInstallation "tok", RqPullFiles "o" "r" 7)]) /\
  snd (is_match_io gh_glob (Some (GithubApp 6 "key")) (Some pr_event) (paged_server 3) None on_c) = [(CrApp "6" "key", RqInstallation "o" "r")] /\
  get_changed_files_io (paged_server 3) (GithubApp 5 "key") (TriggerEvent "pull_request" "o" "r" None "abc" "main" "") =
    (Err (WorkflowConfigError "pr_number is not provided"),
     [(CrApp "5" "key", RqInstallation "o" "r"); (CrApp "5" "key", RqAccessToken 12)]) /\
  get_changed_files_io (paged_server 3) (PersonalAccessToken "bad") push_event =
    (Err (InternalRuntimeError "Failed to get commit: 401"), [(CrPersonal "bad", RqCommit "o" "r" "abc")]).
Proof. repeat split; vm_compute; reflexivity. Qed.

(** The pull request does change [c], but it is on the second page of the listing: the step is skipped. *)
Example C119_second_page_unseen :
  In "c" all_files /\
  is_match_io gh_glob (Some (PersonalAccessToken "pat")) (Some pr_event) (paged_server 2) None on_c =
    (Some (ConditionPayload "pull_request" "main" ["a"; "b"]), false, [(CrPersonal "pat", RqPullFiles "o" "r" 7)]).
Proof. split; [cbn; auto|vm_compute; reflexivity]. Qed.

Example C119_history_case :
  checks_io gh_glob (Some (PersonalAccessToken "pat")) (Some pr_event) None
    [(GhServer (fun _ _ _ _ => inr "500") (fun _ _ _ _ => inr "500") (fun _ _ _ => inr "500") (fun _ _ => inr "500"), on_c);
     (paged_server 2, on_c); (paged_server 3, on_c)] =
    ([true; false; false], [(CrPersonal "pat", RqPullFiles "o" "r" 7); (CrPersonal "pat", RqPullFiles "o" "r" 7)]).
Proof. vm_compute; reflexivity. Qed.
