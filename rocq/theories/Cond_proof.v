From Verif Require Import Base Types Cond_model Cond_spec.

Section P.
Variable glob : glob_oracle.

Lemma valid_dec p : {valid glob p} + {~ valid glob p}.
Proof. unfold valid; destruct (glob p); [left|right]; congruence. Qed.

Lemma split_invalid patterns :
  (forall p, In p patterns -> valid glob p) \/
  exists pre bad post, patterns = pre ++ bad :: post /\ (forall p, In p pre -> valid glob p) /\ ~ valid glob bad.
Proof.
  induction patterns as [|p ps [IH|(pre & bad & post & -> & H1 & H2)]].
  - left; intros p [].
  - destruct (valid_dec p) as [Hv|Hv].
    + left. intros q [<-|Hq]; auto.
    + right. exists [], p, ps. cbn; repeat split; auto. intros q [].
  - destruct (valid_dec p) as [Hv|Hv].
    + right. exists (p :: pre), bad, post. cbn; repeat split; auto. intros q [<-|Hq]; auto.
    + right. exists [], p, (pre ++ bad :: post). cbn; repeat split; auto. intros q [].
Qed.

Lemma match_one_valid v patterns : (forall p, In p patterns -> valid glob p) ->
  (match_one glob v patterns = Some true /\ exists p, In p patterns /\ hits glob p v) \/
  (match_one glob v patterns = None /\ forall p, In p patterns -> ~ hits glob p v).
Proof.
  induction patterns as [|p ps IH]; intros Hv; cbn.
  - right; split; [reflexivity|intros p []].
  - destruct (glob p) as [m|] eqn:E; [|exfalso; apply (Hv p); [left; reflexivity|exact E]].
    destruct (m v) eqn:Em.
    + left; split; [reflexivity|]. exists p; split; [left; reflexivity|exists m; auto].
    + destruct IH as [(-> & q & Hq & Hh)|[-> Hn]]; [intros; apply Hv; right; assumption| |].
      * left; split; [reflexivity|exists q; auto].
      * right; split; [reflexivity|]. intros q [<-|Hq]; [|auto]. intros (m' & E' & Em'). congruence.
Qed.

Lemma match_one_invalid v pre bad post : (forall p, In p pre -> valid glob p) -> ~ valid glob bad ->
  exists b, match_one glob v (pre ++ bad :: post) = Some b /\ (b = true <-> exists p, In p pre /\ hits glob p v).
Proof.
  intros Hv Hb. assert (Eb : glob bad = None) by (unfold valid in Hb; destruct (glob bad); [exfalso; apply Hb; congruence|reflexivity]).
  induction pre as [|p pre IH]; cbn.
  - rewrite Eb. exists false. split; [reflexivity|]. split; [discriminate|intros (p & [] & _)].
  - destruct (glob p) as [m|] eqn:E; [|exfalso; apply (Hv p); [left; reflexivity|exact E]].
    destruct (m v) eqn:Em.
    + exists true; split; [reflexivity|]. split; [intros _|reflexivity]. exists p; split; [left; reflexivity|exists m; auto].
    + destruct IH as (b & -> & Hi); [intros; apply Hv; right; assumption|].
      exists b; split; [reflexivity|]. rewrite Hi. split.
      * intros (q & Hq & Hh); eauto.
      * intros (q & [<-|Hq] & Hh); [destruct Hh as (m' & E' & Em'); congruence|eauto].
Qed.

Lemma is_match_patterns_spec values patterns :
  is_match_patterns glob values patterns = true <-> filter_accepts glob values patterns.
Proof.
  destruct (split_invalid patterns) as [Hv|(pre & bad & post & -> & Hv & Hb)].
  - split.
    + intros H. apply fa_valid; [exact Hv|]. induction values as [|v vs IH]; cbn in H; [discriminate|].
      destruct (match_one_valid v patterns Hv) as [(E & p & Hp & Hh)|[E Hn]]; rewrite E in H.
      * exists v, p; cbn; auto.
      * destruct (IH H) as (v' & p & H1 & H2 & H3). exists v', p; cbn; auto.
    + intros [_ (v & p & Hin & Hp & Hh)|pre bad post v vs E _ Hb _ _].
      * induction values as [|v0 vs IH]; [destruct Hin|]. cbn.
        destruct (match_one_valid v0 patterns Hv) as [(E & _)|[E Hn]]; rewrite E; [reflexivity|].
        destruct Hin as [->|Hin]; [exfalso; eapply Hn; eauto|auto].
      * exfalso; apply Hb, Hv. rewrite E; apply in_or_app; cbn; auto.
  - split.
    + intros H. destruct values as [|v vs]; [discriminate|]. cbn in H.
      destruct (match_one_invalid v pre bad post Hv Hb) as (b & E & Hi). rewrite E in H.
      eapply fa_invalid; eauto. apply Hi, H.
    + intros [Hall _|pre' bad' post' v vs E Hv' Hb' -> (p & Hp & Hh)].
      * exfalso; apply Hb, Hall, in_or_app; cbn; auto.
      * cbn. destruct (match_one_invalid v pre bad post Hv Hb) as (b & Eb & Hi). rewrite Eb. apply Hi.
        assert (pre' = pre) as ->; [|eauto].
        clear -E Hv Hb Hv' Hb'. revert pre' E Hv'; induction pre as [|x pre IH]; intros [|y pre'] E Hv'; cbn in E.
        -- reflexivity.
        -- injection E as -> E. exfalso; apply Hb, Hv'; left; reflexivity.
        -- injection E as -> E. exfalso; apply Hb', Hv; left; reflexivity.
        -- injection E as -> E. f_equal. apply IH; auto; intros; [apply Hv|apply Hv']; right; assumption.
Qed.

Lemma filter_opt values f :
  (match f with Some ps => negb (is_match_patterns glob values ps) | None => false end) = false <->
  filter_ok glob values f.
Proof.
  destruct f as [ps|]; cbn; [|tauto]. rewrite <- is_match_patterns_spec.
  destruct (is_match_patterns glob values ps); cbn; split; congruence.
Qed.

Lemma push_spec s p : push_is_match glob s p = true <->
  filter_ok glob [cp_branch p] (pc_branches s) /\ filter_ok glob (cp_paths p) (pc_paths s).
Proof.
  unfold push_is_match. rewrite <- !filter_opt.
  destruct (match pc_branches s with Some _ => _ | None => _ end); [intuition congruence|].
  destruct (match pc_paths s with Some _ => _ | None => _ end); intuition congruence.
Qed.
Lemma pull_request_spec s p : pull_request_is_match glob s p = true <->
  filter_ok glob [cp_branch p] (prc_branches s) /\ filter_ok glob (cp_paths p) (prc_paths s).
Proof.
  unfold pull_request_is_match. rewrite <- !filter_opt.
  destruct (match prc_branches s with Some _ => _ | None => _ end); [intuition congruence|].
  destruct (match prc_paths s with Some _ => _ | None => _ end); intuition congruence.
Qed.

Lemma cond_is_match_spec c p : cond_is_match glob c p = true <-> condition_holds glob c p.
Proof.
  destruct c as [events|cfg]; cbn; [apply memb_true|].
  destruct (eqb_spec' (cp_event p) "push") as [E|N1].
  - destruct (cc_push cfg) as [s|].
    + rewrite push_spec. split.
      * intros H; left; split; [exact E|]. exists s; split; [reflexivity|exact H].
      * intros [(_ & s' & [= <-] & H)|(E' & _)]; [exact H|congruence].
    + split; [discriminate|]. intros [(_ & s' & ? & _)|(E' & _)]; congruence.
  - destruct (eqb_spec' (cp_event p) "pull_request") as [E|N2].
    + destruct (cc_pull_request cfg) as [s|].
      * rewrite pull_request_spec. split.
        -- intros H; right; split; [exact E|]. exists s; split; [reflexivity|exact H].
        -- intros [(E' & _)|(_ & s' & [= <-] & H)]; [congruence|exact H].
      * split; [discriminate|]. intros [(E' & _)|(_ & s' & ? & _)]; congruence.
    + split; [discriminate|]. intros [(E' & _)|(E' & _)]; congruence.
Qed.

Lemma cond_is_match_false c p : cond_is_match glob c p = false <-> ~ condition_holds glob c p.
Proof. rewrite <- cond_is_match_spec. destruct (cond_is_match glob c p); split; congruence. Qed.

Lemma fetch_payload_spec gh ev p : fetch_payload gh ev = Ok p <->
  exists files, files_fetched gh ev files /\ p = ConditionPayload (te_event ev) (te_branch ev) files.
Proof.
  unfold fetch_payload, get_changed_files, files_fetched.
  assert (H : forall fs, (if eqb (te_event ev) "push" then get_push_changed_files gh
    else if eqb (te_event ev) "pull_request" then get_pull_request_changed_files gh ev
    else Err (UnsupportedFeature ("Event " +++ te_event ev +++ " is not supported"))) = Ok fs <->
    gh_api gh = Ok tt /\
     ((te_event ev = "push" /\ (gh_commit gh = Ok (Some fs) \/ (gh_commit gh = Ok None /\ fs = []))) \/
     (te_event ev = "pull_request" /\ exists n, te_pr_number ev = Some n /\ gh_pull_files gh n = Ok fs))).
  { intros fs. unfold get_push_changed_files, get_pull_request_changed_files.
    destruct (eqb_spec' (te_event ev) "push") as [E|N1].
    - destruct (gh_api gh) as [[]|e]; cbn; [|split; [discriminate|intros [? _]; discriminate]].
      destruct (gh_commit gh) as [[l|]|e]; cbn; (split; [intros H; inv H; try (split; [reflexivity|left; split; auto])|]).
      + intros (_ & [(_ & [H|[H _]])|(H & _)]); congruence.
      + intros (_ & [(_ & [H|[H ->]])|(H & _)]); try congruence.
      + intros (_ & [(_ & [H|[H _]])|(H & _)]); congruence.
    - destruct (eqb_spec' (te_event ev) "pull_request") as [E|N2].
      + destruct (gh_api gh) as [[]|e]; cbn; [|split; [discriminate|intros [? _]; discriminate]].
        destruct (te_pr_number ev) as [n|]; cbn.
        * split; [intros H; split; [reflexivity|right; split; [exact E|exists n; auto]]|].
          intros (_ & [(H & _)|(_ & n' & [= <-] & H)]); [congruence|exact H].
        * split; [discriminate|]. intros (_ & [(H & _)|(_ & n' & H & _)]); congruence.
      + split; [discriminate|]. intros (_ & [(H & _)|(H & _)]); congruence. }
  destruct (if eqb (te_event ev) "push" then _ else _) as [fs|e] eqn:Ef; cbn.
  - split.
    + intros [= <-]. exists fs; split; [|reflexivity]. apply H; reflexivity.
    + intros (files & Hf & ->). apply H in Hf. congruence.
  - split; [discriminate|]. intros (files & Hf & _). apply H in Hf. discriminate.
Qed.

Lemma fetch_payload_err gh ev e : fetch_payload gh ev = Err e -> forall files, ~ files_fetched gh ev files.
Proof.
  intros E files Hf.
  assert (fetch_payload gh ev = Ok (ConditionPayload (te_event ev) (te_branch ev) files)) by (apply fetch_payload_spec; eauto).
  congruence.
Qed.

(** C14, one call *)
Lemma should_skip_spec m gh cache on :
  snd (should_skip glob m gh cache on) = true <->
  exists c ev p, on = Some c /\ cm_auth m = true /\ cm_event m = Some ev /\
    (cache = Some p \/
     (cache = None /\ exists files, files_fetched gh ev files /\ p = ConditionPayload (te_event ev) (te_branch ev) files)) /\
    ~ condition_holds glob c p.
Proof.
  unfold should_skip. destruct on as [c|]; cbn; [|split; [discriminate|intros (? & ? & ? & H & _); discriminate]].
  unfold is_match, is_match_first.
  destruct (cm_auth m); cbn; [|split; [discriminate|intros (? & ? & ? & _ & H & _); discriminate]].
  destruct (cm_event m) as [ev|]; cbn; [|split; [discriminate|intros (? & ? & ? & _ & _ & H & _); discriminate]].
  destruct cache as [p|]; cbn.
  - rewrite negb_true_iff, cond_is_match_false. split.
    + intros H. exists c, ev, p. auto 10.
    + intros (c' & ev' & p' & [= <-] & _ & _ & [[= <-]|[H _]] & Hn); [exact Hn|discriminate].
  - destruct (fetch_payload gh ev) as [p|e] eqn:Ef; cbn.
    + rewrite negb_true_iff, cond_is_match_false. apply fetch_payload_spec in Ef as Hf. split.
      * intros H. exists c, ev, p. auto 10.
      * intros (c' & ev' & p' & [= <-] & _ & [= <-] & [H|[_ Hp']] & Hn); [discriminate|].
        apply fetch_payload_spec in Hp'. congruence.
    + split; [discriminate|].
      intros (c' & ev' & p' & [= <-] & _ & [= <-] & [H|[_ (files & Hp' & _)]] & Hn); [discriminate|].
      exfalso; eapply fetch_payload_err; eauto.
Qed.

(** ** the shared matcher *)
Lemma cm_after_snoc m ops o : cm_after glob m (ops ++ [o]) = fst (cm_step glob m (cm_after glob m ops) o).
Proof. unfold cm_after; rewrite fold_left_snoc; reflexivity. Qed.

Lemma cm_inflight_event m ops call c ev :
  lookup call (cms_inflight (cm_after glob m ops)) = Some (c, ev) -> cm_event m = Some ev /\ cm_auth m = true.
Proof.
  induction ops as [|o ops IH] using rev_ind; [cbn; discriminate|].
  rewrite cm_after_snoc. set (s := cm_after glob m ops) in *. destruct o as [k d|k gh]; cbn.
  - unfold is_match_first. destruct (cm_auth m) eqn:Ea; cbn; [|exact IH].
    destruct (cm_event m) as [ev0|] eqn:Ee; cbn; [|exact IH].
    destruct (cms_cache s); cbn; [exact IH|]. rewrite lookup_insert.
    destruct (eq_dec call k); [intros [= <- <-]; auto|exact IH].
  - destruct (lookup k (cms_inflight s)) as [[d ev0]|] eqn:Ek; [|exact IH].
    destruct (is_match_second _ _ _ _) as [ca b]; cbn. rewrite lookup_remove.
    destruct (eq_dec call k); [discriminate|exact IH].
Qed.

Lemma cache_from m ops p :
  cms_cache (cm_after glob m ops) = Some p ->
  exists ev files, cm_event m = Some ev /\ fetched_in glob m ops files /\
    p = ConditionPayload (te_event ev) (te_branch ev) files.
Proof.
  induction ops as [|o ops IH] using rev_ind; [cbn; discriminate|].
  rewrite cm_after_snoc. set (s := cm_after glob m ops) in *. intros H.
  assert (L : cms_cache s = Some p ->
    exists ev files, cm_event m = Some ev /\ fetched_in glob m (ops ++ [o]) files /\
    p = ConditionPayload (te_event ev) (te_branch ev) files).
  { intros Hp. destruct (IH Hp) as (ev & files & He & (pre & call & gh & post & ev' & -> & Hx) & Hq).
    exists ev, files. split; [exact He|]. split; [|exact Hq].
    exists pre, call, gh, (post ++ [o]), ev'. rewrite <- app_assoc. split; [reflexivity|exact Hx]. }
  destruct o as [k d|k gh]; cbn in H.
  - destruct (is_match_first _ _ _ _); cbn in H; auto.
  - destruct (lookup k (cms_inflight s)) as [[d ev0]|] eqn:Ek; [|auto].
    apply cm_inflight_event in Ek as He0. destruct He0 as [He0 _].
    unfold is_match_second in H. destruct (fetch_payload gh ev0) as [p0|e] eqn:Ef; cbn in H; [|auto].
    injection H as ->. apply fetch_payload_spec in Ef as (files & Hf & ->).
    exists ev0, files. split; [exact He0|]. split; [|reflexivity].
    exists ops, k, gh, [], ev0. repeat split; auto; try apply Hf.
    fold s. unfold contains_key. rewrite Ek. reflexivity.
Qed.

Lemma cache_mono m ops o : cms_cache (cm_after glob m ops) <> None -> cms_cache (cm_after glob m (ops ++ [o])) <> None.
Proof.
  rewrite cm_after_snoc. set (s := cm_after glob m ops) in *. intros H. destruct o as [k d|k gh]; cbn.
  - destruct (is_match_first _ _ _ _); cbn; auto.
  - destruct (lookup k (cms_inflight s)) as [[d ev0]|]; [|auto].
    unfold is_match_second. destruct (fetch_payload gh ev0); cbn; [congruence|auto].
Qed.

Lemma cache_mono_app m ops ops' : cms_cache (cm_after glob m ops) <> None -> cms_cache (cm_after glob m (ops ++ ops')) <> None.
Proof.
  intros H. induction ops' as [|o ops' IH] using rev_ind; [rewrite app_nil_r; exact H|].
  rewrite app_assoc. apply cache_mono, IH.
Qed.

(** after a success every new call is answered at once, without GitHub *)
Lemma no_fetch_after_success m ops call c :
  cms_cache (cm_after glob m ops) <> None -> exists b, cm_output glob m ops (CmStart call c) = CmAnswer b.
Proof.
  intros H. unfold cm_output; cbn. unfold is_match_first.
  destruct (cms_cache (cm_after glob m ops)); [|congruence].
  destruct (cm_auth m); cbn; [|eauto]. destruct (cm_event m); cbn; eauto.
Qed.

Lemma success_sets_cache m ops call gh c ev files :
  lookup call (cms_inflight (cm_after glob m ops)) = Some (c, ev) -> files_fetched gh ev files ->
  cms_cache (cm_after glob m (ops ++ [CmFinish call gh])) = Some (ConditionPayload (te_event ev) (te_branch ev) files).
Proof.
  intros Hl Hf. rewrite cm_after_snoc; cbn. rewrite Hl.
  assert (fetch_payload gh ev = Ok (ConditionPayload (te_event ev) (te_branch ev) files)) as -> by (apply fetch_payload_spec; eauto).
  reflexivity.
Qed.

(** with no other fetch in flight the cached list never changes again *)
Lemma cache_stable m ops ops' p :
  cms_cache (cm_after glob m ops) = Some p -> cms_inflight (cm_after glob m ops) = [] ->
  cms_cache (cm_after glob m (ops ++ ops')) = Some p.
Proof.
  intros Hc Hi.
  assert (cms_cache (cm_after glob m (ops ++ ops')) = Some p /\ cms_inflight (cm_after glob m (ops ++ ops')) = []) as [? _]; [|assumption].
  induction ops' as [|o ops' [IH1 IH2]] using rev_ind; [rewrite app_nil_r; auto|].
  rewrite app_assoc, cm_after_snoc. set (s := cm_after glob m (ops ++ ops')) in *.
  destruct o as [k d|k gh]; cbn.
  - unfold is_match_first. rewrite IH1. destruct (cm_auth m); cbn; [|auto]. destruct (cm_event m); cbn; auto.
  - rewrite IH2; cbn. auto.
Qed.

(** what a call answers *)
Lemma start_answer m ops call c b :
  cm_output glob m ops (CmStart call c) = CmAnswer b ->
  (b = false <-> cm_auth m = true /\ cm_event m <> None /\
     exists p, cms_cache (cm_after glob m ops) = Some p /\ ~ condition_holds glob c p).
Proof.
  unfold cm_output; cbn. unfold is_match_first.
  destruct (cm_auth m); cbn; [|intros [= <-]; split; [discriminate|intros [? _]; discriminate]].
  destruct (cm_event m) as [ev|]; cbn; [|intros [= <-]; split; [discriminate|intros (_ & ? & _); congruence]].
  destruct (cms_cache (cm_after glob m ops)) as [p|]; cbn; [|discriminate].
  intros [= <-]. rewrite cond_is_match_false. split.
  - intros H. repeat split; [congruence|eauto].
  - intros (_ & _ & p' & [= <-] & H); exact H.
Qed.

Lemma finish_answer m ops call gh b c ev :
  lookup call (cms_inflight (cm_after glob m ops)) = Some (c, ev) ->
  cm_output glob m ops (CmFinish call gh) = CmAnswer b ->
  (b = false <-> exists files, files_fetched gh ev files /\
     ~ condition_holds glob c (ConditionPayload (te_event ev) (te_branch ev) files)).
Proof.
  intros Hl. unfold cm_output; cbn. rewrite Hl. unfold is_match_second.
  destruct (fetch_payload gh ev) as [p|e] eqn:Ef; cbn; intros [= <-].
  - rewrite cond_is_match_false. apply fetch_payload_spec in Ef as Hf. split.
    + intros H. destruct Hf as (files & Hf & ->). eauto.
    + intros (files & Hf' & Hn).
      assert (E2 : fetch_payload gh ev = Ok (ConditionPayload (te_event ev) (te_branch ev) files)) by (apply fetch_payload_spec; eauto).
      congruence.
  - split; [discriminate|]. intros (files & Hf & _). exfalso; eapply fetch_payload_err; eauto.
Qed.
End P.
