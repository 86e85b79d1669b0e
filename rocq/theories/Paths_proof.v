From Verif Require Import Base Types Ids_model Ids_spec Ids_proof Paths_model Paths_spec.

Lemma split_app_all c a b : split c (a +++ String c b) = split c a ++ split c b.
Proof.
  induction a as [|x a IH]; cbn.
  - rewrite Ascii.eqb_refl. reflexivity.
  - destruct (Ascii.eqb x c); [rewrite IH; reflexivity|]. rewrite IH. destruct (split_cons c a) as (h & t & E). rewrite E. reflexivity.
Qed.
Lemma split_snoc c a : split c (a +++ String c "") = split c a ++ [""].
Proof. apply split_app_all. Qed.
Lemma append_nil_r s : s +++ "" = s.
Proof. induction s; cbn; congruence. Qed.
Lemma append_assoc_s a b c : (a +++ b) +++ c = a +++ b +++ c.
Proof. induction a; cbn; congruence. Qed.
Lemma last_char_snoc p c : last_char p = Some c -> exists p', p = p' +++ String c "".
Proof.
  induction p as [|x p IH]; [discriminate|]. cbn. destruct p as [|y p]; [intros [= ->]; exists ""; reflexivity|].
  intros E. destruct (IH E) as [p' ->]. exists (String x p'). reflexivity.
Qed.
Lemma slash_free_not_abs n : slash_free n -> path_is_absolute n = false.
Proof. destruct n as [|c n]; [reflexivity|]. intros [H _]. cbn. apply Ascii.eqb_neq. exact H. Qed.
Lemma ordinary_meaningful n : ordinary n -> meaningful n = true.
Proof. intros (H1 & H2 & _). unfold meaningful. rewrite (proj2 (eqb_false n "") H1), (proj2 (eqb_false n ".") H2). reflexivity. Qed.
Lemma abs_append p q : p <> "" -> path_is_absolute (p +++ q) = path_is_absolute p.
Proof. destruct p; [congruence|reflexivity]. Qed.
Lemma join_ordinary p n : ordinary n -> components (path_join p n) = (fst (components p), snd (components p) ++ [n]).
Proof.
  intros O. assert (O' := O). destruct O' as (H1 & _ & _ & H2). unfold path_join. rewrite (slash_free_not_abs _ H2).
  assert (M := ordinary_meaningful _ O).
  destruct (last_char p) as [c|] eqn:L.
  - apply last_char_snoc in L as [p' ->]. destruct (Ascii.eqb c slash) eqn:E.
    + apply Ascii.eqb_eq in E. subst c. rewrite append_assoc_s. cbn [append].
      unfold components; change (split "/"%char) with (split slash). rewrite (split_app_all slash p' n), (split_app_all slash p' ""). cbn [fst snd].
      rewrite !filter_app, (split_free slash n H2). cbn [filter split]. rewrite M. unfold meaningful at 3. rewrite eqb_refl. cbn [negb andb]. rewrite app_nil_r.
      f_equal. destruct p'; reflexivity.
    + unfold components; change (split "/"%char) with (split slash). rewrite (split_app_all slash _ n). rewrite filter_app, (split_free slash n H2). cbn [filter fst snd]. rewrite M.
      f_equal. apply abs_append. destruct p'; discriminate.
  - destruct p as [|x p]; [|exfalso; revert L; clear; revert x; induction p as [|y p IH]; intros x; cbn in *; [discriminate|apply IH]].
    unfold components; change (split "/"%char) with (split slash). rewrite (slash_free_not_abs _ H2), (split_free slash n H2). cbn [filter]. rewrite M. reflexivity.
Qed.

Lemma digit_code c d : is_digit c d -> N_of_ascii c = (48 + d)%N.
Proof. intros [H ->]. apply N_ascii_embedding. lia. Qed.
Lemma digit_range c d : is_digit c d -> (48 <= N_of_ascii c <= 57)%N.
Proof. intros H. rewrite (digit_code _ _ H). destruct H. lia. Qed.
Lemma not_digit c : (N_of_ascii c < 48)%N \/ (57 < N_of_ascii c)%N -> forall d, ~ is_digit c d.
Proof. intros H d D. apply digit_range in D. lia. Qed.
Lemma decimal_first c s v : decimal (String c s) v -> exists d, is_digit c d.
Proof. intros D. inv D; eauto. Qed.
Lemma decimal_ordinary s v : decimal s v -> ordinary s.
Proof.
  intros D. assert (F := decimal_slash_free _ _ D). unfold ordinary, slash_free. split; [|split; [|split; [|exact F]]].
  - intros ->. inv D.
  - intros ->. apply decimal_first in D as [d D]. revert D. apply not_digit. left. reflexivity.
  - intros ->. apply decimal_first in D as [d D]. revert D. apply not_digit. left. reflexivity.
Qed.
Lemma show_ordinary n : ordinary (show_usize n).
Proof. eapply decimal_ordinary, show_usize_decimal. Qed.
Lemma data_not_decimal v : ~ decimal "data" v.
Proof. intros D. apply decimal_first in D as [d D]. revert D. apply not_digit. right. reflexivity. Qed.
Lemma decimal_dash_free s v : decimal s v -> free_of "-"%char s.
Proof. induction 1; cbn; repeat split; auto; intros ->; revert H; apply not_digit; left; reflexivity. Qed.
Ltac ord_const := repeat split; try discriminate.
Ltac ordl := repeat (apply Forall_cons; [first [assumption|apply show_ordinary|solve [repeat split; discriminate]]|]); apply Forall_nil.

Definition repo_names (r : option (string * string)) : list string := match r with Some (o, n) => [o; n] | None => [] end.
Lemma repo_dir_components base r : ordinary_repo r -> components (repo_dir base r) = (fst (components base), snd (components base) ++ repo_names r).
Proof.
  destruct r as [[o n]|]; cbn [repo_dir repo_names ordinary_repo]; intros H.
  - destruct H as [Ho Hn]. rewrite (join_ordinary _ n Hn). rewrite (join_ordinary _ o Ho). cbn [fst snd]. rewrite <- app_assoc. reflexivity.
  - rewrite app_nil_r. destruct (components base); reflexivity.
Qed.
Lemma repo_names_ordinary r : ordinary_repo r -> Forall ordinary (repo_names r).
Proof. destruct r as [[o n]|]; cbn; intros H; [destruct H; ordl|constructor]. Qed.

Section Dirs.
Variables (base : string) (r : option (string * string)) (id : step_id).
Hypotheses (Hr : ordinary_repo r) (Hid : ordinary_id id).
Let pre := snd (components base) ++ repo_names r.
Let a := fst (components base).
Lemma step_dir_components : components (md_step_dir (build_metadata base r id)) = (a, pre ++ [sid_0 id; sid_1 id; show_usize (sid_2 id)]).
Proof.
  destruct Hid as [Hw Hj]. cbn [md_step_dir build_metadata]. rewrite (join_ordinary _ _ (show_ordinary _)), (join_ordinary _ _ Hj), (join_ordinary _ _ Hw), (repo_dir_components _ _ Hr).
  cbn [fst snd]. unfold pre, a. rewrite <- !app_assoc. reflexivity.
Qed.
Lemma data_dir_components : components (md_data_dir (build_metadata base r id)) = (a, pre ++ [sid_0 id; sid_1 id; "data"]).
Proof.
  destruct Hid as [Hw Hj]. cbn [md_data_dir build_metadata]. rewrite (join_ordinary _ "data"), (join_ordinary _ _ Hj), (join_ordinary _ _ Hw), (repo_dir_components _ _ Hr) by ord_const.
  cbn [fst snd]. unfold pre, a. rewrite <- !app_assoc. reflexivity.
Qed.
Lemma cache_dir_components : components (md_cache_dir (build_metadata base r id)) = (a, pre ++ ["caches"]).
Proof.
  cbn [md_cache_dir build_metadata]. rewrite (join_ordinary _ "caches"), (repo_dir_components _ _ Hr) by ord_const.
  cbn [fst snd]. unfold pre, a. rewrite <- !app_assoc. reflexivity.
Qed.
Lemma entrypoint_components : components (md_entrypoint (build_metadata base r id)) = (a, pre ++ [sid_0 id; sid_1 id; show_usize (sid_2 id); "entrypoint"]).
Proof.
  assert (E := step_dir_components). cbn [md_step_dir md_entrypoint build_metadata] in *. rewrite (join_ordinary _ "entrypoint") by ord_const. rewrite E.
  cbn [fst snd]. rewrite <- !app_assoc. reflexivity.
Qed.
End Dirs.

Lemma cleanup_components base m w : ordinary_repo (event_repo (lookup w m)) -> ordinary (wid_0 w) ->
  components (cleanup_dir base m w) = (fst (components base), snd (components base) ++ repo_names (event_repo (lookup w m)) ++ [wid_0 w]).
Proof.
  intros Hr Hw. unfold cleanup_dir. rewrite (join_ordinary _ _ Hw), (repo_dir_components _ _ Hr). cbn [fst snd]. rewrite <- app_assoc. reflexivity.
Qed.

(** Same kind of repository: both given or both absent. *)
Definition same_kind (r r' : option (string * string)) : Prop := r = None <-> r' = None.
Lemma repo_names_inj r r' : repo_names r = repo_names r' -> r = r'.
Proof. destruct r as [[? ?]|], r' as [[? ?]|]; cbn; congruence. Qed.
Lemma names_eq r r' x x' : length x = length x' -> repo_names r ++ x = repo_names r' ++ x' -> r = r' /\ x = x'.
Proof.
  intros L E. assert (E' := E). apply (f_equal (@length _)) in E'. rewrite !app_length in E'.
  destruct r as [[? ?]|], r' as [[? ?]|]; cbn in *; try lia; split; congruence.
Qed.
Lemma names_prefix r r' x x' rest : same_kind r r' -> length x <= length x' -> repo_names r' ++ x' = repo_names r ++ x ++ rest -> r = r' /\ x' = x ++ rest.
Proof.
  intros K L E. destruct r as [[? ?]|], r' as [[? ?]|]; cbn in *; try (split; congruence).
  - destruct K as [_ K]. discriminate (K eq_refl).
  - destruct K as [K _]. discriminate (K eq_refl).
Qed.

Lemma within_iff d p cd cp a : components d = (a, cd) -> components p = (a, cp) -> Forall ordinary cp -> (within d p <-> exists rest, cp = cd ++ rest).
Proof.
  intros Ed Ep O. unfold within. rewrite Ed, Ep. cbn [fst snd]. split.
  - intros (rest & [= E] & _). eauto.
  - intros [rest ->]. exists rest. split; [reflexivity|]. apply Forall_app in O. apply O.
Qed.
Lemma within_base d p x rest a : components d = (a, x) -> components p = (a, x ++ rest) -> Forall ordinary rest -> within d p.
Proof. intros Ed Ep O. exists rest. rewrite Ed, Ep. auto. Qed.

(** Events *)
Lemma events_after_snoc runs r : events_after (runs ++ [r]) = note_run (events_after runs) (fst r) (snd r).
Proof. unfold events_after. rewrite fold_left_snoc. reflexivity. Qed.
Lemma events_uniform runs w ev : (forall id e, In (id, e) runs -> step_id_workflow_id id = w -> e = ev) ->
  (exists id e, In (id, e) runs /\ step_id_workflow_id id = w) -> lookup w (events_after runs) = ev.
Proof.
  assert (N : forall runs, (forall id e, In (id, e) runs -> step_id_workflow_id id = w -> e = ev) -> lookup w (events_after runs) = ev \/
     (lookup w (events_after runs) = None /\ ~ exists id e, In (id, e) runs /\ step_id_workflow_id id = w)).
  { clear. induction runs as [|[id e] runs IH] using rev_ind; intros H; [right; split; [reflexivity|intros (? & ? & [] & _)]|].
    rewrite events_after_snoc. cbn [fst snd]. destruct IH as [IH|[IH1 IH2]]; [intros i x Hi; apply H, in_or_app; auto| |].
    - left. unfold note_run. destruct e as [e|]; [|exact IH]. rewrite lookup_insert. destruct (eq_dec w (step_id_workflow_id id)); [|exact IH].
      apply (H id); [apply in_or_app; right; left; reflexivity|congruence].
    - destruct (eq_dec (step_id_workflow_id id) w) as [E|E].
      + left. assert (e = ev) as -> by (apply (H id); [apply in_or_app; right; left; reflexivity|exact E]). unfold note_run. destruct ev as [e|]; [|exact IH1].
        rewrite E. apply lookup_insert_eq.
      + right. split; [unfold note_run; destruct e as [e|]; [rewrite lookup_insert_ne by congruence|]; exact IH1|].
        intros (i & x & Hi & Hx). apply in_app_or in Hi as [Hi|[[= -> ->]|[]]]; [apply IH2; eauto|contradiction]. }
  intros H E. destruct (N runs H) as [G|[_ G]]; [exact G|contradiction].
Qed.
