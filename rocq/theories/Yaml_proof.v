(** Proofs about the shapes of workflow configs. *)
From Verif Require Import Base Types Config_model Serde_model Serde_proof Json_proof Yaml_model Yaml_spec.

Lemma map_all_iff {A B} (f : A -> option B) l r : map_all f l = Some r <-> Forall2 (fun x y => f x = Some y) l r.
Proof.
  revert r. induction l as [|x l IH]; intros r; cbn [map_all].
  - split; [intros [= <-]; constructor|intros H; inv H; reflexivity].
  - split.
    + destruct (f x) as [y|] eqn:E; [|discriminate]. cbn [bind_opt]. destruct (map_all f l) as [ys|]; [|discriminate]. cbn. intros [= <-]. constructor; [exact E|]. apply IH. reflexivity.
    + intros H. inv H. match goal with H1 : f x = Some ?y, H2 : Forall2 _ _ _ |- _ => rewrite H1; apply IH in H2; rewrite H2 end. reflexivity.
Qed.
Lemma all_some_iff {A} (l : list (option A)) r : all_some l = Some r <-> Forall2 (fun x y => x = Some y) l r.
Proof.
  revert r. induction l as [|x l IH]; intros r; cbn [all_some].
  - split; [intros [= <-]; constructor|intros H; inv H; reflexivity].
  - split.
    + destruct x as [y|]; [|discriminate]. cbn [bind_opt]. destruct (all_some l) as [ys|]; [|discriminate]. cbn. intros [= <-]. constructor; [reflexivity|]. apply IH. reflexivity.
    + intros H. inv H. cbn [bind_opt]. match goal with H2 : Forall2 _ _ _ |- _ => apply IH in H2; rewrite H2 end. reflexivity.
Qed.
Lemma Forall2_map_l {A B C} (g : A -> B) (R : B -> C -> Prop) l r : Forall2 R (map g l) r <-> Forall2 (fun x y => R (g x) y) l r.
Proof.
  revert r. induction l as [|x l IH]; intros r; cbn [map]; split; intros H; inv H; try constructor; auto; apply IH; assumption.
Qed.
Lemma Forall2_iff {A B} (R R' : A -> B -> Prop) l r : (forall x y, R x y <-> R' x y) -> Forall2 R l r <-> Forall2 R' l r.
Proof. intros H. split; intros F; induction F; constructor; auto; apply H; assumption. Qed.
Lemma bind_iff {A B} (x : option A) (f : A -> option B) b : bind_opt x f = Some b <-> exists a, x = Some a /\ f a = Some b.
Proof. destruct x; cbn; split; [eauto|intros (a' & [= <-] & H); exact H|discriminate|intros (a & H & _); discriminate]. Qed.
Lemma filter_none {A} (p : A -> bool) l : filter p l = [] <-> forall x, In x l -> p x = false.
Proof.
  induction l as [|y l IH]; cbn [filter]; [split; [intros _ x []|reflexivity]|]. destruct (p y) eqn:E.
  - split; [discriminate|]. intros H. rewrite (H y (or_introl eq_refl)) in E. discriminate.
  - rewrite IH. split; [intros H x [<-|Hx]; auto|]. intros H x Hx. apply H. right. exact Hx.
Qed.
Lemma filter_one {A} (p : A -> bool) l y : filter p l = [y] <-> exists a b, l = a ++ y :: b /\ p y = true /\ forall x, In x (a ++ b) -> p x = false.
Proof.
  split.
  - induction l as [|x l IH]; cbn [filter]; [discriminate|]. destruct (p x) eqn:E.
    + intros [= -> H]. exists [], l. split; [reflexivity|]. split; [exact E|]. apply filter_none. exact H.
    + intros H. destruct (IH H) as (a & b & -> & Hy & F). exists (x :: a), b. split; [reflexivity|]. split; [exact Hy|]. intros z [<-|Hz]; auto.
  - intros (a & b & -> & Hy & F). apply filter_unique; assumption.
Qed.

(** ** Records in buffered values *)
Lemma names_field_iff fields i k : NoDup fields -> names_field fields i k = true <-> stands_for fields i k.
Proof.
  intros N. unfold stands_for. destruct k as [| |z| |s| |]; cbn [names_field]; try (split; [discriminate|intros [H|(s & H & _)]; discriminate]).
  - rewrite Z.eqb_eq. split; [intros ->; auto|intros [[= H]|(s & H & _)]; [exact H|discriminate]].
  - rewrite eqb_true. split.
    + intros H. right. exists s. split; [reflexivity|]. apply index_of_some, H.
    + intros [H|(s' & [= <-] & H)]; [discriminate|]. apply index_of_nth; assumption.
Qed.
Lemma slot_iff fields m i o : NoDup fields -> slot fields m i = Some o <->
  match o with
  | Some x => exists a k b, m = a ++ (k, x) :: b /\ stands_for fields i k /\ (forall k' x', In (k', x') (a ++ b) -> ~ stands_for fields i k')
  | None => forall k x, In (k, x) m -> ~ stands_for fields i k
  end.
Proof.
  intros N. unfold slot. assert (Hf : forall k, names_field fields i k = false <-> ~ stands_for fields i k).
  { intros k. rewrite <- names_field_iff by exact N. destruct (names_field fields i k); split; congruence. }
  destruct o as [x|].
  - split.
    + destruct (filter _ m) as [|[k v] [|e r]] eqn:E; try discriminate. intros [= ->]. apply filter_one in E as (a & b & Em & Ek & F). exists a, k, b. split; [exact Em|]. cbn in Ek. split; [apply names_field_iff; assumption|].
      intros k' x' H. apply Hf. apply (F (k', x') H).
    + intros (a & k & b & Em & Ek & F). assert (E : filter (fun e => names_field fields i (fst e)) m = [(k, x)]).
      { apply filter_one. exists a, b. split; [exact Em|]. split; [apply names_field_iff; assumption|]. intros [k' x'] H. apply Hf, (F k' x'), H. }
      rewrite E. reflexivity.
  - split.
    + destruct (filter _ m) as [|[k v] [|e r]] eqn:E; try discriminate. intros _ k x H. apply Hf. rewrite filter_none in E. apply (E (k, x) H).
    + intros F. assert (E : filter (fun e => names_field fields i (fst e)) m = []).
      { apply filter_none. intros [k x] H. apply Hf, (F k x), H. }
      rewrite E. reflexivity.
Qed.
Lemma Forall2_seq {B} (R : nat -> B -> Prop) n : forall k l, Forall2 R (seq k n) l <-> length l = n /\ forall i y, nth_error l i = Some y -> R (k + i) y.
Proof.
  induction n as [|n IH]; intros k l; cbn [seq].
  - split; [intros H; inv H; split; [reflexivity|intros [|i] y H; discriminate]|]. intros [H _]. destruct l; [constructor|discriminate].
  - split.
    + intros H. inv H. match goal with H : Forall2 _ _ _ |- _ => apply IH in H as [Hl H] end. split; [cbn; lia|]. intros [|i] z Hz; cbn in Hz; [injection Hz as <-; rewrite Nat.add_0_r; assumption|].
      replace (k + S i) with (S k + i) by lia. auto.
    + intros [Hl H]. destruct l as [|y l]; [discriminate|]. constructor; [rewrite <- (Nat.add_0_r k); apply H; reflexivity|]. apply IH. split; [cbn in Hl; lia|]. intros i z Hz. replace (S k + i) with (k + S i) by lia. apply H. exact Hz.
Qed.
Lemma is_identifier_iff k : is_identifier k = true <-> (exists s, k = VStr s) \/ (exists z, k = VInt z /\ (0 <= z)%Z).
Proof.
  destruct k as [| |z| |s| |]; cbn [is_identifier]; try (split; [discriminate|intros [(x & H)|(x & H & _)]; discriminate]).
  - rewrite Z.leb_le. split; [eauto|intros [(x & H)|(x & [= <-] & H)]; [discriminate|exact H]].
  - split; [eauto|reflexivity].
Qed.
Lemma slots_iff fields v vs : NoDup fields -> slots fields v = Some vs <-> gives fields v vs.
Proof.
  intros N. destruct v as [| | | | |l|m]; cbn [slots]; try (split; [discriminate|intros H; inv H]).
  - destruct (Nat.eqb (length l) (length fields)) eqn:E.
    + apply Nat.eqb_eq in E. split; [intros [= <-]; constructor; exact E|intros H; inv H; reflexivity].
    + apply Nat.eqb_neq in E. split; [discriminate|intros H; inv H; contradiction].
  - destruct (forallb _ m) eqn:E.
    + rewrite map_all_iff, Forall2_seq. cbn [Nat.add]. rewrite forallb_forall in E. split.
      * intros [Hl H]. constructor.
        -- intros k x Hk. apply is_identifier_iff. apply (E (k, x) Hk).
        -- exact Hl.
        -- intros i x Hi. apply H in Hi. apply slot_iff in Hi; assumption.
        -- intros i Hi. apply H in Hi. apply slot_iff in Hi; assumption.
      * intros H. inv H. split; [assumption|]. intros i y Hi. apply slot_iff; [exact N|]. destruct y as [x|]; [eauto|]. eauto.
    + split; [discriminate|]. intros H. inv H. assert (X : forallb (fun e => is_identifier (fst e)) m = true); [|congruence].
      apply forallb_forall. intros [k x] Hk. apply is_identifier_iff. eauto.
Qed.
Lemma opt_iff {A} (d : value -> option A) R o x : (forall v a, d v = Some a <-> R v a) -> opt d o = Some x <-> optional R o x.
Proof.
  intros H. unfold opt, optional, read_option. destruct o as [v|].
  - destruct v; try (rewrite bind_iff; split;
      [intros (a & Ha & [= <-]); right; do 2 eexists; split; [reflexivity|split; [discriminate|split; [reflexivity|apply H, Ha]]]
      |intros [[_ [E|E]]|(v & a & [= <-] & _ & -> & Ha)]; [discriminate|discriminate|exists a; split; [apply H, Ha|reflexivity]]]).
    split; [intros [= <-]; auto|]. intros [[-> _]|(v & a & [= <-] & X & _)]; [reflexivity|contradiction].
  - split; [intros [= <-]; auto|]. intros [[-> _]|(v & a & X & _)]; [reflexivity|discriminate].
Qed.
Lemma req_iff {A} (d : value -> option A) R o x : (forall v a, d v = Some a <-> R v a) -> req d o = Some x <-> required R o x.
Proof.
  intros H. unfold req, required. destruct o as [v|]; [rewrite H; split; [eauto|intros (w & [= <-] & Hx); exact Hx]|split; [discriminate|intros (w & E & _); discriminate]].
Qed.
Lemma read_string_iff v s : read_string v = Some s <-> is_string v s.
Proof. unfold is_string. destruct v; cbn; split; congruence. Qed.
Lemma read_bool_iff v s : read_bool v = Some s <-> is_bool v s.
Proof. unfold is_bool. destruct v; cbn; split; congruence. Qed.
Lemma read_seq_iff {A} (d : value -> option A) R v l : (forall v a, d v = Some a <-> R v a) -> read_seq d v = Some l <-> list_of R v l.
Proof.
  intros H. unfold list_of. destruct v as [| | | | |vs|m]; cbn [read_seq]; try (split; [discriminate|intros (vs & E & _); discriminate]).
  rewrite map_all_iff, (Forall2_iff _ R) by (intros; apply H). split; [eauto|intros (w & [= <-] & X); exact X].
Qed.
Lemma read_strings_iff v l : read_seq read_string v = Some l <-> list_of is_string v l.
Proof. apply read_seq_iff, read_string_iff. Qed.
Lemma read_map_iff {A} (d : value -> option A) R v h : (forall v a, d v = Some a <-> R v a) -> read_map d v = Some h <-> map_shape R v h.
Proof.
  intros H. unfold map_shape. destruct v as [| | | | |vs|m]; cbn [read_map]; try (split; [discriminate|intros (? & ? & E & _); discriminate]).
  rewrite bind_iff. assert (X : forall es, map_all (read_entry d) m = Some es <-> Forall2 (fun e x => fst e = VStr (fst x) /\ R (snd e) (snd x)) m es).
  { intros es. rewrite map_all_iff. apply Forall2_iff. intros [k w] [s a]. unfold read_entry. cbn [fst snd]. rewrite bind_iff. split.
    - intros (s' & Hs & E). apply bind_iff in E as (a' & Ha & [= -> ->]). split; [apply (proj1 (read_string_iff _ _)), Hs|apply H, Ha].
    - intros [-> Ha]. exists s. split; [reflexivity|]. rewrite (proj2 (H w a) Ha). reflexivity. }
  split.
  - intros (es & He & [= <-]). exists m, es. rewrite <- X. auto.
  - intros (m' & es & [= <-] & He & ->). exists es. rewrite X. auto.
Qed.
Lemma or_else_iff {A} (x y : option A) a : or_else x y = Some a <-> x = Some a \/ (x = None /\ y = Some a).
Proof. destruct x as [b|]; cbn; split; [auto|intros [H|[H _]]; [exact H|discriminate]|auto|intros [H|[_ H]]; [discriminate|exact H]]. Qed.
Lemma read_env_iff v e : read_env v = Some e <-> env_shape v e.
Proof.
  unfold read_env. destruct v as [|b|z|f|s|l|m]; cbn [read_string read_f64 read_bool bind_opt or_else]; destruct e as [s'|f'|b']; cbn [env_shape].
  all: split; intros H; try discriminate; try (destruct H as [H|(z' & H & H2)]); try discriminate; try congruence; try (injection H as <-; eauto).
Qed.
Lemma read_environments_iff v h : read_environments v = Some h <-> map_shape env_shape v h.
Proof. apply read_map_iff, read_env_iff. Qed.

(** Inverting the reading of a record. *)
Ltac nodup := repeat constructor; cbn; intuition discriminate.
Ltac shapes :=
  repeat match goal with
  | H : bind_opt _ _ = Some _ |- _ => apply bind_iff in H as (? & ? & H)
  end.
Lemma slots_length fields v vs : slots fields v = Some vs -> length vs = length fields.
Proof.
  destruct v as [| | | | |l|m]; cbn [slots]; try discriminate.
  - destruct (Nat.eqb _ _) eqn:E; [|discriminate]. intros [= <-]. rewrite map_length. apply Nat.eqb_eq, E.
  - destruct (forallb _ _); [|discriminate]. intros H. apply map_all_iff, Forall2_seq in H. apply H.
Qed.
Lemma read_options_iff v o : read_container_options v = Some o <-> options_shape v o.
Proof.
  unfold read_container_options, options_shape. split.
  - destruct (slots _ v) as [[|a [|b [|c [|]]]]|] eqn:E; try discriminate. intros H. shapes. injection H as <-. exists a, b, c. rewrite <- slots_iff by nodup. split; [exact E|]. cbn [co_name co_volumes co_security_opts].
    rewrite <- !(opt_iff _ _ _ _ read_strings_iff), <- (req_iff _ _ _ _ read_string_iff). auto.
  - intros (a & b & c & G & H1 & H2 & H3). apply slots_iff in G; [|nodup]. rewrite G. apply (req_iff _ _ _ _ read_string_iff) in H1. apply (opt_iff _ _ _ _ read_strings_iff) in H2, H3. rewrite H1, H2, H3. destruct o; reflexivity.
Qed.
Lemma read_branches_iff v b p : read_branches_paths v = Some (b, p) <-> branches_shape v b p.
Proof.
  unfold read_branches_paths, branches_shape. split.
  - destruct (slots _ v) as [[|x [|y [|]]]|] eqn:E; try discriminate. intros H. shapes. injection H as <- <-. exists x, y. rewrite <- slots_iff by nodup. split; [exact E|].
    rewrite <- !(opt_iff _ _ _ _ read_strings_iff). auto.
  - intros (x & y & G & H1 & H2). apply slots_iff in G; [|nodup]. rewrite G. apply (opt_iff _ _ _ _ read_strings_iff) in H1, H2. rewrite H1, H2. reflexivity.
Qed.
Lemma read_push_iff v c : read_push v = Some c <-> branches_shape v (pc_branches c) (pc_paths c).
Proof.
  rewrite <- read_branches_iff. unfold read_push. rewrite bind_iff. split; [intros ([b p] & H & [= <-]); exact H|]. intros H. eexists. split; [exact H|]. destruct c; reflexivity.
Qed.
Lemma read_pull_request_iff v c : read_pull_request v = Some c <-> branches_shape v (prc_branches c) (prc_paths c).
Proof.
  rewrite <- read_branches_iff. unfold read_pull_request. rewrite bind_iff. split; [intros ([b p] & H & [= <-]); exact H|]. intros H. eexists. split; [exact H|]. destruct c; reflexivity.
Qed.
Lemma read_config_iff v c : read_condition_config v = Some c <-> config_shape v c.
Proof.
  unfold read_condition_config, config_shape. split.
  - destruct (slots _ v) as [[|x [|y [|]]]|] eqn:E; try discriminate. intros H. shapes. injection H as <-. exists x, y. rewrite <- slots_iff by nodup. split; [exact E|]. cbn [cc_push cc_pull_request].
    rewrite <- (opt_iff _ _ _ _ read_push_iff), <- (opt_iff _ _ _ _ read_pull_request_iff). auto.
  - intros (x & y & G & H1 & H2). apply slots_iff in G; [|nodup]. rewrite G. apply (opt_iff _ _ _ _ read_push_iff) in H1. apply (opt_iff _ _ _ _ read_pull_request_iff) in H2. rewrite H1, H2. destruct c; reflexivity.
Qed.
Lemma none_iff {A} (d : value -> option A) R v : (forall v a, d v = Some a <-> R v a) -> d v = None <-> forall a, ~ R v a.
Proof. intros H. destruct (d v) as [a|] eqn:E; split; try discriminate; [intros X; destruct (X a); apply H, E| |reflexivity]. intros _ a Ha. apply H in Ha. congruence. Qed.
Lemma read_condition_iff v c : read_condition v = Some c <-> condition_shape v c.
Proof.
  unfold read_condition. rewrite or_else_iff. assert (N : (let! l := read_seq read_string v in Some (CEvent l)) = None <-> forall l, ~ list_of is_string v l).
  { rewrite <- (none_iff _ _ v read_strings_iff). destruct (read_seq read_string v); cbn; split; congruence. }
  rewrite N, !bind_iff. destruct c as [l|c]; cbn [condition_shape].
  - rewrite <- read_strings_iff. split; [intros [(x & H & [= <-])|(_ & x & _ & [=])]; exact H|eauto].
  - rewrite <- read_config_iff. split; [intros [(x & _ & [=])|(Hn & x & H & [= <-])]; auto|]. intros [H1 H2]. right. eauto.
Qed.
Lemma options_not_string s o : ~ options_shape (VStr s) o.
Proof. intros (a & b & c & G & _). inv G. Qed.
Lemma read_container_iff v c : read_container v = Some c <-> container_shape v c.
Proof.
  unfold read_container. rewrite or_else_iff. assert (N : (let! l := read_container_options v in Some (COptions l)) = None <-> forall l, ~ options_shape v l).
  { rewrite <- (none_iff _ _ v read_options_iff). destruct (read_container_options v); cbn; split; congruence. }
  rewrite N, !bind_iff. destruct c as [o|s]; cbn [container_shape].
  - rewrite <- read_options_iff. split; [intros [(x & H & [= <-])|(_ & x & _ & [=])]; exact H|eauto].
  - split; [intros [(x & _ & [=])|(_ & x & H & [= <-])]; apply (proj1 (read_string_iff _ _)) in H; exact H|]. intros ->. right. split; [apply options_not_string|]. eexists; split; reflexivity.
Qed.
Lemma read_command_iff v c : read_user_command v = Some c <-> command_shape v c.
Proof.
  unfold read_user_command, command_shape. split.
  - destruct (slots _ v) as [vs|] eqn:E; [|discriminate]. pose proof (slots_length _ _ _ E) as L. destruct vs as [|a [|b [|d [|e [|f [|g [|h [|i [|]]]]]]]]]; try discriminate. clear L.
    intros H. shapes. injection H as <-. exists a, b, d, e, f, g, h, i. rewrite <- slots_iff by nodup. split; [exact E|]. cbn [uc_name uc_container uc_run uc_on uc_continue_on_error uc_environments uc_secrets uc_timeout].
    rewrite <- !(opt_iff _ _ _ _ read_string_iff), <- (req_iff _ _ _ _ read_string_iff), <- (opt_iff _ _ _ _ read_container_iff), <- (opt_iff _ _ _ _ read_condition_iff), <- (opt_iff _ _ _ _ read_bool_iff),
      <- (opt_iff _ _ _ _ read_environments_iff), <- (opt_iff _ _ _ _ read_strings_iff). auto 10.
  - intros (a & b & d & e & f & g & h & i & G & H1 & H2 & H3 & H4 & H5 & H6 & H7 & H8). apply slots_iff in G; [|nodup]. unfold command_fields. rewrite G.
    apply (opt_iff _ _ _ _ read_string_iff) in H1, H8. apply (opt_iff _ _ _ _ read_container_iff) in H2. apply (req_iff _ _ _ _ read_string_iff) in H3. apply (opt_iff _ _ _ _ read_condition_iff) in H4.
    apply (opt_iff _ _ _ _ read_bool_iff) in H5. apply (opt_iff _ _ _ _ read_environments_iff) in H6. apply (opt_iff _ _ _ _ read_strings_iff) in H7.
    rewrite H1, H2, H3, H4, H5, H6, H7, H8. destruct c; reflexivity.
Qed.

Section Free.
Variable same_yaml : yaml -> yaml -> bool.
Lemma no_duplicates_iff (es : list (yaml * yaml)) : no_duplicates same_yaml (map fst es) = true <-> forall a x b y c, es = a ++ x :: b ++ y :: c -> same_yaml (fst x) (fst y) = false.
Proof.
  induction es as [|e es IH]; cbn [map no_duplicates].
  - split; [intros _ a x b y c H; destruct a; discriminate|reflexivity].
  - rewrite Bool.andb_true_iff, Bool.negb_true_iff, IH. split.
    + intros [H1 H2] [|a0 a] x b y c E; cbn in E; injection E as -> E.
      * destruct (same_yaml (fst x) (fst y)) eqn:Es; [|reflexivity]. assert (X : existsb (same_yaml (fst x)) (map fst es) = true); [|congruence].
        apply existsb_exists. exists (fst y). split; [|exact Es]. apply in_map. rewrite E. apply in_or_app. right. left. reflexivity.
      * eapply H2. exact E.
    + intros H. split.
      * destruct (existsb _ _) eqn:X; [|reflexivity]. apply existsb_exists in X as (k & Hk & X). apply in_map_iff in Hk as (y & <- & Hy). apply in_split in Hy as (b & c & ->). rewrite (H [] e b y c eq_refl) in X. discriminate.
      * intros a x b y c ->. apply (H (e :: a) x b y c). reflexivity.
Qed.
Lemma to_yaml_iff : forall v y, to_yaml same_yaml v = Some y <-> free_shape same_yaml v y.
Proof.
  apply (value_ind' (fun v => forall y, to_yaml same_yaml v = Some y <-> free_shape same_yaml v y)).
  - intros y. cbn. split; [intros [= <-]; constructor|intros H; inv H; reflexivity].
  - intros b y. cbn. split; [intros [= <-]; constructor|intros H; inv H; reflexivity].
  - intros b y. cbn. split; [intros [= <-]; constructor|intros H; inv H; reflexivity].
  - intros b y. cbn. split; [intros [= <-]; constructor|intros H; inv H; reflexivity].
  - intros b y. cbn. split; [intros [= <-]; constructor|intros H; inv H; reflexivity].
  - intros l IH y. cbn [to_yaml]. rewrite bind_iff. assert (X : forall ys, all_some (map (to_yaml same_yaml) l) = Some ys <-> Forall2 (free_shape same_yaml) l ys).
    { intros ys. rewrite all_some_iff, Forall2_map_l. clear y. revert ys. induction IH as [|v l Hv Hl IHl]; intros ys; split; intros H; inv H; constructor; try (apply Hv; assumption); apply IHl; assumption. }
    split; [intros (ys & H & [= <-]); constructor; apply X, H|]. intros H. inv H. eexists. rewrite X. split; [eassumption|reflexivity].
  - intros m IH y. cbn [to_yaml]. rewrite bind_iff.
    assert (X : forall es, all_some (map (fun e => let! k := to_yaml same_yaml (fst e) in let! v := to_yaml same_yaml (snd e) in Some (k, v)) m) = Some es <->
                Forall2 (fun e y => free_shape same_yaml (fst e) (fst y) /\ free_shape same_yaml (snd e) (snd y)) m es).
    { intros es. rewrite all_some_iff, Forall2_map_l. clear y. revert es. induction IH as [|e m [Hk Hv] Hm IHm]; intros es; split; intros H; inv H; constructor; try (apply IHm; assumption).
      - match goal with H : bind_opt _ _ = Some _ |- _ => rename H into E end. apply bind_iff in E as (k & Ek & E). apply bind_iff in E as (w & Ew & E). injection E as <-. split; [apply Hk, Ek|apply Hv, Ew].
      - match goal with H : _ /\ _ |- _ => destruct H as [H1 H2] end. apply Hk in H1. apply Hv in H2. rewrite H1, H2. cbn [bind_opt]. match goal with |- Some (fst ?p, snd ?p) = _ => destruct p; reflexivity end. }
    split.
    + intros (es & He & H). destruct (no_duplicates _ _) eqn:N; [|discriminate]. injection H as <-. constructor; [apply X, He|apply no_duplicates_iff, N].
    + intros H. inv H. eexists. rewrite X. split; [eassumption|]. match goal with H : forall a x b y c, _ |- _ => apply no_duplicates_iff in H; rewrite H end. reflexivity.
Qed.
Lemma read_action_iff v c : read_user_action same_yaml v = Some c <-> action_shape same_yaml v c.
Proof.
  unfold read_user_action, action_shape. split.
  - destruct (slots _ v) as [vs|] eqn:E; [|discriminate]. pose proof (slots_length _ _ _ E) as L. destruct vs as [|a [|b [|d [|e [|f [|g [|h [|i [|]]]]]]]]]; try discriminate. clear L.
    intros H. shapes. injection H as <-. exists a, b, d, e, f, g, h, i. rewrite <- slots_iff by nodup. split; [exact E|]. cbn [ua_name ua_uses ua_with ua_on ua_continue_on_error ua_environments ua_secrets ua_timeout].
    rewrite <- !(opt_iff _ _ _ _ read_string_iff), <- (req_iff _ _ _ _ read_string_iff), <- (opt_iff _ _ _ _ to_yaml_iff), <- (opt_iff _ _ _ _ read_condition_iff), <- (opt_iff _ _ _ _ read_bool_iff),
      <- (opt_iff _ _ _ _ read_environments_iff), <- (opt_iff _ _ _ _ read_strings_iff). auto 10.
  - intros (a & b & d & e & f & g & h & i & G & H1 & H2 & H3 & H4 & H5 & H6 & H7 & H8). apply slots_iff in G; [|nodup]. unfold action_fields. rewrite G.
    apply (opt_iff _ _ _ _ read_string_iff) in H1, H8. apply (opt_iff _ _ _ _ to_yaml_iff) in H3. apply (req_iff _ _ _ _ read_string_iff) in H2. apply (opt_iff _ _ _ _ read_condition_iff) in H4.
    apply (opt_iff _ _ _ _ read_bool_iff) in H5. apply (opt_iff _ _ _ _ read_environments_iff) in H6. apply (opt_iff _ _ _ _ read_strings_iff) in H7.
    rewrite H1, H2, H3, H4, H5, H6, H7, H8. destruct c; reflexivity.
Qed.
Lemma read_step_iff v s : read_user_step same_yaml v = Some s <-> step_shape same_yaml v s.
Proof.
  unfold read_user_step. rewrite or_else_iff. assert (N : (let! l := read_user_command v in Some (UCommand l)) = None <-> forall l, ~ command_shape v l).
  { rewrite <- (none_iff _ _ v read_command_iff). destruct (read_user_command v); cbn; split; congruence. }
  rewrite N, !bind_iff. destruct s as [c|a]; cbn [step_shape].
  - rewrite <- read_command_iff. split; [intros [(x & H & [= <-])|(_ & x & _ & [=])]; exact H|eauto].
  - rewrite <- read_action_iff. split; [intros [(x & _ & [=])|(Hn & x & H & [= <-])]; auto|]. intros [H1 H2]. right. eauto.
Qed.

(** ** Trees *)
Variable number : string -> number_text.
Section NodeInd.
Variable P : node -> Prop.
Hypothesis Hscalar : forall p s, P (NScalar p s).
Hypothesis Hseq : forall l, Forall P l -> P (NSeq l).
Hypothesis Hmap : forall m, Forall (fun e => P (fst e) /\ P (snd e)) m -> P (NMap m).
Fixpoint node_ind' (n : node) : P n :=
  match n with
  | NScalar p s => Hscalar p s
  | NSeq l => Hseq l ((fix go l := match l return Forall P l with [] => Forall_nil _ | x :: r => Forall_cons _ (node_ind' x) (go r) end) l)
  | NMap m => Hmap m ((fix go m := match m return Forall (fun e => P (fst e) /\ P (snd e)) m with [] => Forall_nil _ | x :: r => Forall_cons _ (conj (node_ind' (fst x)) (node_ind' (snd x))) (go r) end) m)
  end.
End NodeInd.
Lemma memb_In (s : string) l : memb s l = true <-> In s l.
Proof. apply memb_true. Qed.
Lemma memb_not_In (s : string) l : memb s l = false <-> ~ In s l.
Proof. rewrite <- memb_In. destruct (memb s l); split; congruence. Qed.
Lemma is_null_text_iff s : is_null_text s = true <-> null_text s.
Proof. unfold is_null_text, null_text. rewrite memb_In. cbn. intuition congruence. Qed.
Lemma is_null_text_false s : is_null_text s = false <-> ~ null_text s.
Proof. rewrite <- is_null_text_iff. destruct (is_null_text s); split; congruence. Qed.
Lemma resolve_iff s v : resolve number s = Some v <-> resolves_to number s v.
Proof.
  unfold resolve. destruct (is_null_text s) eqn:E0.
  - apply is_null_text_iff in E0. split; [intros [= <-]; constructor; exact E0|]. intros H. inv H; try reflexivity; try contradiction; exfalso; revert E0; apply is_null_text_false;
      match goal with H : In _ _ |- _ => cbn in H; destruct H as [<-|[<-|[<-|[]]]]; reflexivity end.
  - apply is_null_text_false in E0. destruct (memb s ["true"; "True"; "TRUE"]) eqn:E1.
    + apply memb_In in E1. split; [intros [= <-]; constructor; exact E1|]. intros H. inv H; try reflexivity; try contradiction; exfalso.
      * match goal with H : In _ _ |- _ => clear E0; cbn in H, E1; destruct H as [<-|[<-|[<-|[]]]]; intuition discriminate end.
      * match goal with H : ~ In _ _ |- _ => apply H end. cbn in *. tauto.
      * match goal with H : ~ In _ _ |- _ => apply H end. cbn in *. tauto.
      * match goal with H : ~ In _ _ |- _ => apply H end. cbn in *. tauto.
    + apply memb_not_In in E1. destruct (memb s ["false"; "False"; "FALSE"]) eqn:E2.
      * apply memb_In in E2. split; [intros [= <-]; constructor; exact E2|]. intros H. inv H; try reflexivity; try contradiction; exfalso;
          (match goal with H : ~ In s (_ :: _ :: _ :: _ :: _) |- _ => apply H end); cbn in *; tauto.
      * apply memb_not_In in E2. assert (N : ~ In s ["true"; "True"; "TRUE"; "false"; "False"; "FALSE"]) by (cbn in *; tauto).
        split.
        -- destruct (number s) as [|z|f] eqn:En.
           ++ intros [= <-]. apply res_str; assumption.
           ++ destruct ((- 2 ^ 63 <=? z)%Z && (z <? 2 ^ 64)%Z) eqn:Ez; [|discriminate]. intros [= <-]. apply andb_prop in Ez as [Z1 Z2]. apply Z.leb_le in Z1. apply Z.ltb_lt in Z2. eapply res_int; eauto.
           ++ intros [= <-]. apply res_float; assumption.
        -- intros H. inv H; try contradiction.
           ++ match goal with H : number s = _ |- _ => rewrite H end. replace (- 2 ^ 63 <=? z)%Z with true by (symmetry; apply Z.leb_le; lia). replace (z <? 2 ^ 64)%Z with true by (symmetry; apply Z.ltb_lt; lia). reflexivity.
           ++ match goal with H : number s = _ |- _ => rewrite H end. reflexivity.
           ++ match goal with H : number s = _ |- _ => rewrite H end. reflexivity.
Qed.
Lemma content_iff : forall n v, content number n = Some v <-> value_of number n v.
Proof.
  apply (node_ind' (fun n => forall v, content number n = Some v <-> value_of number n v)).
  - intros [] s v; cbn [content].
    + rewrite resolve_iff. split; [constructor; assumption|intros H; inv H; assumption].
    + split; [intros [= <-]; constructor|intros H; inv H; reflexivity].
  - intros l IH y. cbn [content]. rewrite bind_iff. assert (X : forall ys, all_some (map (content number) l) = Some ys <-> Forall2 (value_of number) l ys).
    { intros ys. rewrite all_some_iff, Forall2_map_l. clear y. revert ys. induction IH as [|v l Hv Hl IHl]; intros ys; split; intros H; inv H; constructor; try (apply Hv; assumption); apply IHl; assumption. }
    split; [intros (ys & H & [= <-]); constructor; apply X, H|]. intros H. inv H. eexists. rewrite X. split; [eassumption|reflexivity].
  - intros m IH y. cbn [content]. rewrite bind_iff.
    assert (X : forall es, all_some (map (fun e => let! k := content number (fst e) in let! v := content number (snd e) in Some (k, v)) m) = Some es <->
                Forall2 (fun e y => value_of number (fst e) (fst y) /\ value_of number (snd e) (snd y)) m es).
    { intros es. rewrite all_some_iff, Forall2_map_l. clear y. revert es. induction IH as [|e m [Hk Hv] Hm IHm]; intros es; split; intros H; inv H; constructor; try (apply IHm; assumption).
      - match goal with H : bind_opt _ _ = Some _ |- _ => rename H into E end. apply bind_iff in E as (k & Ek & E). apply bind_iff in E as (w & Ew & E). injection E as <-. split; [apply Hk, Ek|apply Hv, Ew].
      - match goal with H : _ /\ _ |- _ => destruct H as [H1 H2] end. apply Hk in H1. apply Hv in H2. rewrite H1, H2. cbn [bind_opt]. match goal with |- Some (fst ?p, snd ?p) = _ => destruct p; reflexivity end. }
    split; [intros (es & He & [= <-]); constructor; apply X, He|]. intros H. inv H. eexists. rewrite X. split; [eassumption|reflexivity].
Qed.
Lemma buffered_iff {A} (d : value -> option A) R n a : (forall v a, d v = Some a <-> R v a) -> buffered number d n = Some a <-> with_value number R n a.
Proof.
  intros H. unfold buffered, with_value. rewrite bind_iff. split; intros (v & H1 & H2); exists v; (split; [apply content_iff, H1|apply H, H2]).
Qed.
Lemma node_string_iff n s : node_string n = Some s <-> node_is_string n s.
Proof. unfold node_is_string. destruct n; cbn; (split; [intros [= <-]; eauto|intros (p & E); congruence]) || (split; [discriminate|intros (p & E); discriminate]). Qed.
Lemma node_slot_iff m f o : node_slot m f = Some o <->
  match o with
  | Some x => exists a p b, m = a ++ (NScalar p f, x) :: b /\ (forall p' x', ~ In (NScalar p' f, x') (a ++ b))
  | None => forall p x, ~ In (NScalar p f, x) m
  end.
Proof.
  unfold node_slot. assert (Ht : forall k, eqb (node_string k) (Some f) = true <-> exists p, k = NScalar p f).
  { intros k. rewrite eqb_true. apply node_string_iff. }
  assert (Hf : forall k, eqb (node_string k) (Some f) = false <-> forall p, k <> NScalar p f).
  { intros k. split; intros H.
    - intros p ->. assert (eqb (node_string (NScalar p f)) (Some f) = true) by (apply Ht; eauto). congruence.
    - destruct (eqb (node_string k) (Some f)) eqn:E; [|reflexivity]. apply Ht in E as (p & E). destruct (H p E). }
  destruct o as [x|].
  - split.
    + destruct (filter _ m) as [|[k v] [|e r]] eqn:E; try discriminate. intros [= ->]. apply filter_one in E as (a & b & Em & Ek & F). cbn [fst] in Ek. apply Ht in Ek as (p & ->). exists a, p, b. split; [exact Em|].
      intros p' x' H. apply F in H. cbn [fst] in H. rewrite Hf in H. apply (H p'). reflexivity.
    + intros (a & p & b & Em & F). assert (E : filter (fun e => eqb (node_string (fst e)) (Some f)) m = [(NScalar p f, x)]).
      { apply filter_one. exists a, b. split; [exact Em|]. split; [apply (proj2 (Ht _)); exists p; reflexivity|]. intros [k' x'] H. apply (proj2 (Hf _)). cbn [fst]. intros p' ->. apply (F p' x' H). }
      rewrite E. reflexivity.
  - split.
    + destruct (filter _ m) as [|[k v] [|e r]] eqn:E; try discriminate. intros _ p x H. rewrite filter_none in E. apply E in H. cbn [fst] in H. rewrite Hf in H. apply (H p). reflexivity.
    + intros F. assert (E : filter (fun e => eqb (node_string (fst e)) (Some f)) m = []).
      { apply filter_none. intros [k x] H. apply Hf. cbn [fst]. intros p ->. apply (F p x H). }
      rewrite E. reflexivity.
Qed.
Lemma node_slots_iff fields n vs : node_slots fields n = Some vs <-> node_gives fields n vs.
Proof.
  destruct n as [p s|l|m]; cbn [node_slots].
  - destruct p; [|split; [discriminate|intros H; inv H]]. destruct s; [|split; [discriminate|intros H; inv H]]. split; [intros [= <-]; constructor|intros H; inv H; reflexivity].
  - destruct (Nat.eqb (length l) (length fields)) eqn:E.
    + apply Nat.eqb_eq in E. split; [intros [= <-]; constructor; exact E|intros H; inv H; reflexivity].
    + apply Nat.eqb_neq in E. split; [discriminate|intros H; inv H; contradiction].
  - assert (S : forallb (fun e => is_scalar (fst e)) m = true <-> forall k x, In (k, x) m -> exists p s, k = NScalar p s).
    { rewrite forallb_forall. split.
      - intros H k x Hk. specialize (H _ Hk). cbn in H. destruct k; try discriminate. eauto.
      - intros H [k x] Hk. destruct (H k x Hk) as (p & s & ->). reflexivity. }
    destruct (forallb _ m).
    + rewrite map_all_iff, (Forall2_iff _ _ _ _ (node_slot_iff m)). split; [intros H; constructor; [apply S; reflexivity|exact H]|intros H; inv H; assumption].
    + split; [discriminate|]. intros H. inv H. match goal with H : forall k x, In _ m -> _ |- _ => apply S in H; discriminate end.
Qed.
Lemma node_req_iff {A} (d : node -> option A) R o x : (forall v a, d v = Some a <-> R v a) -> node_req d o = Some x <-> node_required R o x.
Proof.
  intros H. unfold node_req, node_required. destruct o as [v|]; [rewrite H; split; [eauto|intros (w & [= <-] & Hx); exact Hx]|split; [discriminate|intros (w & E & _); discriminate]].
Qed.
Lemma node_option_iff {A} (d : node -> option A) n x : node_option d n = Some x <-> (x = None /\ node_null n) \/ exists a, ~ node_null n /\ x = Some a /\ d n = Some a.
Proof.
  assert (G : ~ node_null n -> node_option d n = (let! a := d n in Some (Some a))).
  { intros H. destruct n as [[] s| |]; try reflexivity. cbn [node_option]. destruct (is_null_text s) eqn:E; [|reflexivity]. apply is_null_text_iff in E. destruct H. exists s. auto. }
  destruct n as [[] s| |].
  - cbn [node_option]. destruct (is_null_text s) eqn:E.
    + apply is_null_text_iff in E. assert (N : node_null (NScalar true s)) by (exists s; auto). split; [intros [= <-]; auto|]. intros [[-> _]|(a & H & _)]; [reflexivity|contradiction].
    + apply is_null_text_false in E. assert (N : ~ node_null (NScalar true s)) by (intros (s' & [= <-] & H); contradiction). rewrite bind_iff. split; [intros (a & Ha & [= <-]); right; eauto|].
      intros [[_ H]|(a & _ & -> & H)]; [contradiction|eauto].
  - assert (N : ~ node_null (NScalar false s)) by (intros (s' & E & H); discriminate). rewrite (G N), bind_iff. split; [intros (a & Ha & [= <-]); right; eauto|]. intros [[_ H]|(a & _ & -> & H)]; [contradiction|eauto].
  - assert (N : ~ node_null (NSeq l)) by (intros (s' & E & H); discriminate). rewrite (G N), bind_iff. split; [intros (a & Ha & [= <-]); right; eauto|]. intros [[_ H]|(a & _ & -> & H)]; [contradiction|eauto].
  - assert (N : ~ node_null (NMap m)) by (intros (s' & E & H); discriminate). rewrite (G N), bind_iff. split; [intros (a & Ha & [= <-]); right; eauto|]. intros [[_ H]|(a & _ & -> & H)]; [contradiction|eauto].
Qed.
Lemma node_opt_iff {A} (d : node -> option A) R o x : (forall v a, d v = Some a <-> R v a) -> node_opt d o = Some x <-> node_optional R o x.
Proof.
  intros H. unfold node_opt, node_optional. destruct o as [n|].
  - rewrite node_option_iff. split.
    + intros [[-> N]|(a & N & -> & Ha)]; [left; split; [reflexivity|right; eauto]|right; exists n, a; split; [reflexivity|]; split; [exact N|]; split; [reflexivity|apply H, Ha]].
    + intros [[-> [E|(n' & [= <-] & N)]]|(n' & a & [= <-] & N & -> & Ha)]; [discriminate|auto|right; exists a; split; [exact N|]; split; [reflexivity|apply H, Ha]].
  - split; [intros [= <-]; auto|]. intros [[-> _]|(v & a & X & _)]; [reflexivity|discriminate].
Qed.
Lemma node_seq_iff {A} (d : node -> option A) R n l : (forall v a, d v = Some a <-> R v a) -> node_seq d n = Some l <-> node_list_of R n l.
Proof.
  intros H. unfold node_list_of. destruct n as [[] [|c s]|ns|m]; cbn [node_seq].
  - split; [intros [= <-]; auto|]. intros [[_ ->]|(ns & E & _)]; [reflexivity|discriminate].
  - split; [discriminate|]. intros [[E _]|(ns & E & _)]; discriminate.
  - split; [discriminate|]. intros [[E _]|(ns & E & _)]; discriminate.
  - split; [discriminate|]. intros [[E _]|(ns & E & _)]; discriminate.
  - rewrite map_all_iff, (Forall2_iff _ R) by (intros; apply H). split; [eauto|intros [[E _]|(w & [= <-] & X)]; [discriminate|exact X]].
  - split; [discriminate|]. intros [[E _]|(ns & E & _)]; discriminate.
Qed.
Lemma node_map_iff {A} (d : node -> option A) R n h : (forall v a, d v = Some a <-> R v a) -> node_map d n = Some h <-> node_map_shape R n h.
Proof.
  intros H. unfold node_map_shape. destruct n as [[] [|c s]|ns|m]; cbn [node_map]; try (split; [discriminate|intros [[E _]|(? & ? & E & _)]; discriminate]).
  - split; [intros [= <-]; auto|]. intros [[_ ->]|(? & ? & E & _)]; [reflexivity|discriminate].
  - rewrite bind_iff. assert (X : forall es, map_all (node_entry d) m = Some es <-> Forall2 (fun e x => node_is_string (fst e) (fst x) /\ R (snd e) (snd x)) m es).
    { intros es. rewrite map_all_iff. apply Forall2_iff. intros [k w] [s a]. unfold node_entry. cbn [fst snd]. rewrite bind_iff. split.
      - intros (s' & Hs & E). apply bind_iff in E as (a' & Ha & [= -> ->]). split; [apply node_string_iff, Hs|apply H, Ha].
      - intros [Hs Ha]. exists s. split; [apply node_string_iff, Hs|]. rewrite (proj2 (H w a) Ha). reflexivity. }
    split.
    + intros (es & He & [= <-]). right. exists m, es. rewrite <- X. auto.
    + intros [[E _]|(m' & es & [= <-] & He & ->)]; [discriminate|]. exists es. rewrite X. auto.
Qed.
Lemma node_slots_length fields n vs : node_slots fields n = Some vs -> length vs = length fields.
Proof.
  intros H. apply node_slots_iff in H. inv H; rewrite ?map_length; try assumption; try reflexivity. match goal with H : Forall2 _ _ _ |- _ => induction H; cbn; congruence end.
Qed.
Lemma node_strings_iff n l : node_seq node_string n = Some l <-> node_list_of node_is_string n l.
Proof. apply node_seq_iff, node_string_iff. Qed.
Lemma node_container_iff n c : buffered number read_container n = Some c <-> with_value number container_shape n c.
Proof. apply buffered_iff, read_container_iff. Qed.
Lemma node_condition_iff n c : buffered number read_condition n = Some c <-> with_value number condition_shape n c.
Proof. apply buffered_iff, read_condition_iff. Qed.
Lemma node_steps_iff n l : node_seq (buffered number (read_user_step same_yaml)) n = Some l <-> node_list_of (with_value number (step_shape same_yaml)) n l.
Proof. apply node_seq_iff. intros. apply buffered_iff, read_step_iff. Qed.
Lemma node_job_iff n j : node_job number same_yaml n = Some j <-> job_shape same_yaml number n j.
Proof.
  unfold node_job, job_shape. split.
  - destruct (node_slots _ n) as [vs|] eqn:E; [|discriminate]. pose proof (node_slots_length _ _ _ E) as L. destruct vs as [|a [|b [|d [|e [|f [|g [|]]]]]]]; try discriminate. clear L.
    intros H. shapes. injection H as <-. exists a, b, d, e, f, g. rewrite <- node_slots_iff. split; [exact E|]. cbn [uj_name uj_container uj_working_dirs uj_steps uj_on uj_depends_on].
    rewrite <- (node_opt_iff _ _ _ _ node_string_iff), <- (node_opt_iff _ _ _ _ node_container_iff), <- !(node_opt_iff _ _ _ _ node_strings_iff), <- (node_req_iff _ _ _ _ node_steps_iff), <- (node_opt_iff _ _ _ _ node_condition_iff). auto 10.
  - intros (a & b & d & e & f & g & G & H1 & H2 & H3 & H4 & H5 & H6). apply node_slots_iff in G. unfold job_fields. rewrite G.
    apply (node_opt_iff _ _ _ _ node_string_iff) in H1. apply (node_opt_iff _ _ _ _ node_container_iff) in H2. apply (node_opt_iff _ _ _ _ node_strings_iff) in H3, H6. apply (node_req_iff _ _ _ _ node_steps_iff) in H4.
    apply (node_opt_iff _ _ _ _ node_condition_iff) in H5. rewrite H1, H2, H3, H4, H5, H6. destruct j; reflexivity.
Qed.
Lemma node_jobs_iff n l : node_map (node_job number same_yaml) n = Some l <-> node_map_shape (job_shape same_yaml number) n l.
Proof. apply node_map_iff, node_job_iff. Qed.
Lemma node_workflow_iff n w : node_workflow number same_yaml n = Some w <-> workflow_shape same_yaml number n w.
Proof.
  unfold node_workflow, workflow_shape. split.
  - destruct (node_slots _ n) as [vs|] eqn:E; [|discriminate]. pose proof (node_slots_length _ _ _ E) as L. destruct vs as [|a [|b [|d [|]]]]; try discriminate. clear L.
    intros H. shapes. injection H as <-. exists a, b, d. rewrite <- node_slots_iff. split; [exact E|]. cbn [uw_name uw_on uw_jobs].
    rewrite <- (node_opt_iff _ _ _ _ node_string_iff), <- (node_req_iff _ _ _ _ node_jobs_iff), <- (node_opt_iff _ _ _ _ node_condition_iff). auto 10.
  - intros (a & b & d & G & H1 & H2 & H3). apply node_slots_iff in G. unfold workflow_fields. rewrite G.
    apply (node_opt_iff _ _ _ _ node_string_iff) in H1. apply (node_opt_iff _ _ _ _ node_condition_iff) in H2. apply (node_req_iff _ _ _ _ node_jobs_iff) in H3. rewrite H1, H2, H3. destruct w; reflexivity.
Qed.
Lemma fold_insert_NoDup {A} (es : list (string * A)) : forall h, NoDup (keys h) -> NoDup (keys (fold_left (fun h e => insert (fst e) (snd e) h) es h)).
Proof. induction es as [|e es IH]; intros h N; cbn [fold_left]; [exact N|]. apply IH, NoDup_keys_insert, N. Qed.
Lemma workflow_shape_NoDup n w : workflow_shape same_yaml number n w -> NoDup (keys (uw_jobs w)).
Proof.
  intros (a & b & d & _ & _ & _ & (x & _ & [[_ ->]|(m & es & _ & _ & ->)])); [constructor|]. apply fold_insert_NoDup. constructor.
Qed.
End Free.
