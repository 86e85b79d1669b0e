(** Common vocabulary: decidable equality, association-list maps, results, errors, tactics. *)
From Coq Require Export String Ascii Bool Arith NArith ZArith Lia Permutation List.
Export ListNotations.
Global Open Scope string_scope.
Global Open Scope list_scope.

(** ** Decidable equality *)
Class EqDec (A : Type) := eq_dec : forall x y : A, {x = y} + {x <> y}.
#[global] Instance EqDec_string : EqDec string := string_dec.
#[global] Instance EqDec_N : EqDec N := N.eq_dec.
#[global] Instance EqDec_Z : EqDec Z := Z.eq_dec.
#[global] Instance EqDec_nat : EqDec nat := Nat.eq_dec.
#[global] Instance EqDec_bool : EqDec bool := Bool.bool_dec.
#[global] Instance EqDec_prod {A B} `{EqDec A} `{EqDec B} : EqDec (A * B).
Proof. intros [a b] [c d]; destruct (eq_dec a c); destruct (eq_dec b d); [left|right|right|right]; congruence. Defined.
#[global] Instance EqDec_option {A} `{EqDec A} : EqDec (option A).
Proof. intros [a|] [b|]; [destruct (eq_dec a b)| | |]; [left|right|right|right|left]; congruence. Defined.
#[global] Instance EqDec_list {A} `{EqDec A} : EqDec (list A).
Proof. intros l l'; apply (list_eq_dec eq_dec). Defined.

Definition eqb {A} `{EqDec A} (x y : A) : bool := if eq_dec x y then true else false.

Lemma eqb_spec' {A} `{EqDec A} (x y : A) : reflect (x = y) (eqb x y).
Proof. unfold eqb; destruct (eq_dec x y); constructor; assumption. Qed.
Lemma eqb_true {A} `{EqDec A} (x y : A) : eqb x y = true <-> x = y.
Proof. destruct (eqb_spec' x y); split; congruence. Qed.
Lemma eqb_false {A} `{EqDec A} (x y : A) : eqb x y = false <-> x <> y.
Proof. destruct (eqb_spec' x y); split; congruence. Qed.
Lemma eqb_refl {A} `{EqDec A} (x : A) : eqb x x = true.
Proof. apply eqb_true; reflexivity. Qed.

Definition memb {A} `{EqDec A} (x : A) (l : list A) : bool := existsb (eqb x) l.
Lemma memb_true {A} `{EqDec A} (x : A) l : memb x l = true <-> In x l.
Proof.
  unfold memb; rewrite existsb_exists; split.
  - intros (y & Hy & E); rewrite eqb_true in E; subst; exact Hy.
  - intros Hx; exists x; split; [exact Hx|apply eqb_refl].
Qed.
Lemma memb_false {A} `{EqDec A} (x : A) l : memb x l = false <-> ~ In x l.
Proof. rewrite <- memb_true; destruct (memb x l); split; congruence. Qed.

(** ** Maps as association lists (Rust [HashMap]); list order = iteration order *)
Definition map_ (K V : Type) := list (K * V).

Section Map.
Context {K V : Type} `{EqDec K}.

Fixpoint lookup (k : K) (m : map_ K V) : option V :=
  match m with
  | [] => None
  | (k', v) :: m' => if eq_dec k k' then Some v else lookup k m'
  end.

(* HashMap::insert: replace the value of an existing key, otherwise add a new entry. *)
Fixpoint insert (k : K) (v : V) (m : map_ K V) : map_ K V :=
  match m with
  | [] => [(k, v)]
  | (k', v') :: m' => if eq_dec k k' then (k, v) :: m' else (k', v') :: insert k v m'
  end.

(* HashMap::remove *)
Fixpoint remove (k : K) (m : map_ K V) : map_ K V :=
  match m with
  | [] => []
  | (k', v') :: m' => if eq_dec k k' then remove k m' else (k', v') :: remove k m'
  end.

Definition keys (m : map_ K V) : list K := map fst m.
Definition values (m : map_ K V) : list V := map snd m.
Definition contains_key (k : K) (m : map_ K V) : bool :=
  match lookup k m with Some _ => true | None => false end.

Lemma lookup_insert_eq k v m : lookup k (insert k v m) = Some v.
Proof.
  induction m as [|[k' v'] m IH]; cbn.
  - destruct (eq_dec k k); congruence.
  - destruct (eq_dec k k'); cbn; [destruct (eq_dec k k); congruence|].
    destruct (eq_dec k k'); [congruence|exact IH].
Qed.
Lemma lookup_insert_ne k k' v m : k <> k' -> lookup k (insert k' v m) = lookup k m.
Proof.
  intros Hne; induction m as [|[k1 v1] m IH]; cbn.
  - destruct (eq_dec k k'); congruence.
  - destruct (eq_dec k' k1); cbn.
    + subst; destruct (eq_dec k k1); congruence.
    + destruct (eq_dec k k1); congruence.
Qed.
Lemma lookup_insert k k' v m :
  lookup k (insert k' v m) = if eq_dec k k' then Some v else lookup k m.
Proof. destruct (eq_dec k k'); [subst; apply lookup_insert_eq|apply lookup_insert_ne; assumption]. Qed.
Lemma lookup_remove k k' m :
  lookup k (remove k' m) = if eq_dec k k' then None else lookup k m.
Proof.
  induction m as [|[k1 v1] m IH]; cbn.
  - destruct (eq_dec k k'); reflexivity.
  - destruct (eq_dec k' k1).
    + rewrite IH. destruct (eq_dec k k'); [reflexivity|].
      destruct (eq_dec k k1); [congruence|reflexivity].
    + cbn. destruct (eq_dec k k1); [|exact IH].
      destruct (eq_dec k k'); [congruence|reflexivity].
Qed.
Lemma lookup_remove_eq k m : lookup k (remove k m) = None.
Proof. rewrite lookup_remove; destruct (eq_dec k k); congruence. Qed.
Lemma lookup_remove_ne k k' m : k <> k' -> lookup k (remove k' m) = lookup k m.
Proof. intros; rewrite lookup_remove; destruct (eq_dec k k'); congruence. Qed.

Lemma lookup_In k v m : lookup k m = Some v -> In (k, v) m.
Proof.
  induction m as [|[k' v'] m IH]; cbn; [discriminate|].
  destruct (eq_dec k k'); [intros E; injection E as ->; subst; left; reflexivity|].
  intros E; right; auto.
Qed.
Lemma lookup_None k m : lookup k m = None <-> ~ In k (keys m).
Proof.
  induction m as [|[k' v'] m IH]; cbn; [tauto|].
  destruct (eq_dec k k').
  - split; [discriminate|intros C; exfalso; apply C; left; congruence].
  - rewrite IH; split; [intros C [E|E]; [congruence|tauto]|tauto].
Qed.
Lemma lookup_is_Some k m : (exists v, lookup k m = Some v) <-> In k (keys m).
Proof.
  destruct (lookup k m) as [v|] eqn:E.
  - split; [intros _|eauto]. apply lookup_In in E. apply (in_map fst) in E; exact E.
  - apply lookup_None in E. split; [intros [v ?]; discriminate|tauto].
Qed.
Lemma In_lookup k v m : NoDup (keys m) -> In (k, v) m -> lookup k m = Some v.
Proof.
  induction m as [|[k' v'] m IH]; cbn; [tauto|].
  intros ND; apply NoDup_cons_iff in ND as [Hn ND]. intros [E|HI].
  - injection E as -> ->; destruct (eq_dec k k); congruence.
  - destruct (eq_dec k k'); [|auto].
    subst; exfalso; apply Hn; apply (in_map fst) in HI; exact HI.
Qed.
Lemma contains_key_true k m : contains_key k m = true <-> In k (keys m).
Proof.
  unfold contains_key; rewrite <- lookup_is_Some; destruct (lookup k m); split; intros Hx; eauto.
  - discriminate.
  - destruct Hx; discriminate.
Qed.
Lemma contains_key_false k m : contains_key k m = false <-> ~ In k (keys m).
Proof. rewrite <- contains_key_true; destruct (contains_key k m); split; congruence. Qed.

Lemma keys_insert_in k v m x : In x (keys (insert k v m)) <-> x = k \/ In x (keys m).
Proof.
  rewrite <- !lookup_is_Some, lookup_insert.
  destruct (eq_dec x k); [split; eauto|]. split; [tauto|intros [?|?]; [congruence|assumption]].
Qed.
Lemma keys_remove_in k m x : In x (keys (remove k m)) <-> x <> k /\ In x (keys m).
Proof.
  rewrite <- !lookup_is_Some, lookup_remove.
  destruct (eq_dec x k); [split; [intros [? ?]; discriminate|tauto]|]. split; [tauto|tauto].
Qed.
Lemma keys_insert_existing k v m : In k (keys m) -> keys (insert k v m) = keys m.
Proof.
  induction m as [|[k' v'] m IH]; cbn; [tauto|].
  destruct (eq_dec k k'); [subst; reflexivity|].
  intros [E|HI]; [congruence|]. cbn. f_equal; auto.
Qed.
Lemma keys_insert_new k v m : ~ In k (keys m) -> keys (insert k v m) = keys m ++ [k].
Proof.
  induction m as [|[k' v'] m IH]; cbn; [reflexivity|].
  intros Hn. destruct (eq_dec k k'); [exfalso; apply Hn; left; congruence|].
  cbn; f_equal; apply IH; tauto.
Qed.
Lemma insert_new k v m : ~ In k (keys m) -> insert k v m = m ++ [(k, v)].
Proof.
  induction m as [|[k' v'] m IH]; cbn; [reflexivity|].
  intros Hn. destruct (eq_dec k k'); [exfalso; apply Hn; left; congruence|].
  cbn; f_equal; apply IH; tauto.
Qed.
Lemma NoDup_keys_insert k v m : NoDup (keys m) -> NoDup (keys (insert k v m)).
Proof.
  intros ND. destruct (in_dec eq_dec k (keys m)) as [i|n].
  - rewrite keys_insert_existing; assumption.
  - rewrite keys_insert_new by assumption.
    apply Permutation_NoDup with (l := k :: keys m); [apply Permutation_cons_append|constructor; assumption].
Qed.
Lemma NoDup_keys_remove k m : NoDup (keys m) -> NoDup (keys (remove k m)).
Proof.
  induction m as [|[k' v'] m IH]; cbn; [constructor|].
  intros ND; apply NoDup_cons_iff in ND as [Hn ND].
  destruct (eq_dec k k'); [auto|]. cbn. constructor; [|auto].
  fold (keys (remove k m)). rewrite keys_remove_in. tauto.
Qed.
Lemma length_insert k v m :
  length (insert k v m) = if contains_key k m then length m else S (length m).
Proof.
  unfold contains_key. induction m as [|[k' v'] m IH]; cbn; [reflexivity|].
  destruct (eq_dec k k'); cbn; [reflexivity|]. rewrite IH. destruct (lookup k m); reflexivity.
Qed.
Lemma insert_not_nil k v m : insert k v m <> [].
Proof. destruct m as [|[? ?] ?]; cbn; [congruence|]; destruct (eq_dec _ _); congruence. Qed.
Lemma remove_not_in k m : ~ In k (keys m) -> remove k m = m.
Proof.
  induction m as [|[k' v'] m IH]; cbn; [reflexivity|]. intros Hn.
  destruct (eq_dec k k'); [exfalso; apply Hn; left; congruence|]. f_equal; apply IH; tauto.
Qed.
End Map.

(** Two maps are the same map when they agree on every lookup. *)
Definition map_equiv {K V} `{EqDec K} (m m' : map_ K V) : Prop := forall k, lookup k m = lookup k m'.

Lemma lookup_Permutation {K V} `{EqDec K} (m m' : map_ K V) k :
  Permutation m m' -> NoDup (keys m) -> lookup k m = lookup k m'.
Proof.
  intros P ND. assert (ND' : NoDup (keys m')) by (eapply Permutation_NoDup; [apply Permutation_map; exact P|exact ND]).
  destruct (lookup k m) as [v|] eqn:E.
  - apply lookup_In in E. symmetry; apply In_lookup; [exact ND'|]. eapply Permutation_in; eauto.
  - apply lookup_None in E. symmetry; apply lookup_None. intros C; apply E.
    eapply Permutation_in; [apply Permutation_sym, Permutation_map; exact P|exact C].
Qed.

(** ** Results and errors *)
(** astro-run/src/types/error.rs:1-23 [Error].  [IOError] keeps only its message. *)
Inductive error :=
| WorkflowConfigError (msg : string)
| InternalRuntimeError (msg : string)
| FailedError (code : N)
| OtherError (msg : string)
| IOError (msg : string)
| InitError (msg : string)
| UnsupportedFeature (msg : string).

Inductive result (A : Type) := Ok (a : A) | Err (e : error).
Arguments Ok {A} a.
Arguments Err {A} e.

Definition is_ok {A} (r : result A) : bool := match r with Ok _ => true | Err _ => false end.
Definition bind {A B} (r : result A) (f : A -> result B) : result B :=
  match r with Ok a => f a | Err e => Err e end.
Notation "'let?' x := r 'in' k" := (bind r (fun x => k)) (at level 200, x pattern, r at level 100, k at level 200).

Fixpoint mapM {A B} (f : A -> result B) (l : list A) : result (list B) :=
  match l with
  | [] => Ok []
  | a :: l' => match f a with
               | Err e => Err e
               | Ok b => match mapM f l' with Ok bs => Ok (b :: bs) | Err e => Err e end
               end
  end.

Definition option_default {A} (d : A) (o : option A) : A := match o with Some a => a | None => d end.
Definition is_some {A} (o : option A) : bool := match o with Some _ => true | None => false end.

(** ** Strings *)
Notation "a +++ b" := (String.append a b) (at level 60, right associativity).
Lemma append_assoc (a b c : string) : (a +++ b) +++ c = a +++ (b +++ c).
Proof. induction a; cbn; [reflexivity|f_equal; assumption]. Qed.
Lemma append_nil_r (a : string) : a +++ "" = a.
Proof. induction a; cbn; [reflexivity|f_equal; assumption]. Qed.
Lemma append_inj_l (a b c : string) : a +++ b = a +++ c -> b = c.
Proof. induction a; cbn; intros E; [exact E|injection E; assumption]. Qed.

(** ** Tactics *)
Ltac inv H := inversion H; subst; clear H.
Ltac destr :=
  match goal with
  | |- context [match ?x with _ => _ end] => destruct x eqn:?
  end.
Ltac destr_in H :=
  match type of H with
  | context [match ?x with _ => _ end] => destruct x eqn:?
  end.
Ltac destr_any :=
  match goal with
  | H : context [match ?x with _ => _ end] |- _ => destruct x eqn:?
  | |- context [match ?x with _ => _ end] => destruct x eqn:?
  end.

(** ** Lists *)
Lemma app_cons_assoc {A} (l : list A) x l' : l ++ x :: l' = (l ++ [x]) ++ l'.
Proof. rewrite <- app_assoc; reflexivity. Qed.
Lemma nth_error_app_last {A} (l : list A) x : nth_error (l ++ [x]) (length l) = Some x.
Proof. rewrite nth_error_app2 by lia. rewrite Nat.sub_diag; reflexivity. Qed.
Lemma firstn_S_nth {A} (l : list A) n x : nth_error l n = Some x -> firstn (S n) l = firstn n l ++ [x].
Proof.
  revert n; induction l as [|a l IH]; intros [|n] E; cbn in *; try discriminate.
  - injection E as ->; reflexivity.
  - f_equal. apply IH; exact E.
Qed.
Lemma fold_left_snoc {A B} (f : A -> B -> A) l x a : fold_left f (l ++ [x]) a = f (fold_left f l a) x.
Proof. rewrite fold_left_app; reflexivity. Qed.
