From Verif Require Import Base Types Sched_model Sched_spec.

Lemma find_first {A} (f : A -> bool) l r : find f l = Some r <-> first_such (fun x => f x = true) l r.
Proof.
  induction l as [|a l IH]; cbn; split.
  - discriminate.
  - intros ([|? ?] & ? & C & _); discriminate C.
  - destruct (f a) eqn:E.
    + intros [= <-]. exists [], l. split; [reflexivity|]. split; [exact E|intros x []].
    + intros H. apply IH in H as (b & c & -> & Hr & Hb). exists (a :: b), c. split; [reflexivity|]. split; [exact Hr|].
      intros x [<-|Hx]; [congruence|auto].
  - intros ([|b bs] & c & E & Hr & Hb); injection E as -> E.
    + rewrite Hr. reflexivity.
    + destruct (f b) eqn:Eb; [exfalso; apply (Hb b); [left; reflexivity|exact Eb]|]. apply IH. exists bs, c. split; [exact E|]. split; [exact Hr|].
      intros x Hx. apply Hb. right; exact Hx.
Qed.
Lemma find_none_iff {A} (f : A -> bool) l : find f l = None <-> forall x, In x l -> f x = false.
Proof.
  split; [apply find_none|]. induction l as [|a l IH]; cbn; [reflexivity|]. intros H. rewrite (H a) by auto. auto.
Qed.
Lemma first_such_iff {A} (P Q : A -> Prop) l r : (forall x, In x l -> (P x <-> Q x)) -> first_such P l r -> first_such Q l r.
Proof.
  intros H (b & c & -> & Hp & Hb). exists b, c. split; [reflexivity|]. split; [apply H; [apply in_or_app; right; left; reflexivity|exact Hp]|].
  intros x Hx C. apply (Hb x Hx). apply H; [apply in_or_app; auto|exact C].
Qed.
Lemma first_such_filter {A} (f : A -> bool) (P : A -> Prop) l r : first_such P (filter f l) r <-> first_such (fun x => f x = true /\ P x) l r.
Proof.
  induction l as [|a l IH]; cbn.
  - split; intros ([|? ?] & ? & C & _); discriminate C.
  - destruct (f a) eqn:E.
    + split.
      * intros ([|b bs] & c & Eq & Hp & Hb); injection Eq as -> Eq.
        -- exists [], l. split; [reflexivity|]. split; [auto|intros x []].
        -- assert (F : first_such P (filter f l) r) by (exists bs, c; split; [exact Eq|]; split; [exact Hp|]; intros x Hx; apply Hb; right; exact Hx).
           apply IH in F as (b1 & c1 & -> & Hp1 & Hb1). exists (b :: b1), c1. split; [reflexivity|]. split; [exact Hp1|].
           intros x [<-|Hx]; [intros [_ C]; apply (Hb b); [left; reflexivity|exact C]|auto].
      * intros ([|b bs] & c & Eq & Hp & Hb); injection Eq as -> Eq.
        -- exists [], (filter f l). split; [reflexivity|]. split; [tauto|intros x []].
        -- assert (F : first_such (fun x => f x = true /\ P x) l r) by (exists bs, c; split; [exact Eq|]; split; [exact Hp|]; intros x Hx; apply Hb; right; exact Hx).
           apply IH in F as (b1 & c1 & Eq1 & Hp1 & Hb1). rewrite Eq1. exists (b :: b1), c1. split; [reflexivity|]. split; [exact Hp1|].
           intros x [<-|Hx]; [intros C; apply (Hb b); [left; reflexivity|split; [exact E|exact C]]|auto].
    + rewrite IH. split.
      * intros (b & c & -> & Hp & Hb). exists (a :: b), c. split; [reflexivity|]. split; [exact Hp|]. intros x [<-|Hx]; [intros [C _]; congruence|auto].
      * intros ([|b bs] & c & Eq & Hp & Hb); injection Eq as -> Eq; [destruct Hp; congruence|]. exists bs, c. split; [exact Eq|]. split; [exact Hp|].
        intros x Hx. apply Hb. right; exact Hx.
Qed.

(** [min_by_key] *)
Section Min.
Variable f : runner_meta -> nat.
Variable counts : map_ string Z.
Hypothesis Hf : forall r, count_of counts r = Z.of_nat (f r).

Definition min_from (best : option runner_meta) (l : list runner_meta) : option runner_meta :=
  fold_left (fun best r => match best with
                           | None => Some r
                           | Some b => if (count_of counts r <? count_of counts b)%Z then Some r else Some b
                           end) l best.
Lemma min_from_spec l : forall b r, min_from (Some b) l = Some r ->
  (r = b /\ forall x, In x l -> f b <= f x) \/
  (f r < f b /\ first_least (fun _ => True) f l r).
Proof.
  induction l as [|a l IH]; intros b r E; cbn in E; [injection E as <-; left; split; [reflexivity|intros x []]|].
  destruct (count_of counts a <? count_of counts b)%Z eqn:Ec.
  - apply Z.ltb_lt in Ec. rewrite !Hf in Ec. apply IH in E as [[-> H]|[H1 (p & q & -> & _ & H2 & H3)]].
    + right. split; [lia|]. exists [], l. split; [reflexivity|]. split; [exact I|]. split; [intros x []|auto].
    + right. split; [lia|]. exists (a :: p), q. split; [reflexivity|]. split; [exact I|]. split; [|exact H3]. intros x [<-|Hx]; [lia|auto].
  - apply Z.ltb_ge in Ec. rewrite !Hf in Ec. apply IH in E as [[-> H]|[H1 (p & q & -> & _ & H2 & H3)]].
    + left. split; [reflexivity|]. intros x [<-|Hx]; [lia|auto].
    + right. split; [lia|]. exists (a :: p), q. split; [reflexivity|]. split; [exact I|]. split; [|exact H3]. intros x [<-|Hx] _; [lia|auto].
Qed.
Lemma min_from_some l : forall b, exists r, min_from (Some b) l = Some r.
Proof. induction l as [|a l IH]; intros b; cbn; [eauto|]. destruct (_ <? _)%Z; apply IH. Qed.
Lemma min_by_count_spec l r : min_by_count counts l = Some r -> first_least (fun _ => True) f l r.
Proof.
  destruct l as [|a l]; [discriminate|]. intros E. change (min_by_count counts (a :: l)) with (min_from (Some a) l) in E.
  apply min_from_spec in E as [[-> H]|[H1 (p & q & -> & _ & H2 & H3)]].
  - exists [], l. split; [reflexivity|]. split; [exact I|]. split; [intros x []|auto].
  - exists (a :: p), q. split; [reflexivity|]. split; [exact I|]. split; [|exact H3]. intros x [<-|Hx]; [lia|auto].
Qed.
Lemma min_by_count_none l : min_by_count counts l = None <-> l = [].
Proof.
  destruct l as [|a l]; [split; reflexivity|]. change (min_by_count counts (a :: l)) with (min_from (Some a) l).
  destruct (min_from_some l a) as [r ->]. split; discriminate.
Qed.
Lemma first_least_filter (g : runner_meta -> bool) l r : first_least (fun _ => True) f (filter g l) r -> first_least (fun x => g x = true) f l r.
Proof.
  intros (b & c & E & _ & Hb & Hc). revert b c E Hb Hc. induction l as [|a l IH]; intros b c E Hb Hc; [destruct b; discriminate|]. cbn in E.
  destruct (g a) eqn:Eg.
  - destruct b as [|b0 b]; injection E as -> E.
    + exists [], l. split; [reflexivity|]. split; [exact Eg|]. split; [intros x []|]. intros x Hx Gx. apply Hc; [rewrite <- E; apply filter_In; auto|exact I].
    + destruct (IH b c E) as (p & q & -> & Hp & H1 & H2); auto; [intros x Hx; apply Hb; right; exact Hx|].
      exists (b0 :: p), q. split; [reflexivity|]. split; [exact Hp|]. split; [|exact H2]. intros x [<-|Hx] Gx; [apply Hb; [left; reflexivity|exact I]|auto].
  - destruct (IH b c E Hb Hc) as (p & q & -> & Hp & H1 & H2). exists (a :: p), q. split; [reflexivity|]. split; [exact Hp|]. split; [|exact H2].
    intros x [<-|Hx] Gx; [congruence|auto].
Qed.
End Min.

Lemma prefix_host c : String.prefix "host/" c = true <-> exists rest, c = "host/" +++ rest.
Proof.
  split.
  - intros H. exists (String.substring 5 (String.length c - 5) c).
    do 5 (destruct c as [|? c]; [discriminate H|]; cbn in H; match type of H with (if ?x then _ else _) = _ => destruct x as [<-|]; [|discriminate H] end).
    cbn. do 5 f_equal. rewrite Nat.sub_0_r. clear H. induction c as [|a c IH]; cbn; [reflexivity|]. f_equal. exact IH.
  - intros [rest ->]. cbn. destruct rest; reflexivity.
Qed.
Lemma runs_on_host_spec q : runs_on_host (sq_container q) = true <-> host_step q.
Proof.
  unfold runs_on_host, host_step. destruct (sq_container q) as [c|].
  - rewrite prefix_host. split; intros [r E]; exists r; congruence.
  - split; [discriminate|intros [r C]; discriminate C].
Qed.
Lemma runs_on_host_false q : runs_on_host (sq_container q) = false <-> ~ host_step q.
Proof. rewrite <- runs_on_host_spec. destruct (runs_on_host _); intuition discriminate. Qed.

(** ** The history and the state *)
Lemma outstanding_snoc tr e : outstanding (tr ++ [e]) = outstanding_after (outstanding tr) e.
Proof. apply fold_left_snoc. Qed.
Lemma affinity_snoc tr e j : affinity (tr ++ [e]) j = affinity_after j (affinity tr j) e.
Proof. apply fold_left_snoc. Qed.

Lemma lookup_insert_b {K V} `{EqDec K} (k k' : K) (v : V) m : lookup k (insert k' v m) = if eqb k k' then Some v else lookup k m.
Proof. rewrite lookup_insert. unfold eqb. destruct (eq_dec k k'); reflexivity. Qed.
Lemma lookup_remove_b {K V} `{EqDec K} (k k' : K) (m : map_ K V) : lookup k (remove k' m) = if eqb k k' then None else lookup k m.
Proof. rewrite lookup_remove. unfold eqb. destruct (eq_dec k k'); reflexivity. Qed.
Lemma lookup_cons_b {K V} `{EqDec K} (k k' : K) (v : V) m : lookup k ((k', v) :: m) = if eqb k k' then Some v else lookup k m.
Proof. cbn [lookup]. unfold eqb. destruct (eq_dec k k'); reflexivity. Qed.
Lemma lookup_filter_ne {V} (m : list (step_id * V)) id x :
  lookup x (filter (fun y => negb (eqb (fst y) id)) m) = if eqb x id then None else lookup x m.
Proof.
  induction m as [|[k v] m IH]; [cbn [filter lookup]; destruct (eqb x id); reflexivity|]. cbn [filter fst].
  destruct (eqb k id) eqn:E; cbn [negb]; rewrite ?lookup_cons_b, IH.
  - apply (proj1 (eqb_true _ _)) in E. rewrite E. destruct (eqb x id); reflexivity.
  - destruct (eqb x k) eqn:Ek; [|reflexivity]. apply (proj1 (eqb_true _ _)) in Ek. rewrite Ek, E. reflexivity.
Qed.
Lemma keys_filter_sub {K V} (g : K * V -> bool) (m : list (K * V)) x : In x (keys (filter g m)) -> In x (keys m).
Proof. unfold keys. intros H. apply in_map_iff in H as (y & <- & Hy). apply filter_In in Hy as [Hy _]. apply in_map, Hy. Qed.
Lemma NoDup_keys_filter {K V} (g : K * V -> bool) (m : list (K * V)) : NoDup (keys m) -> NoDup (keys (filter g m)).
Proof.
  induction m as [|a m IH]; cbn; [constructor|]. intros H. inv H. destruct (g a); cbn; [constructor|]; auto.
  intros C. apply H2. eapply keys_filter_sub; exact C.
Qed.
Lemma outstanding_nodup tr : NoDup (keys (outstanding tr)).
Proof.
  induction tr as [|e tr IH] using rev_ind; [constructor|]. rewrite outstanding_snoc. destruct e as [c q|id h rid|c q r|id|id]; cbn; auto.
  - constructor; [|apply NoDup_keys_filter, IH]. intros C. apply in_map_iff in C as (y & Hy & C). apply filter_In in C as [_ C].
    apply negb_true_iff in C; apply (proj1 (eqb_false _ _)) in C. congruence.
  - apply NoDup_keys_filter, IH.
Qed.

Lemma never_again_app a : forall out b, never_again out (a ++ b) <-> never_again out a /\ never_again (fold_left outstanding_after a out) b.
Proof. induction a as [|e a IH]; intros out b; cbn; [tauto|]. rewrite IH. tauto. Qed.
Lemma never_again_snoc tr e : never_again [] (tr ++ [e]) <-> never_again [] tr /\ match e with EvScheduled id _ _ => ~ In id (map fst (outstanding tr)) | _ => True end.
Proof. rewrite never_again_app. cbn. unfold outstanding. tauto. Qed.

Lemma filter_all {A} (f : A -> bool) l : (forall x, In x l -> f x = true) -> filter f l = l.
Proof. induction l as [|a l IH]; cbn; auto. intros H. rewrite (H a) by auto. f_equal. apply IH. auto. Qed.

Definition occ (out : list (step_id * string)) (rid : string) : nat := length (filter (fun x => eqb (snd x) rid) out).
Lemma occ_remove out id r : NoDup (keys out) -> lookup id out = Some r ->
  forall rid, occ out rid = occ (filter (fun x => negb (eqb (fst x) id)) out) rid + (if eqb r rid then 1 else 0).
Proof.
  intros ND. induction out as [|[k v] out IH]; [discriminate|]. inv ND. intros L rid. rewrite lookup_cons_b in L. destruct (eqb id k) eqn:E.
  - apply (proj1 (eqb_true _ _)) in E. subst k. injection L as ->. unfold occ. cbn [filter fst snd]. rewrite eqb_refl. cbn [negb].
    rewrite (filter_all (fun x => negb (eqb (fst x) id)) out). { destruct (eqb r rid); cbn [length]; lia. }
    intros [k v] Hx. cbn [fst]. apply negb_true_iff, eqb_false. intros ->. apply H1. apply (in_map fst _ _ Hx).
  - specialize (IH H2 L rid). unfold occ in *. cbn [filter fst snd]. assert (Ek : eqb k id = false) by (apply eqb_false; apply (proj1 (eqb_false _ _)) in E; congruence).
    rewrite Ek. cbn [negb filter snd]. destruct (eqb v rid); cbn [length]; rewrite IH; lia.
Qed.
Lemma occ_remove_none out id rid : lookup id out = None -> occ (filter (fun x => negb (eqb (fst x) id)) out) rid = occ out rid.
Proof.
  intros L. unfold occ. rewrite (filter_all (fun x => negb (eqb (fst x) id)) out); [reflexivity|]. intros [k v] Hx. cbn [fst]. apply negb_true_iff, eqb_false. intros ->.
  apply lookup_None in L. apply L, (in_map fst _ _ Hx).
Qed.

Definition counts_ok (counts : map_ string Z) (out : list (step_id * string)) : Prop :=
  forall rid, lookup rid counts = match occ out rid with 0 => None | n => Some (Z.of_nat n) end.

Record sinv (m : smach) (tr : list sev) : Prop := {
  si_jobs : forall j, lookup j (sd_jobs (sm_st m)) = affinity tr j;
  si_steps : forall id, lookup id (sd_steps (sm_st m)) = lookup id (outstanding tr);
  si_counts : never_again [] tr -> counts_ok (sd_counts (sm_st m)) (outstanding tr)
}.

Lemma sinv_returned m m' tr c q r : sm_st m' = sm_st m -> sinv m tr -> sinv m' (tr ++ [EvReturned c q r]).
Proof.
  intros E [H1 H2 H3]. constructor; rewrite E.
  - intros j. rewrite affinity_snoc. apply H1.
  - intros id. rewrite outstanding_snoc. apply H2.
  - intros N. rewrite outstanding_snoc. apply never_again_snoc in N as [N _]. apply H3, N.
Qed.

Lemma sinv_called m m' tr c q : sm_st m' = sm_st m -> sinv m tr -> sinv m' (tr ++ [EvCalled c q]).
Proof.
  intros E [H1 H2 H3]. constructor; rewrite E.
  - intros j. rewrite affinity_snoc. apply H1.
  - intros id. rewrite outstanding_snoc. apply H2.
  - intros N. rewrite outstanding_snoc. apply never_again_snoc in N as [N _]. apply H3, N.
Qed.

Lemma sinv_run ops m tr : sched_run ops m tr -> sinv m tr.
Proof.
  induction 1 as [|ops m tr op m' o R IH E]; [constructor; repeat intro; reflexivity|].
  assert (Cont : forall tr c q k m' o, sinv m tr -> continue_call m c q k = (m', o) -> sinv m' (tr ++ o)).
  { clear. intros tr c q [k|r] m' o IH Ek; injection Ek as <- <-; [rewrite app_nil_r; destruct IH; constructor; assumption|apply (sinv_returned m); [reflexivity|exact IH]]. }
  destruct op as [c q|c|id|id]; cbn [smach_step] in E.
  - destruct (contains_key c (sm_calls m)); [discriminate|]. destruct (continue_call m c q _) as [m1 o1] eqn:Ek. injection E as <- <-.
    change (EvCalled c q :: o1) with ([EvCalled c q] ++ o1). rewrite app_assoc. eapply Cont; [|exact Ek]. apply (sinv_called m); [reflexivity|exact IH].
  - destruct (lookup c (sm_calls m)) as [[q|q r]|]; [| |discriminate]; [injection E as E; eapply Cont; eauto|].
    injection E as <- <-.
    change [EvScheduled (sq_step q) (runs_on_host (sq_container q)) (rm_id r); EvReturned c q (Some r)] with
      ([EvScheduled (sq_step q) (runs_on_host (sq_container q)) (rm_id r)] ++ [EvReturned c q (Some r)]). rewrite app_assoc.
    apply (sinv_returned (SMach (commit_schedule (sm_st m) q r) (remove c (sm_calls m)))); [reflexivity|].
    destruct IH as [H1 H2 H3]. constructor; cbn [sm_st commit_schedule sd_jobs sd_steps sd_counts].
    + intros j. rewrite affinity_snoc. cbn. destruct (runs_on_host (sq_container q)); [apply H1|]. rewrite lookup_insert_b, H1.
      destruct (eqb j (step_id_job_id (sq_step q))) eqn:Ej.
      * apply (proj1 (eqb_true _ _)) in Ej. subst j. rewrite eqb_refl. reflexivity.
      * apply (proj1 (eqb_false _ _)) in Ej. replace (eqb (step_id_job_id (sq_step q)) j) with false by (symmetry; apply eqb_false; congruence). reflexivity.
    + intros id. rewrite outstanding_snoc. cbn [outstanding_after]. rewrite lookup_insert_b. rewrite lookup_cons_b, lookup_filter_ne, H2.
      destruct (eqb id (sq_step q)); reflexivity.
    + intros N. rewrite outstanding_snoc. apply never_again_snoc in N as [N Hn]. specialize (H3 N). cbn [outstanding_after].
      assert (L : lookup (sq_step q) (outstanding tr) = None) by (apply lookup_None, Hn).
      intros rid. unfold occ. cbn [filter snd]. rewrite lookup_insert_b. fold (occ (filter (fun x => negb (eqb (fst x) (sq_step q))) (outstanding tr)) rid).
      destruct (eqb rid (rm_id r)) eqn:Er.
      * apply (proj1 (eqb_true _ _)) in Er. subst rid. rewrite eqb_refl. cbn [length].
        change (length (filter (fun x => eqb (snd x) (rm_id r)) (filter (fun x => negb (eqb (fst x) (sq_step q))) (outstanding tr))))
          with (occ (filter (fun x => negb (eqb (fst x) (sq_step q))) (outstanding tr)) (rm_id r)).
        rewrite occ_remove_none by exact L. rewrite (H3 (rm_id r)). destruct (occ (outstanding tr) (rm_id r)); cbn [option_default]; f_equal; lia.
      * replace (eqb (rm_id r) rid) with false by (symmetry; apply eqb_false; apply (proj1 (eqb_false _ _)) in Er; congruence).
        change (length (filter (fun x => eqb (snd x) rid) (filter (fun x => negb (eqb (fst x) (sq_step q))) (outstanding tr))))
          with (occ (filter (fun x => negb (eqb (fst x) (sq_step q))) (outstanding tr)) rid).
        rewrite occ_remove_none by exact L. apply H3.
  - injection E as <- <-. destruct IH as [H1 H2 H3]. constructor; cbn [sm_st on_step_completed sd_jobs sd_steps sd_counts].
    + intros j. rewrite affinity_snoc. apply H1.
    + intros x. rewrite outstanding_snoc, lookup_remove_b. cbn [outstanding_after]. rewrite lookup_filter_ne, H2. reflexivity.
    + intros N. rewrite outstanding_snoc. apply never_again_snoc in N as [N _]. specialize (H3 N). cbn [outstanding_after].
      rewrite H2. destruct (lookup id (outstanding tr)) as [r|] eqn:L.
      * assert (O := occ_remove _ _ _ (outstanding_nodup tr) L). intros rid.
        assert (Lr := H3 r). rewrite (O r), eqb_refl in Lr. rewrite Nat.add_1_r in Lr. rewrite Lr.
        set (n := occ (filter (fun x => negb (eqb (fst x) id)) (outstanding tr)) r) in *.
        replace (Z.of_nat (S n) - 1)%Z with (Z.of_nat n) by lia.
        destruct (eqb rid r) eqn:Er.
        -- apply (proj1 (eqb_true _ _)) in Er. subst rid. fold n. destruct n as [|n'].
           ++ cbn. apply lookup_remove_eq.
           ++ replace (Z.of_nat (S n') <=? 0)%Z with false by (symmetry; apply Z.leb_gt; lia). apply lookup_insert_eq.
        -- apply (proj1 (eqb_false _ _)) in Er. assert (Hne : lookup rid (insert r (Z.of_nat n) (sd_counts (sm_st m))) = lookup rid (sd_counts (sm_st m))) by (apply lookup_insert_ne; exact Er).
           assert (lookup rid (if (Z.of_nat n <=? 0)%Z then remove r (insert r (Z.of_nat n) (sd_counts (sm_st m))) else insert r (Z.of_nat n) (sd_counts (sm_st m))) = lookup rid (sd_counts (sm_st m))) as ->.
           { destruct (_ <=? _)%Z; [rewrite lookup_remove_ne by exact Er|]; exact Hne. }
           rewrite (H3 rid), (O rid). replace (eqb r rid) with false by (symmetry; apply eqb_false; congruence). rewrite Nat.add_0_r. reflexivity.
      * intros rid. rewrite occ_remove_none by exact L. apply H3.
  - injection E as <- <-. destruct IH as [H1 H2 H3]. constructor; cbn [sm_st on_job_completed sd_jobs sd_steps sd_counts].
    + intros j. rewrite affinity_snoc, lookup_remove_b, H1. cbn. destruct (eqb j id) eqn:Ej.
      * apply (proj1 (eqb_true _ _)) in Ej. subst j. rewrite eqb_refl. reflexivity.
      * replace (eqb id j) with false by (symmetry; apply eqb_false; apply (proj1 (eqb_false _ _)) in Ej; congruence). reflexivity.
    + intros x. rewrite outstanding_snoc. apply H2.
    + intros N. rewrite outstanding_snoc. apply never_again_snoc in N as [N _]. apply H3, N.
Qed.

Lemma counts_load m tr : sinv m tr -> never_again [] tr -> forall r, count_of (sd_counts (sm_st m)) r = Z.of_nat (load tr (rm_id r)).
Proof.
  intros [_ _ H3] N r. unfold count_of. rewrite (H3 N (rm_id r)). unfold load. fold (occ (outstanding tr) (rm_id r)).
  destruct (occ (outstanding tr) (rm_id r)); reflexivity.
Qed.

(** *** Without reported completions the counts are those of the picks. *)
Lemma picks_app rid a b : picks rid (a ++ b) = picks rid a + picks rid b.
Proof. unfold picks. rewrite filter_app, app_length. reflexivity. Qed.
Lemma counts_picks ops m tr : sched_run ops m tr -> no_step_done tr -> forall r, count_of (sd_counts (sm_st m)) r = Z.of_nat (picks (rm_id r) tr).
Proof.
  induction 1 as [|ops m tr op m' o R IH E]; intros N r; [reflexivity|].
  assert (IH' : count_of (sd_counts (sm_st m)) r = Z.of_nat (picks (rm_id r) tr)) by (apply IH; intros x Hx; apply (N x), in_or_app; auto). rewrite picks_app.
  destruct op as [c q|c|id|id].
  - cbn [smach_step] in E. destruct (contains_key c (sm_calls m)); [discriminate|]. destruct (begin_schedule (sm_st m) q) as [k|res]; cbn [continue_call] in E; injection E as <- <-; cbn [sm_st]; rewrite IH'; cbn; lia.
  - cbn [smach_step] in E. destruct (lookup c (sm_calls m)) as [[q|q r0]|]; [| |discriminate].
    + destruct (pick_schedule (sm_st m) q) as [k|res]; cbn [continue_call] in E; injection E as <- <-; cbn [sm_st]; rewrite IH'; cbn; lia.
    + injection E as <- <-. cbn [sm_st]. unfold count_of in *. cbn [commit_schedule sd_counts]. rewrite lookup_insert_b. unfold picks at 2. cbn [filter length].
      destruct (eqb (rm_id r) (rm_id r0)) eqn:Er.
      * apply (proj1 (eqb_true _ _)) in Er. rewrite <- Er, eqb_refl. cbn [option_default length]. rewrite IH'. lia.
      * destruct (eqb (rm_id r0) (rm_id r)) eqn:Er'; [apply (proj1 (eqb_true _ _)) in Er'; rewrite Er', eqb_refl in Er; discriminate|]. cbn [length]. rewrite IH'. lia.
  - injection E as <- <-. destruct (N id). apply in_or_app. right. left. reflexivity.
  - injection E as <- <-. cbn [sm_st on_job_completed sd_counts]. rewrite IH'. cbn. lia.
Qed.
Lemma done_reported ops m tr : sched_run ops m tr -> forall id, In (EvStepDone id) tr -> In (SStepDone id) ops.
Proof.
  induction 1 as [|ops m tr op m' o R IH E]; intros id H; [destruct H|]. apply in_or_app. apply in_app_or in H as [H|H]; [left; auto|]. right.
  destruct op as [c q|c|id'|id']; cbn [smach_step] in E.
  - destruct (contains_key c (sm_calls m)); [discriminate|]. destruct (begin_schedule (sm_st m) q) as [k|res]; cbn [continue_call] in E; injection E as <- <-; cbn [In] in H; intuition discriminate.
  - destruct (lookup c (sm_calls m)) as [[q|q r0]|]; [| |discriminate].
    + destruct (pick_schedule (sm_st m) q) as [k|res]; cbn [continue_call] in E; injection E as <- <-; cbn [In] in H; intuition discriminate.
    + injection E as <- <-. cbn [In] in H; intuition discriminate.
  - injection E as <- <-. destruct H as [[= <-]|[]]. left. reflexivity.
  - injection E as <- <-. destruct H as [H|[]]. discriminate H.
Qed.

(** ** The individual decisions *)
Lemma affinity_ok_docker a q r : ~ host_step q -> affinity_ok a (sq_container q) r = true <-> rm_id r = a.
Proof.
  intros H. apply runs_on_host_false in H. unfold runs_on_host, affinity_ok in *. destruct (sq_container q) as [c|]; [rewrite H|];
    destruct (eqb (rm_id r) a) eqn:E; (apply (proj1 (eqb_true _ _)) in E || apply (proj1 (eqb_false _ _)) in E); intuition congruence.
Qed.
Lemma affinity_ok_host a q c r : sq_container q = Some c -> host_step q ->
  affinity_ok a (sq_container q) r = true <->
  rm_id r = a /\ ((rm_support_host r = true /\ c = "host/" +++ rm_os r) \/ c = "host/" +++ rm_os r +++ "-" +++ rm_arch r).
Proof.
  intros Hc H. apply runs_on_host_spec in H. unfold runs_on_host, affinity_ok in *. rewrite Hc in *. rewrite H.
  destruct (eqb (rm_id r) a) eqn:E.
  - apply (proj1 (eqb_true _ _)) in E. rewrite orb_true_iff, andb_true_iff, !eqb_true. intuition.
  - apply (proj1 (eqb_false _ _)) in E. intuition congruence.
Qed.
Lemma pick_host_spec l c r : pick_host_runner l c = Some r <-> first_such (fun r => rm_support_host r = true /\ names_platform c r) l r.
Proof.
  unfold pick_host_runner. rewrite find_first, first_such_filter. unfold names_platform.
  split; apply first_such_iff; intros x _; rewrite orb_true_iff, !eqb_true; tauto.
Qed.
Lemma pick_host_none l c : pick_host_runner l c = None <-> forall r, In r l -> ~ (rm_support_host r = true /\ names_platform c r).
Proof.
  destruct (pick_host_runner l c) as [r|] eqn:E.
  - apply pick_host_spec in E as (b & a & -> & H & _). split; [discriminate|]. intros C. exfalso. apply (C r); [apply in_or_app; right; left; reflexivity|exact H].
  - split; [|reflexivity]. intros _ r Hr [H1 H2]. unfold pick_host_runner in E. rewrite find_none_iff in E.
    specialize (E r). rewrite filter_In in E. specialize (E (conj Hr H1)). apply orb_false_iff in E as [E1 E2]. apply (proj1 (eqb_false _ _)) in E1, E2.
    destruct H2; tauto.
Qed.

(** ** Every answer is explained *)
Lemma sticky_found st tr q a : (forall j, lookup j (sd_jobs st) = affinity tr j) -> lookup (step_id_job_id (sq_step q)) (sd_jobs st) = Some a ->
  forall x, affinity_ok a (sq_container q) x = true <-> sticky tr q x.
Proof.
  intros H L x. rewrite H in L. unfold sticky. rewrite L. destruct (runs_on_host (sq_container q)) eqn:E.
  - apply runs_on_host_spec in E. assert (E' := E). destruct E' as [rest Hc]. rewrite (affinity_ok_host _ _ _ _ Hc E). rewrite Hc.
    split.
    + intros [<- Hx]. split; [reflexivity|]. intros _. destruct Hx as [[? Hx]|Hx]; [left|right]; rewrite Hx; auto.
    + intros [[= ->] Hx]. split; [reflexivity|]. destruct (Hx E) as [[? Hy]|Hy]; injection Hy as Hy; [left|right]; rewrite Hy; auto.
  - apply runs_on_host_false in E. rewrite (affinity_ok_docker _ _ _ E). split; [intros <-; split; [reflexivity|tauto]|intros [[= ->] _]; reflexivity].
Qed.
Lemma host_capable_iff q c : sq_container q = Some c -> forall x, (rm_support_host x = true /\ names_platform c x) <-> host_capable q x.
Proof. intros Hc x. unfold host_capable. rewrite Hc. split; [intros [? ?]; eauto|intros [? (c' & [= <-] & ?)]; auto]. Qed.

Definition call_req (k : call) : sched_req := match k with CPick q | CCommit q _ => q end.
Definition call_ok (before now : list sev) (k : call) : Prop :=
  match k with
  | CPick q => ~ host_step q /\ forall x, In x (sq_runners q) -> ~ sticky before q x
  | CCommit q r => answer before now q (Some r)
  end.
Lemma begin_ok st tr q : (forall j, lookup j (sd_jobs st) = affinity tr j) ->
  match begin_schedule st q with inl k => call_req k = q /\ forall now, call_ok tr now k | inr res => res = None /\ forall now, answer tr now q None end.
Proof.
  intros H. unfold begin_schedule.
  set (found := match lookup _ _ with Some last => _ | None => None end).
  assert (F : match found with Some r => first_such (sticky tr q) (sq_runners q) r | None => forall x, In x (sq_runners q) -> ~ sticky tr q x end).
  { unfold found. destruct (lookup (step_id_job_id (sq_step q)) (sd_jobs st)) as [a|] eqn:L.
    - assert (S := sticky_found st tr q a H L). destruct (find _ _) as [r|] eqn:Ef.
      + apply find_first in Ef. revert Ef. apply first_such_iff. intros x _. apply S.
      + rewrite find_none_iff in Ef. intros x Hx C. apply S in C. rewrite (Ef x Hx) in C. discriminate.
    - intros x _ [C _]. rewrite <- H, L in C. discriminate. }
  destruct found as [r|].
  - split; [reflexivity|]. intros now. apply answer_sticky, F.
  - destruct (runs_on_host (sq_container q)) eqn:E.
    + apply runs_on_host_spec in E. assert (E' := E). destruct E' as [rest Hc]. rewrite Hc. cbn [option_default].
      destruct (pick_host_runner (sq_runners q) ("host/" +++ rest)) as [r|] eqn:Ep.
      * apply pick_host_spec in Ep. split; [reflexivity|]. intros now. apply answer_host; auto. revert Ep. apply first_such_iff. intros x _. apply host_capable_iff, Hc.
      * rewrite pick_host_none in Ep. split; [reflexivity|]. intros now. apply answer_no_host; auto. intros x Hx C. apply (Ep x Hx). apply (host_capable_iff q _ Hc), C.
    + apply runs_on_host_false in E. split; [reflexivity|]. intros now. split; assumption.
Qed.
Lemma first_least_in {A} (P : A -> Prop) f l r : first_least P f l r -> In r l /\ P r.
Proof. intros (b & c & -> & H & _). split; [apply in_or_app; right; left; reflexivity|exact H]. Qed.
Lemma min_by_count_in counts l r : min_by_count counts l = Some r -> In r l.
Proof.
  assert (G : forall l b r, fold_left (fun best r => match best with
                           | None => Some r
                           | Some b => if (count_of counts r <? count_of counts b)%Z then Some r else Some b
                           end) l b = Some r -> b = Some r \/ In r l).
  { clear. induction l as [|a l IH]; intros b r E; cbn [fold_left] in E; [auto|]. apply IH in E as [E|E]; [|right; right; exact E].
    destruct b as [b|]; [|injection E as <-; right; left; reflexivity].
    destruct (_ <? _)%Z; injection E as <-; [right; left; reflexivity|left; reflexivity]. }
  intros E. apply G in E as [C|E]; [discriminate|exact E].
Qed.
Lemma pick_ok ops m tr before q : sched_run ops m tr -> sinv m tr -> call_ok before tr (CPick q) ->
  match pick_schedule (sm_st m) q with inl k => call_req k = q /\ (exists r, k = CCommit q r) /\ call_ok before tr k | inr res => res = None /\ forall now, answer before now q None end.
Proof.
  intros R I [Hh Hs]. unfold pick_schedule, pick_docker_runner. destruct (min_by_count _ _) as [r|] eqn:E.
  - split; [reflexivity|]. split; [eauto|]. cbn [call_ok]. assert (Hr := min_by_count_in _ _ _ E). apply filter_In in Hr as [Hr1 Hr2].
    apply answer_docker; auto.
    + intros N. assert (C := counts_load m tr I N).
      apply (min_by_count_spec (fun x => load tr (rm_id x)) _ C) in E. apply first_least_filter in E. exact E.
    + intros N. assert (C := counts_picks ops m tr R N).
      apply (min_by_count_spec (fun x => picks (rm_id x) tr) _ C) in E. apply first_least_filter in E. exact E.
  - split; [reflexivity|]. intros now. apply answer_no_docker; auto. intros x Hx.
    destruct (rm_support_docker x) eqn:Ex; [|reflexivity]. exfalso.
    destruct (filter rm_support_docker (sq_runners q)) as [|a l] eqn:Ef.
    + assert (In x []) by (rewrite <- Ef; apply filter_In; auto). contradiction.
    + revert E. unfold min_by_count. cbn [fold_left].
      assert (G : forall l b, fold_left (fun best r => match best with
                           | None => Some r
                           | Some b => if (count_of (sd_counts (sm_st m)) r <? count_of (sd_counts (sm_st m)) b)%Z then Some r else Some b
                           end) l (Some b) <> None).
      { clear. induction l as [|a l IH]; intros b; cbn [fold_left]; [discriminate|]. destruct (_ <? _)%Z; apply IH. }
      apply G.
Qed.

Definition pending_ok (m : smach) (tr : list sev) : Prop :=
  forall c k, lookup c (sm_calls m) = Some k ->
  exists before mid mid', tr = before ++ EvCalled c (call_req k) :: mid ++ mid' /\ quiet c (mid ++ mid') /\
    call_ok before (before ++ EvCalled c (call_req k) :: mid) k.

Lemma quiet_app c a b : quiet c (a ++ b) <-> quiet c a /\ quiet c b.
Proof.
  unfold quiet. split.
  - intros H. split; intros e He; (assert (Hi : In e (a ++ b)) by (apply in_or_app; auto)); exact (H e Hi).
  - intros [Ha Hb] e He. apply in_app_or in He as [He|He]; [exact (Ha e He)|exact (Hb e He)].
Qed.

(** Pending calls are not disturbed by events of others. *)
Lemma pending_more (calls : map_ nat call) tr o c k :
  (exists before mid mid', tr = before ++ EvCalled c (call_req k) :: mid ++ mid' /\ quiet c (mid ++ mid') /\ call_ok before (before ++ EvCalled c (call_req k) :: mid) k) ->
  quiet c o ->
  exists before mid mid', tr ++ o = before ++ EvCalled c (call_req k) :: mid ++ mid' /\ quiet c (mid ++ mid') /\ call_ok before (before ++ EvCalled c (call_req k) :: mid) k.
Proof.
  intros (b & mid & mid' & -> & Q & O) Qo. exists b, mid, (mid' ++ o). split; [rewrite <- app_assoc; cbn; rewrite <- !app_assoc; reflexivity|].
  split; [rewrite app_assoc; apply quiet_app; auto|exact O].
Qed.

Lemma pending_run ops m tr : sched_run ops m tr ->
  pending_ok m tr /\ forall pre c q res post, tr = pre ++ EvReturned c q res :: post -> explained pre c q res.
Proof.
  induction 1 as [|ops m tr op m' o R [IHp IHr] E]; [split; [intros c k C; discriminate|intros [|? ?] ? ? ? ? C; discriminate]|].
  assert (I := sinv_run _ _ _ R).
  assert (Snoc : forall (tr o : list sev), (forall pre c q res post, tr = pre ++ EvReturned c q res :: post -> explained pre c q res) ->
     (forall pre c q res post, o = pre ++ EvReturned c q res :: post -> explained (tr ++ pre) c q res) ->
     forall pre c q res post, tr ++ o = pre ++ EvReturned c q res :: post -> explained pre c q res).
  { clear. intros tr o H1 H2 pre c q res post Eq. apply app_eq_app in Eq as (l & [[-> Eq]|[-> Eq]]).
    - destruct l as [|e l].
      + cbn in Eq. specialize (H2 [] c q res post). cbn in H2. rewrite !app_nil_r in H2. apply H2. symmetry; exact Eq.
      + injection Eq as <- ->. apply (H1 pre c q res l). reflexivity.
    - apply (H2 l c q res post). exact Eq. }
  destruct op as [c q|c|id|id]; cbn [smach_step] in E.
  - destruct (contains_key c (sm_calls m)) eqn:Ec; [discriminate|].
    assert (B := begin_ok (sm_st m) tr q (si_jobs _ _ I)). destruct (begin_schedule (sm_st m) q) as [k|res]; cbn [continue_call] in E; injection E as <- <-.
    + destruct B as [Hq B]. split.
      * intros c' k' L. cbn [sm_calls] in L. rewrite lookup_insert_b in L. destruct (eqb c' c) eqn:Ecc.
        -- apply (proj1 (eqb_true _ _)) in Ecc. subst c'. injection L as <-. exists tr, [], []. rewrite Hq. split; [reflexivity|].
           split; [intros e []|apply B].
        -- apply (proj1 (eqb_false _ _)) in Ecc. apply pending_more; [exact (sm_calls m)|apply IHp, L|]. intros e [<-|[]]. congruence.
      * apply Snoc; [exact IHr|]. intros [|? [|? ?]] ? ? ? ? C; discriminate.
    + destruct B as [-> B]. split.
      * intros c' k' L. cbn [sm_calls] in L. rewrite lookup_remove_b in L. destruct (eqb c' c) eqn:Ecc; [discriminate|].
        apply (proj1 (eqb_false _ _)) in Ecc. apply pending_more; [exact (sm_calls m)|apply IHp, L|]. intros e [<-|[<-|[]]]; congruence.
      * apply Snoc; [exact IHr|]. intros [|? [|? [|? ?]]] ? ? ? ? C; try discriminate. injection C as <- <- <- <- <-.
        exists tr, [], []. split; [reflexivity|]. split; [intros e []|]. split; [apply B|exact Logic.I].
  - destruct (lookup c (sm_calls m)) as [k|] eqn:L; [|discriminate].
    destruct (IHp c k L) as (before & mid & mid' & Etr & Q & O).
    assert (Other : forall o calls', quiet c o \/ True -> (forall c' k', c' <> c -> lookup c' calls' = Some k' -> lookup c' (sm_calls m) = Some k') ->
       (forall c', c' <> c -> quiet c' o) -> forall c' k', c' <> c -> lookup c' calls' = Some k' ->
       exists before mid mid', tr ++ o = before ++ EvCalled c' (call_req k') :: mid ++ mid' /\ quiet c' (mid ++ mid') /\ call_ok before (before ++ EvCalled c' (call_req k') :: mid) k').
    { intros o' calls' _ Hsub Hq c' k' Hne L'. apply pending_more; [exact calls'| |apply Hq, Hne]. apply IHp. eauto. }
    destruct k as [q|q r].
    + injection E as E. cbn [call_req] in *.
      assert (Now : call_ok before tr (CPick q)) by exact O.
      assert (B := pick_ok ops m tr before q R I Now). destruct (pick_schedule (sm_st m) q) as [k|res]; cbn [continue_call] in E; injection E as <- <-.
      * destruct B as (Hq & (r & ->) & B). split; [|rewrite app_nil_r; exact IHr].
        intros c' k' L'. cbn [sm_calls] in L'. destruct (eqb c' c) eqn:Ecc.
        -- apply (proj1 (eqb_true _ _)) in Ecc. subst c'. rewrite lookup_insert_eq in L'. injection L' as <-.
           exists before, (mid ++ mid'), []. rewrite !app_nil_r. cbn [call_req]. rewrite <- Etr. auto.
        -- apply (proj1 (eqb_false _ _)) in Ecc. eapply Other; [right; exact Logic.I| |intros c1 _ e []|exact Ecc|exact L'].
           intros c1 k1 Hne L1. rewrite lookup_insert_ne in L1 by exact Hne. exact L1.
      * destruct B as [-> B]. split.
        -- intros c' k' L'. cbn [sm_calls] in L'. rewrite lookup_remove_b in L'. destruct (eqb c' c) eqn:Ecc; [discriminate|].
           apply (proj1 (eqb_false _ _)) in Ecc. apply pending_more; [exact (sm_calls m)|apply IHp, L'|]. intros e [<-|[]]. congruence.
        -- apply Snoc; [exact IHr|]. intros [|? [|? ?]] ? ? ? ? C; try discriminate. injection C as <- <- <- <-. rewrite app_nil_r.
           exists before, mid, mid'. split; [exact Etr|]. split; [exact Q|]. split; [apply B|exact Logic.I].
    + injection E as <- <-. cbn [call_req call_ok] in *. split.
      * intros c' k' L'. cbn [sm_calls] in L'. rewrite lookup_remove_b in L'. destruct (eqb c' c) eqn:Ecc; [discriminate|].
        apply (proj1 (eqb_false _ _)) in Ecc. apply pending_more; [exact (sm_calls m)|apply IHp, L'|]. intros e [<-|[<-|[]]]; [exact Logic.I|congruence].
      * apply Snoc; [exact IHr|]. intros [|? [|? [|? ?]]] ? ? ? ? C; try discriminate. injection C as <- <- <- <- <-.
        exists before, mid, (mid' ++ [EvScheduled (sq_step q) (runs_on_host (sq_container q)) (rm_id r)]).
        split; [rewrite Etr, <- app_assoc; cbn; rewrite <- !app_assoc; reflexivity|].
        split; [rewrite app_assoc; apply quiet_app; split; [exact Q|]; intros e [<-|[]]; exact Logic.I|]. split; [exact O|eauto].
  - injection E as <- <-. split.
    + intros c k L. apply pending_more; [exact (sm_calls m)|apply IHp, L|]. intros e [<-|[]]. exact Logic.I.
    + apply Snoc; [exact IHr|]. intros [|? [|? ?]] ? ? ? ? C; discriminate.
  - injection E as <- <-. split.
    + intros c k L. apply pending_more; [exact (sm_calls m)|apply IHp, L|]. intros e [<-|[]]. exact Logic.I.
    + apply Snoc; [exact IHr|]. intros [|? [|? ?]] ? ? ? ? C; discriminate.
Qed.

(** ** Provenance *)
Lemma scheduled_returned ops m tr : sched_run ops m tr -> forall pre id h rid post, tr = pre ++ EvScheduled id h rid :: post ->
  exists c q r post', post = EvReturned c q (Some r) :: post' /\ id = sq_step q /\ h = runs_on_host (sq_container q) /\ rid = rm_id r.
Proof.
  induction 1 as [|ops m tr op m' o R IH E]; [intros [|? ?] ? ? ? ? C; discriminate|].
  assert (Snoc : (forall pre id h rid post, o = pre ++ EvScheduled id h rid :: post ->
      exists c q r post', post = EvReturned c q (Some r) :: post' /\ id = sq_step q /\ h = runs_on_host (sq_container q) /\ rid = rm_id r) ->
     forall pre id h rid post, tr ++ o = pre ++ EvScheduled id h rid :: post ->
      exists c q r post', post = EvReturned c q (Some r) :: post' /\ id = sq_step q /\ h = runs_on_host (sq_container q) /\ rid = rm_id r).
  { intros H pre id h rid post Eq. apply app_eq_app in Eq as (l & [[-> Eq]|[-> Eq]]).
    - destruct l as [|e l].
      + cbn in Eq. apply (H [] id h rid post). symmetry; exact Eq.
      + injection Eq as <- ->. destruct (IH pre id h rid l eq_refl) as (c & q & r & p & -> & F). exists c, q, r, (p ++ o). split; [reflexivity|exact F].
    - apply (H l id h rid post). exact Eq. }
  assert (Cont : forall c q k m' o, continue_call m c q k = (m', o) -> forall pre id h rid post, o <> pre ++ EvScheduled id h rid :: post).
  { clear. intros c q [k|res] m' o Ek; injection Ek as <- <-; intros [|? [|? ?]] ? ? ? ? C; discriminate. }
  destruct op as [c q|c|id|id]; cbn [smach_step] in E.
  - destruct (contains_key c (sm_calls m)); [discriminate|]. destruct (continue_call m c q _) as [m1 o1] eqn:Ek. injection E as <- <-.
    apply Snoc. intros [|e pre] id h rid post C; [discriminate|]. injection C as <- C. exfalso. eapply Cont; eassumption.
  - destruct (lookup c (sm_calls m)) as [[q|q r]|]; [| |discriminate].
    + injection E as E. apply Snoc. intros. exfalso. eapply Cont; eassumption.
    + injection E as <- <-. apply Snoc. intros [|? [|? [|? ?]]] id h rid post C; try discriminate. injection C as <- <- <- <-. exists c, q, r, []. auto.
  - injection E as <- <-. apply Snoc. intros [|? [|? ?]] ? ? ? ? C; discriminate.
  - injection E as <- <-. apply Snoc. intros [|? [|? ?]] ? ? ? ? C; discriminate.
Qed.

Lemma affinity_origin tr j a : affinity tr j = Some a ->
  exists pre id post, tr = pre ++ EvScheduled id false a :: post /\ step_id_job_id id = j /\ ~ In (EvJobDone j) post.
Proof.
  revert a. induction tr as [|e tr IH] using rev_ind; [discriminate|]. intros a. rewrite affinity_snoc.
  assert (Old : affinity tr j = Some a -> e <> EvJobDone j ->
     exists pre id post, tr ++ [e] = pre ++ EvScheduled id false a :: post /\ step_id_job_id id = j /\ ~ In (EvJobDone j) post).
  { intros H Hne. destruct (IH a H) as (pre & id & post & -> & Hj & Hn). exists pre, id, (post ++ [e]). split; [rewrite <- app_assoc; reflexivity|].
    split; [exact Hj|]. intros C. apply in_app_or in C as [C|[C|[]]]; [tauto|congruence]. }
  destruct e as [c q|id h rid|c q r|id|id]; cbn [affinity_after]; try (intros H; apply Old; [exact H|discriminate]).
  - destruct h; [intros H; apply Old; [exact H|discriminate]|]. destruct (eqb (step_id_job_id id) j) eqn:E.
    + apply (proj1 (eqb_true _ _)) in E. intros [= ->]. exists tr, id, []. split; [reflexivity|]. split; [exact E|intros []].
    + intros H; apply Old; [exact H|discriminate].
  - destruct (eqb id j) eqn:E; [discriminate|]. apply (proj1 (eqb_false _ _)) in E. intros H; apply Old; [exact H|congruence].
Qed.
Lemma outstanding_origin tr id rid : In (id, rid) (outstanding tr) -> exists pre h post, tr = pre ++ EvScheduled id h rid :: post /\ ~ In (EvStepDone id) post.
Proof.
  revert rid. induction tr as [|e tr IH] using rev_ind; [intros rid []|]. intros rid. rewrite outstanding_snoc.
  assert (Old : In (id, rid) (outstanding tr) -> e <> EvStepDone id -> exists pre h post, tr ++ [e] = pre ++ EvScheduled id h rid :: post /\ ~ In (EvStepDone id) post).
  { intros H Hne. destruct (IH rid H) as (pre & h & post & -> & Hn). exists pre, h, (post ++ [e]). split; [rewrite <- app_assoc; reflexivity|].
    intros C. apply in_app_or in C as [C|[C|[]]]; [tauto|congruence]. }
  destruct e as [c q|id' h rid'|c q r|id'|id']; cbn [outstanding_after]; try (intros H; apply Old; [exact H|discriminate]).
  - intros [[= -> ->]|H]; [exists tr, h, []; split; [reflexivity|intros []]|]. apply filter_In in H as [H _]. apply Old; [exact H|discriminate].
  - intros H. apply filter_In in H as [H1 H2]. apply negb_true_iff in H2. apply (proj1 (eqb_false _ _)) in H2. cbn [fst] in H2. apply Old; [exact H1|congruence].
Qed.
Lemma all_completed_empty tr : all_completed tr -> outstanding tr = [] /\ forall j, affinity tr j = None.
Proof.
  intros H. split.
  - destruct (outstanding tr) as [|[id rid] l] eqn:E; [reflexivity|]. exfalso.
    destruct (outstanding_origin tr id rid) as (pre & h & post & Et & Hn); [rewrite E; left; reflexivity|]. apply Hn. eapply H, Et.
  - intros j. destruct (affinity tr j) as [a|] eqn:E; [|reflexivity]. exfalso.
    apply affinity_origin in E as (pre & id & post & Et & <- & Hn). apply Hn. eapply H, Et.
Qed.
Lemma lookup_empty {K V} `{EqDec K} (m : map_ K V) : (forall k, lookup k m = None) -> m = [].
Proof. destruct m as [|[k v] m]; [reflexivity|]. intros H0. specialize (H0 k). rewrite lookup_cons_b, eqb_refl in H0. discriminate. Qed.

(** A runner id that a docker step was scheduled to is the id of an offered runner that supports docker. *)
Lemma first_such_in {A} (P : A -> Prop) l r : first_such P l r -> In r l /\ P r.
Proof. intros (b & c & -> & H & _). split; [apply in_or_app; right; left; reflexivity|exact H]. Qed.
Lemma docker_origin ops m tr : sched_run ops m tr -> forall n pre c q r post, length pre < n -> tr = pre ++ EvReturned c q (Some r) :: post -> ~ host_step q ->
  exists c' q' r', In (EvCalled c' q') pre /\ In r' (sq_runners q') /\ rm_id r' = rm_id r /\ rm_support_docker r' = true.
Proof.
  intros R. destruct (pending_run _ _ _ R) as [_ X]. induction n as [|n IH]; intros pre c q r post Hl Et Hh; [lia|].
  destruct (X _ _ _ _ _ Et) as (before & mid & mid' & -> & Q & A & _). inv A.
  - match goal with F : first_such _ _ _ |- _ => apply first_such_in in F as [Hin [Haff _]] end.
    apply affinity_origin in Haff as (p1 & id & p2 & -> & Hj & _).
    destruct (scheduled_returned _ _ _ R p1 id false (rm_id r) ((p2 ++ EvCalled c q :: mid ++ mid') ++ EvReturned c q (Some r) :: post)) as (c1 & q1 & r1 & p3 & Ep & -> & Hf & Hr).
    { rewrite <- !app_assoc. cbn. rewrite <- !app_assoc. reflexivity. }
    assert (Et' : (p1 ++ EvScheduled (sq_step q1) false (rm_id r) :: p2) ++ EvCalled c q :: mid ++ mid' = p1 ++ EvScheduled (sq_step q1) false (rm_id r) :: (p2 ++ EvCalled c q :: mid ++ mid'))
      by (rewrite <- app_assoc; reflexivity).
    destruct (IH (p1 ++ [EvScheduled (sq_step q1) false (rm_id r)]) c1 q1 r1 p3) as (c' & q' & r' & H1 & H2 & H3 & H4).
    + rewrite !app_length in *. cbn in Hl. rewrite ?app_length in Hl. cbn. lia.
    + rewrite Et', <- !app_assoc. cbn. f_equal. f_equal. exact Ep.
    + apply runs_on_host_false. congruence.
    + exists c', q', r'. split; [|split; [exact H2|split; [congruence|exact H4]]].
      rewrite Et'. apply in_app_or in H1 as [H1|[H1|[]]]; [apply in_or_app; left; exact H1|discriminate].
  - contradiction.
  - exists c, q, r. split; [apply in_or_app; right; left; reflexivity|]. auto.
Qed.
