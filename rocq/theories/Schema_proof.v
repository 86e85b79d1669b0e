(** Proofs for C124. *)
From Verif Require Import Base Types Plugins_model Exec_model Sched_model Config_model Serde_model Serde_spec Serde_proof Json_proof Yaml_spec Yaml_proof Schema_spec.

Lemma put_f64_value f : put_f64 f = number_value f.
Proof. destruct f; reflexivity. Qed.

(** ** Repeated keys *)
Definition inserts {A} (es : list (string * A)) (h : map_ string A) : map_ string A := fold_left (fun h e => insert (fst e) (snd e) h) es h.
Lemma distinct_nodup l : NoDup (distinct l).
Proof. induction l as [|k l IH]; cbn [distinct]; [constructor|]. constructor; [|apply NoDup_filter, IH]. rewrite filter_In. destruct (string_dec k k); [intros [_ H]; discriminate|congruence]. Qed.
Lemma distinct_in l k : In k (distinct l) <-> In k l.
Proof.
  induction l as [|x l IH]; cbn [distinct In]; [tauto|]. rewrite filter_In, IH. destruct (string_dec k x) as [->|N]; [intuition discriminate|]. intuition congruence.
Qed.
Lemma distinct_snoc l k : distinct (l ++ [k]) = if in_dec string_dec k l then distinct l else distinct l ++ [k].
Proof.
  induction l as [|x l IH]; [reflexivity|]. cbn [distinct app]. rewrite IH. destruct (in_dec string_dec k l) as [I|I], (in_dec string_dec k (x :: l)) as [J|J]; cbn [In] in J; try tauto.
  - destruct J as [->|J]; [|contradiction]. rewrite filter_app. cbn [filter]. destruct (string_dec k k); [|congruence]. rewrite app_nil_r. reflexivity.
  - rewrite filter_app. cbn [filter]. destruct (string_dec k x) as [->|N]; [tauto|]. reflexivity.
Qed.
Lemma insert_keys {A} k (x : A) h : keys (insert k x h) = if in_dec string_dec k (keys h) then keys h else keys h ++ [k].
Proof. destruct (in_dec string_dec k (keys h)); [apply keys_insert_existing|apply keys_insert_new]; assumption. Qed.
Lemma snoc_ind {A} (P : list A -> Prop) : P [] -> (forall l x, P l -> P (l ++ [x])) -> forall l, P l.
Proof. intros H0 H1 l. rewrite <- (rev_involutive l). induction (rev l) as [|x r IH]; [exact H0|]. cbn [rev]. apply H1, IH. Qed.
Lemma in_insert {A} (k : string) (x : A) h k' y : NoDup (keys h) -> In (k', y) (insert k x h) <-> (k' = k /\ y = x) \/ (k' <> k /\ In (k', y) h).
Proof.
  intros N. split.
  - intros I. apply In_lookup in I; [|apply NoDup_keys_insert, N].
    destruct (string_dec k' k) as [->|D]; [rewrite lookup_insert_eq in I; injection I as <-; auto|]. rewrite lookup_insert_ne in I by congruence. right. split; [exact D|]. apply lookup_In, I.
  - intros [[-> ->]|[D I]]; apply lookup_In; [apply lookup_insert_eq|]. rewrite lookup_insert_ne by congruence. apply In_lookup; assumption.
Qed.
Lemma inserts_last {A} (es : list (string * A)) : last_wins es (inserts es []).
Proof.
  induction es as [|es [k x] IH] using snoc_ind; [split; [reflexivity|]; cbn; intros; split; [contradiction|intros (a & b & E & _); destruct a; discriminate]|].
  unfold inserts in *. rewrite fold_left_app. cbn [fold_left fst snd]. destruct IH as [IK IV]. assert (N : NoDup (keys (fold_left (fun h e => insert (fst e) (snd e) h) es []))) by (apply fold_insert_NoDup; constructor).
  split.
  - match goal with |- map fst (insert k x ?h) = _ => change (map fst (insert k x h)) with (keys (insert k x h)) end. rewrite insert_keys, map_app. cbn [map fst]. rewrite distinct_snoc. unfold keys. rewrite IK.
    destruct (in_dec string_dec k (distinct (map fst es))) as [I|I], (in_dec string_dec k (map fst es)) as [J|J]; try reflexivity; exfalso; rewrite distinct_in in I; tauto.
  - intros k' y. rewrite in_insert by exact N. rewrite IV. split.
    + intros [[-> ->]|[D (a & b & -> & H)]]; [exists es, []; split; [reflexivity|intros []]|]. exists a, (b ++ [(k, x)]). split; [rewrite <- app_assoc; reflexivity|].
      rewrite map_app, in_app_iff. cbn. intuition congruence.
    + intros (a & b & E & H). destruct b as [|b e _] using snoc_ind.
      * apply app_inj_tail in E as [_ E]. injection E as -> ->. auto.
      * change ((k', y) :: b ++ [e]) with (((k', y) :: b) ++ [e]) in E. rewrite app_assoc in E. apply app_inj_tail in E as [-> <-]. right. rewrite map_app, in_app_iff in H. cbn in H. split; [intuition congruence|].
        exists a, b. split; [reflexivity|tauto].
Qed.
Lemma last_wins_unique {A} (es m m' : list (string * A)) : last_wins es m -> last_wins es m' -> m = m'.
Proof.
  intros [K V] [K' V']. assert (N : NoDup (map fst m)) by (rewrite K; apply distinct_nodup).
  assert (E : map fst m = map fst m') by congruence. assert (W : forall e, In e m -> In e m') by (intros [k x] I; apply V', V, I). clear K V K' V'.
  revert m' E W. induction m as [|[k x] m IH]; intros [|[k' x'] m'] E W; cbn in E; try discriminate; [reflexivity|]. injection E as <- E. cbn in N. apply NoDup_cons_iff in N as [Nk N].
  destruct (W (k, x) (or_introl eq_refl)) as [F|F]; [|destruct Nk; rewrite E; apply (in_map fst) in F; exact F]. injection F as ->. f_equal. apply IH; [exact N|exact E|].
  intros [l y] I. destruct (W (l, y) (or_intror I)) as [F|F]; [|exact F]. injection F as -> ->. destruct Nk. apply (in_map fst) in I. exact I.
Qed.
Lemma inserts_map {A B} (f : A -> B) es : forall h, map (fun e => (fst e, f (snd e))) (inserts es h) = inserts (map (fun e => (fst e, f (snd e))) es) (map (fun e => (fst e, f (snd e))) h).
Proof.
  induction es as [|[k x] es IH]; intros h; [reflexivity|]. unfold inserts in *. cbn [fold_left map fst snd]. rewrite IH. f_equal.
  induction h as [|[k' y] h IHh]; [reflexivity|]. cbn [insert map fst snd]. destruct (eq_dec k k'); [reflexivity|]. cbn [map fst snd]. rewrite IHh. reflexivity.
Qed.

Section Fits.
Variable show_time : time -> string.
Variable read_time_text : string -> option time.
Variable put_payload : payload -> value.
Variable read_payload : value -> option payload.
Notation fits := (fits show_time read_time_text put_payload read_payload).
Notation tuple_fits := (tuple_fits show_time read_time_text put_payload read_payload).
Notation fields_fit := (fields_fit show_time read_time_text put_payload read_payload).

(** A reader and a writer do what a schema says. *)
Definition ok {A} (s : schema) (d : value -> option A) (e : A -> value) : Prop := forall v c, fits s v c <-> exists a, d v = Some a /\ e a = c.

Lemma ok_string : ok Text read_string VStr.
Proof. intros v c. split; [intros H; inv H; eexists; split; reflexivity|]. intros (a & E & <-). destruct v; inv E. constructor. Qed.
Lemma ok_bool : ok Bool read_bool VBool.
Proof. intros v c. split; [intros H; inv H; eexists; split; reflexivity|]. intros (a & E & <-). destruct v; inv E. constructor. Qed.
Lemma ok_int lo hi : ok (Int lo hi) (read_int lo hi) VInt.
Proof.
  intros v c. split.
  - intros H. inv H. exists z. split; [|reflexivity]. cbn. destruct (Z.leb_spec lo z), (Z.leb_spec z hi); try lia. reflexivity.
  - intros (a & E & <-). destruct v; try discriminate. cbn in E. destruct (Z.leb_spec lo z), (Z.leb_spec z hi); try discriminate. injection E as <-. constructor. lia.
Qed.
Lemma ok_N hi : ok (Int 0 hi) (fun v => let! z := read_int 0 hi v in Some (Z.to_N z)) put_N.
Proof.
  intros v c. rewrite (ok_int 0 hi v c). split.
  - intros (z & E & <-). rewrite E. exists (Z.to_N z). split; [reflexivity|]. unfold put_N. f_equal. destruct v; try discriminate. cbn in E. destruct (Z.leb_spec 0 z0), (Z.leb_spec z0 hi); try discriminate. injection E as <-. lia.
  - intros (n & E & <-). apply bind_iff in E as (z & E & F). exists z. split; [exact E|]. destruct v; try discriminate. cbn [read_int] in E. destruct (Z.leb_spec 0 z0), (Z.leb_spec z0 hi); try discriminate. injection E as <-. injection F as <-. unfold put_N. f_equal. lia.
Qed.
Lemma ok_time : ok Time (read_time read_time_text) (put_time show_time).
Proof.
  intros v c. split.
  - intros H. inv H. eexists. split; [|reflexivity]. cbn. assumption.
  - intros (a & E & <-). apply bind_iff in E as (t & E & F). destruct v; inv E. constructor. exact F.
Qed.
Lemma ok_payload : ok Payload read_payload put_payload.
Proof. intros v c. split; [intros H; inv H; eauto|]. intros (a & E & <-). constructor. exact E. Qed.
Lemma ok_env : ok Env read_env put_env.
Proof.
  intros v c. split.
  - intros H. inv H; (eexists; split; [cbn; reflexivity|]); cbn [put_env]; rewrite ?put_f64_value; reflexivity.
  - intros (a & E & <-). destruct v; try discriminate; cbn in E; injection E as <-; cbn [put_env]; rewrite ?put_f64_value; constructor.
Qed.
Lemma ok_option {A} s (d : value -> option A) e : ok s d e -> ok (Maybe s) (read_option d) (put_option e).
Proof.
  intros H v c. split.
  - intros F. inv F; [exists None; split; reflexivity|]. match goal with X : fits s v c |- _ => apply H in X as (a & Ea & <-) end. exists (Some a). split; [|reflexivity].
    destruct v; try congruence; cbn; rewrite Ea; reflexivity.
  - intros (o & E & <-). destruct v; try (apply bind_iff in E as (a & Ea & Eo); injection Eo as <-; constructor; [discriminate|]; apply H; eauto).
    injection E as <-. constructor.
Qed.
Lemma ok_seq {A} s (d : value -> option A) e : ok s d e -> ok (List s) (read_seq d) (put_seq e).
Proof.
  intros H v c. split.
  - intros F. inv F. match goal with X : Forall2 _ l l' |- _ => rename X into F end. assert (X : exists as_, map_all d l = Some as_ /\ map e as_ = l').
    { induction F as [|x y l l' Hx Hl IH]; [exists []; split; reflexivity|]. destruct IH as (r & Er & <-). apply H in Hx as (a & Ea & <-). exists (a :: r). cbn. rewrite Ea, Er. split; reflexivity. }
    destruct X as (as_ & E & <-). exists as_. split; [exact E|reflexivity].
  - intros (l & E & <-). destruct v as [| | | | |vs|]; try discriminate. cbn in E. apply map_all_iff in E. constructor. induction E; [constructor|]. cbn [map]. constructor; [apply H; eauto|assumption].
Qed.
Lemma ok_strings : ok (List Text) (read_seq read_string) (put_seq VStr).
Proof. apply ok_seq, ok_string. Qed.
Lemma ok_map {A} s (d : value -> option A) e : ok s d e -> ok (Map s) (read_map d) (put_map e).
Proof.
  intros H v c. split.
  - intros F. inv F. match goal with X : Forall2 _ m es |- _ => rename X into F end. match goal with X : last_wins es m' |- _ => rename X into L end.
    assert (X : exists as_, map_all (read_entry d) m = Some as_ /\ map (fun x => (fst x, e (snd x))) as_ = es).
    { clear L. induction F as [|[k w] [k' y] l l' [Hk Hx] Hl IH]; [exists []; split; reflexivity|]. destruct IH as (r & Er & <-). cbn [fst snd] in Hk, Hx. subst k. apply H in Hx as (a & Ea & <-). exists ((k', a) :: r).
      cbn [map_all map fst snd]. unfold read_entry at 1. cbn [fst snd read_string bind_opt]. rewrite Ea. cbn [bind_opt]. rewrite Er. split; reflexivity. }
    destruct X as (as_ & E & <-). cbn [read_map]. rewrite E. cbn [bind_opt]. eexists. split; [reflexivity|]. unfold put_map. f_equal.
    rewrite (last_wins_unique _ _ _ L (inserts_last _)). change (@nil (string * value)) with (map (fun x : string * A => (fst x, e (snd x))) []). rewrite <- inserts_map, map_map. reflexivity.
  - intros (h & E & <-). destruct v as [| | | | | |m]; try discriminate. cbn in E. apply bind_iff in E as (es & E & F). injection F as <-. apply map_all_iff in E.
    change (fold_left (fun h e => insert (fst e) (snd e) h) es []) with (inserts es []). unfold put_map. rewrite <- (map_map (fun x => (fst x, e (snd x))) (fun x => (VStr (fst x), snd x))), inserts_map.
    apply (fits_map _ _ _ _ _ _ (map (fun x => (fst x, e (snd x))) es)); [|apply inserts_last]. induction E as [|[k w] [k' a] l l' Hx Hl IH]; [constructor|]. cbn [map]. constructor; [|exact IH].
    apply bind_iff in Hx as (t & Et & Hx). apply bind_iff in Hx as (b & Eb & Hx). injection Hx as <- <-. destruct k; inv Et. cbn [fst snd]. split; [reflexivity|]. apply H. eauto.
Qed.

(** ** Records *)
Lemma record_iff fs v c : NoDup (map fst fs) -> fits (Record fs) v c <-> exists vs cs, slots (map fst fs) v = Some vs /\ c = VMap cs /\ fields_fit fs vs cs.
Proof.
  intros N. split.
  - intros H. inv H. exists vs, cs. split; [apply slots_iff; assumption|]. auto.
  - intros (vs & cs & E & -> & F). apply (fits_record _ _ _ _ _ _ vs); [apply slots_iff; assumption|exact F].
Qed.
Definition field (s : schema) (o : option value) (c : value) : Prop := (exists v, o = Some v /\ fits s v c) \/ (o = None /\ (exists s', s = Maybe s') /\ c = VNull).
Lemma fields_cons_iff f s fs vs cs : fields_fit ((f, s) :: fs) vs cs <-> exists o vs' c cs', vs = o :: vs' /\ cs = (VStr f, c) :: cs' /\ field s o c /\ fields_fit fs vs' cs'.
Proof.
  split.
  - intros H. inv H; (do 4 eexists; split; [reflexivity|]; split; [reflexivity|]; split; [|assumption]); [left; eauto|right; eauto].
  - intros (o & vs' & c & cs' & -> & -> & [(v & -> & H)|(-> & (s' & ->) & ->)] & F); constructor; assumption.
Qed.
Lemma fields_nil_iff vs cs : fields_fit [] vs cs <-> vs = [] /\ cs = [].
Proof. split; [intros H; inv H; auto|intros [-> ->]; constructor]. Qed.
Lemma field_req {A} s (d : value -> option A) e o c : ok s d e -> match s with Maybe _ => False | _ => True end -> field s o c <-> exists a, req d o = Some a /\ e a = c.
Proof.
  intros H M. split.
  - intros [(v & -> & F)|(_ & (s' & ->) & _)]; [|contradiction]. apply H, F.
  - intros (a & E & <-). destruct o as [v|]; [|discriminate]. left. exists v. split; [reflexivity|]. apply H. eauto.
Qed.
Lemma field_opt {A} s (d : value -> option A) e o c : ok s d e -> field (Maybe s) o c <-> exists a, opt d o = Some a /\ put_option e a = c.
Proof.
  intros H. split.
  - intros [(v & -> & F)|(-> & _ & ->)]; [apply (ok_option _ _ _ H), F|]. exists None. split; reflexivity.
  - intros (a & E & <-). destruct o as [v|]; [left; exists v; split; [reflexivity|]; apply (ok_option _ _ _ H); eauto|]. injection E as <-. right. eauto.
Qed.

(** ** Choices *)
Lemma ok_choice {A} (vs : list (string * option schema)) (variants : list (string * variant A)) e : NoDup (map fst vs) ->
  Forall2 (fun x y => fst x = fst y /\ match snd x, snd y with
                                       | None, VtUnit a => e a = VStr (fst x)
                                       | Some s, VtNew d => exists i, ok s d i /\ forall w a, d w = Some a -> e a = put_variant (fst x) (i a)
                                       | _, _ => False end) vs variants ->
  ok (Choice vs) (read_enum variants) e.
Proof.
  intros N H.
  assert (X : forall t o, In (t, o) vs -> exists y, lookup t variants = Some y /\ match o, y with None, VtUnit a => e a = VStr t
                | Some s, VtNew d => exists i, ok s d i /\ forall w a, d w = Some a -> e a = put_variant t (i a) | _, _ => False end).
  { clear -N H. induction H as [|[t x] [t' y] l l' [E1 E2] Hl IH]; intros t0 o I; [destruct I|]. cbn [fst snd] in *. subst t'. cbn [map] in N. apply NoDup_cons_iff in N as [Nt N]. cbn [lookup]. destruct I as [I|I].
    - injection I as <- <-. destruct (eq_dec t t); [|congruence]. eauto.
    - destruct (eq_dec t0 t) as [E|E]; [|apply IH; assumption]. subst. destruct Nt. apply (in_map fst) in I. exact I. }
  assert (Y : forall t y, lookup t variants = Some y -> exists o, In (t, o) vs).
  { clear -H. induction H as [|[t x] [t' y] l l' [E1 E2] Hl IH]; intros t0 y0 L; [discriminate|]. cbn [fst snd] in *. subst t'. cbn [lookup] in L. destruct (eq_dec t0 t) as [E|E].
    - subst. exists x. now left.
    - destruct (IH _ _ L) as (o & I). exists o. now right. }
  intros v c. split.
  - intros F. inv F.
    + match goal with I : In _ vs |- _ => destruct (X _ _ I) as ([a|d] & L & M) end; [|contradiction]. exists a. cbn. rewrite L. auto.
    + match goal with I : In _ vs |- _ => destruct (X _ _ I) as ([a|d] & L & M) end; [|contradiction]. exists a. cbn. rewrite L. auto.
    + match goal with I : In _ vs |- _ => destruct (X _ _ I) as ([a|d] & L & M) end; [contradiction|]. destruct M as (i & O & M). apply (proj1 (O _ _)) in H2. destruct H2 as (a & Ea & <-).
      exists a. cbn. rewrite L. split; [exact Ea|]. apply (M _ _ Ea).
  - intros (a & E & <-). destruct v as [| | | |t| |[|[[| | | |t| |] w] [|]]]; try discriminate; cbn in E; destruct (lookup t variants) as [[a'|d]|] eqn:L; try discriminate; destruct (Y _ _ L) as ([s|] & I); destruct (X _ _ I) as (y & L' & M);
      rewrite L in L'; injection L' as <-; try contradiction.
    + injection E as ->. rewrite M. constructor. exact I.
    + destruct w; try discriminate. injection E as ->. rewrite M. constructor. exact I.
    + destruct M as (i & O & M). rewrite (M _ _ E). apply (fits_with _ _ _ _ _ _ s); [exact I|]. apply O. eauto.
Qed.

(** ** The types *)
Ltac nodup := cbn [map fst]; repeat (apply NoDup_cons; [cbn [In]; intuition discriminate|]); apply NoDup_nil.
Create HintDb okdb.
Hint Resolve ok_string ok_bool ok_int ok_N ok_time ok_payload ok_env ok_strings ok_map ok_seq : okdb.
Ltac the_ok s := constr:(ltac:(solve [eauto 4 with okdb]) : ok s _ _).
Ltac field_in H := match type of H with field (Maybe ?s) _ _ => let K := the_ok s in apply (field_opt _ _ _ _ _ K) in H | field ?s _ _ => let K := the_ok s in apply (field_req _ _ _ _ _ K Logic.I) in H end.
Ltac field_out := match goal with |- field (Maybe ?s) _ _ => let K := the_ok s in apply (field_opt _ _ _ _ _ K) | |- field ?s _ _ => let K := the_ok s in apply (field_req _ _ _ _ _ K Logic.I) end.
(** [rd]: the reader, to unfold. *)
Ltac fields_in F := repeat (apply fields_cons_iff in F; destruct F as (? & ? & ? & ? & -> & -> & ?F & F)); apply fields_nil_iff in F; destruct F as [-> ->].
Ltac slots_split E := let L := fresh in pose proof (slots_length _ _ _ E) as L; cbn [length map fst] in L;
  repeat match type of L with length ?vs = S _ => destruct vs as [|? vs]; [discriminate|cbn [length] in L; apply eq_add_S in L] | length ?vs = 0 => destruct vs; [clear L|discriminate] end.
Ltac fields_out := repeat (apply fields_cons_iff; eexists _, _, _, _; split; [reflexivity|]; split; [reflexivity|]; split; [field_out; eexists; split; [eassumption|reflexivity]|]); apply fields_nil_iff; split; reflexivity.
Ltac record rd :=
  let v := fresh "v" in let c := fresh "c" in intros v c; match goal with |- context [Schema_spec.fits _ _ _ _ ?s v c] => let s' := eval hnf in s in change s with s' end; rewrite record_iff by nodup; cbn [map fst]; split;
  [ let vs := fresh in let cs := fresh in let E := fresh in let F := fresh in intros (vs & cs & E & -> & F); fields_in F; rd; rewrite E;
    repeat match goal with H : field _ _ _ |- _ => field_in H; let Ha := fresh in destruct H as (? & Ha & <-); rewrite ?Ha; cbn [bind_opt] end; eexists; split; [reflexivity|reflexivity]
  | let a := fresh in let E := fresh in intros (a & E & <-); revert E; rd; match goal with |- context [slots ?f v] => let G := fresh in destruct (slots f v) as [?|] eqn:G; [slots_split G|discriminate];
    let H := fresh in intros H; repeat (apply bind_iff in H; destruct H as (? & ? & H)); injection H as <-; eexists _, _; split; [first [exact G|reflexivity]|]; split; [reflexivity|]; fields_out end ].
Lemma ok_container : ok Container read_container_options put_container_options.
Proof. record ltac:(unfold read_container_options, put_container_options). Qed.
Hint Resolve ok_container : okdb.
Ltac record2 r p := record ltac:(unfold r, p).
Lemma ok_push : ok Branches read_push put_push.
Proof.
  assert (O : ok Branches read_branches_paths (fun x => put_branches_paths (fst x) (snd x))) by record2 read_branches_paths put_branches_paths.
  intros v c. rewrite (O v c). unfold read_push. split.
  - intros ([b p] & E & <-). rewrite E. eexists. split; reflexivity.
  - intros (a & E & <-). apply bind_iff in E as (x & E & F). injection F as <-. eexists. split; [exact E|reflexivity].
Qed.
Lemma ok_pull_request : ok Branches read_pull_request put_pull_request.
Proof.
  intros v c. rewrite (ok_push v c). unfold read_push, read_pull_request. split; intros (a & E & <-); apply bind_iff in E as (x & E & F); injection F as <-; rewrite E; (eexists; split; [reflexivity|]; reflexivity).
Qed.
Lemma ok_condition_config : ok (Record [("push", Maybe Branches); ("pull_request", Maybe Branches)]) read_condition_config put_condition_config.
Proof.
  intros v c. rewrite record_iff by nodup. cbn [map fst]. unfold read_condition_config. split.
  - intros (vs & cs & E & -> & F). fields_in F. rewrite E. apply (field_opt _ _ _ _ _ ok_push) in F0 as (a & Ea & <-). apply (field_opt _ _ _ _ _ ok_pull_request) in F1 as (b & Eb & <-). rewrite Ea, Eb. eexists. split; reflexivity.
  - intros (a & E & <-). destruct (slots _ v) as [vs|] eqn:G; [slots_split G|discriminate]. apply bind_iff in E as (x & Ex & E). apply bind_iff in E as (y & Ey & E). injection E as <-. eexists _, _. split; [reflexivity|]. split; [reflexivity|].
    apply fields_cons_iff. eexists _, _, _, _. split; [reflexivity|]. split; [reflexivity|]. split; [apply (field_opt _ _ _ _ _ ok_push); eauto|].
    apply fields_cons_iff. eexists _, _, _, _. split; [reflexivity|]. split; [reflexivity|]. split; [apply (field_opt _ _ _ _ _ ok_pull_request); eauto|]. apply fields_nil_iff. auto.
Qed.
(** A list of strings is no condition config. *)
Lemma condition_apart v c l : read_condition_config v = Some c -> read_seq read_string v = Some l -> False.
Proof.
  intros E F. destruct v as [| | | | |vs|]; try discriminate. unfold read_condition_config in E. cbn [slots] in E. destruct vs as [|x [|y [|]]]; try discriminate. cbn in E, F. destruct x; try discriminate.
Qed.
Lemma ok_condition : ok Condition read_condition put_condition.
Proof.
  intros v c. unfold read_condition. split.
  - intros H. inv H.
    + match goal with X : Schema_spec.fits _ _ _ _ _ v c |- _ => apply ok_strings in X as (l & E & <-) end. rewrite E. exists (CEvent l). split; reflexivity.
    + match goal with X : Schema_spec.fits _ _ _ _ _ v c |- _ => apply ok_condition_config in X as (x & E & <-) end. exists (CConfig x). rewrite E. cbn [bind_opt]. destruct (read_seq read_string v) eqn:F; [destruct (condition_apart _ _ _ E F)|]. split; reflexivity.
  - intros (a & E & <-). apply or_else_iff in E as [E|[_ E]]; apply bind_iff in E as (x & E & F); injection F as <-; [apply fits_left, ok_strings|apply fits_right, ok_condition_config]; eexists; split; try exact E; reflexivity.
Qed.
Hint Resolve ok_condition : okdb.
Lemma ok_i32 : ok I32 read_i32 VInt. Proof. apply ok_int. Qed.
Lemma ok_i64 : ok I64 read_i64 VInt. Proof. apply ok_int. Qed.
Lemma ok_usize : ok Usize read_usize put_N. Proof. apply ok_N. Qed.
Hint Resolve ok_i32 ok_i64 ok_usize : okdb.
Lemma ok_trigger : ok Trigger read_trigger put_trigger.
Proof. record2 read_trigger put_trigger. Qed.
Lemma ok_workflow_id : ok Text read_workflow_id put_workflow_id.
Proof. intros v c. rewrite (ok_string v c). unfold read_workflow_id. split; [intros (a & E & <-); rewrite E; eexists; split; reflexivity|]. intros (a & E & <-). apply bind_iff in E as (x & E & F). injection F as <-. eauto. Qed.
Lemma tuple_iff ss l c : fits (Tuple ss) (VSeq l) c <-> exists l', c = VSeq l' /\ tuple_fits ss l l'.
Proof. split; [intros H; inv H; eauto|intros (l' & -> & H); constructor; exact H]. Qed.
Ltac tuple_in F := repeat match type of F with Schema_spec.tuple_fits _ _ _ _ (_ :: _) _ _ => inversion F; subst; clear F; match goal with G : Schema_spec.tuple_fits _ _ _ _ _ _ _ |- _ => rename G into F end end; inversion F; subst; clear F.
Lemma ok_job_id : ok JobIdS read_job_id put_job_id.
Proof.
  intros v c. split.
  - intros H. inv H. match goal with F : Schema_spec.tuple_fits _ _ _ _ _ _ _ |- _ => tuple_in F end.
    repeat match goal with H : Schema_spec.fits _ _ _ _ Text _ _ |- _ => inv H end. eexists. split; [reflexivity|reflexivity].
  - intros (a & E & <-). destruct v as [| | | | |[|x [|y [|]]]|]; try discriminate. cbn in E. destruct x; try discriminate. destruct y; try discriminate. injection E as <-. repeat constructor.
Qed.
Lemma ok_step_id : ok StepIdS read_step_id put_step_id.
Proof.
  intros v c. split.
  - intros H. inv H. match goal with F : Schema_spec.tuple_fits _ _ _ _ _ _ _ |- _ => tuple_in F end.
    repeat match goal with H : Schema_spec.fits _ _ _ _ Text _ _ |- _ => inv H end. match goal with H : Schema_spec.fits _ _ _ _ Usize _ _ |- _ => apply ok_usize in H as (n & E & <-) end.
    eexists. unfold read_step_id. cbn [read_string bind_opt]. rewrite E. split; [reflexivity|reflexivity].
  - intros (a & E & <-). destruct v as [| | | | |[|x [|y [|z [|]]]]|]; try discriminate. unfold read_step_id in E. destruct x; try discriminate. destruct y; try discriminate. cbn [read_string bind_opt] in E. apply bind_iff in E as (n & E & F). injection F as <-.
    constructor. constructor; [constructor|]. constructor; [constructor|]. constructor; [apply ok_usize; eauto|constructor].
Qed.
Hint Resolve ok_trigger ok_job_id ok_step_id : okdb.
Lemma ok_state : ok State read_state put_state.
Proof. apply ok_choice; [nodup|]. repeat constructor. Qed.
Lemma ok_log_type : ok LogType read_log_type put_log_type.
Proof. apply ok_choice; [nodup|]. repeat constructor. Qed.
Lemma ok_signal : ok Signal read_signal put_signal.
Proof. apply ok_choice; [nodup|]. repeat constructor. Qed.
Hint Resolve ok_state ok_log_type ok_signal : okdb.
Lemma ok_log : ok LogS read_log put_log.
Proof. record2 read_log put_log. Qed.
Hint Resolve ok_log : okdb.
Ltac gives_variant := let w := fresh in let a := fresh in let E := fresh in intros w a E;
  match type of E with context [slots ?f w] => let G := fresh in destruct (slots f w) as [?|] eqn:G; [slots_split G|discriminate]; repeat (apply bind_iff in E; destruct E as (? & ? & E)); injection E as <-; reflexivity end.
Lemma ok_run_result : ok RunResult read_run_result put_run_result.
Proof.
  apply ok_choice; [nodup|]. constructor; [split; reflexivity|]. constructor; [|constructor; [split; reflexivity|constructor]]. split; [reflexivity|]. cbn [snd fst].
  exists (fun r => match r with RFailed c => put_struct [("exit_code", VInt c)] | _ => VNull end). split; [record idtac|gives_variant].
Qed.
Hint Resolve ok_run_result : okdb.
Lemma ok_environments : ok (Map Env) read_environments put_environments.
Proof. apply ok_map, ok_env. Qed.
Lemma ok_duration : ok Span read_duration put_duration.
Proof.
  intros v c. unfold read_duration. split.
  - intros H. inv H. match goal with G : gives _ _ _ |- _ => apply slots_iff in G; [rename G into E|nodup] end. match goal with G : forall m k x, v = VMap m -> _ |- _ => rename G into K end.
    replace (match v with VMap m => _ | _ => true end) with true; [|symmetry; destruct v as [| | | | | |m]; try reflexivity; apply forallb_forall; intros [k x] I; destruct (K _ _ _ eq_refl I) as [->| ->]; reflexivity].
    rewrite E. cbn [req]. unfold read_usize, read_u32, read_int.
    assert (B : (s < 2 ^ 64)%Z) by (pose proof (Z.div_pos n (10 ^ 9)); lia).
    destruct (Z.leb_spec 0 s), (Z.leb_spec s (2 ^ 64 - 1)), (Z.leb_spec 0 n), (Z.leb_spec n (2 ^ 32 - 1)); try lia. cbn [andb bind_opt].
    assert (D : Z.of_N (Z.to_N n / 1000000000) = (n / 10 ^ 9)%Z) by (rewrite N2Z.inj_div, Z2N.id by lia; reflexivity).
    assert (M : Z.of_N (Z.to_N n mod 1000000000) = (n mod 10 ^ 9)%Z) by (rewrite N2Z.inj_mod, Z2N.id by lia; reflexivity).
    destruct (N.ltb_spec (Z.to_N s + Z.to_N n / 1000000000) (2 ^ 64)) as [L|L].
    + eexists. split; [reflexivity|]. unfold put_duration, put_struct, put_N. cbn [map fst snd d_secs d_nanos]. rewrite N2Z.inj_add, Z2N.id, D, M by lia. reflexivity.
    + exfalso. apply N2Z.inj_le in L. rewrite N2Z.inj_add, Z2N.id, D in L by lia. change (Z.of_N (2 ^ 64)) with (2 ^ 64)%Z in L. lia.
  - intros (a & E & <-). destruct (match v with VMap m => _ | _ => true end) eqn:K; [|discriminate]. destruct (slots _ v) as [vs|] eqn:G; [pose proof G as G'; slots_split G|discriminate].
    apply bind_iff in E as (s & Es & E). apply bind_iff in E as (n & En & E). destruct o as [x|]; [|discriminate]. destruct o0 as [y|]; [|discriminate]. cbn [req] in Es, En. unfold read_usize, read_u32 in *.
    apply bind_iff in Es as (s' & Es & Fs). apply bind_iff in En as (n' & En & Fn). injection Fs as <-. injection Fn as <-. destruct x as [| |s0| | | |]; try discriminate. destruct y as [| |n0| | | |]; try discriminate. unfold read_int in Es, En.
    destruct (Z.leb_spec 0 s0), (Z.leb_spec s0 (2 ^ 64 - 1)); try discriminate. destruct (Z.leb_spec 0 n0), (Z.leb_spec n0 (2 ^ 32 - 1)); try discriminate. injection Es as <-. injection En as <-.
    assert (D : Z.of_N (Z.to_N n0 / 1000000000) = (n0 / 10 ^ 9)%Z) by (rewrite N2Z.inj_div, Z2N.id by lia; reflexivity).
    assert (M : Z.of_N (Z.to_N n0 mod 1000000000) = (n0 mod 10 ^ 9)%Z) by (rewrite N2Z.inj_mod, Z2N.id by lia; reflexivity).
    destruct (N.ltb_spec (Z.to_N s0 + Z.to_N n0 / 1000000000) (2 ^ 64)) as [L|L]; [|discriminate]. injection E as <-. unfold put_duration, put_struct, put_N. cbn [map fst snd d_secs d_nanos]. rewrite N2Z.inj_add, Z2N.id, D, M by lia.
    apply fits_span; try lia.
    + apply slots_iff; [nodup|exact G'].
    + intros m k z -> I. rewrite forallb_forall in K. specialize (K _ I). cbn [fst] in K. destruct k; try discriminate. apply memb_true in K. destruct K as [<-|[<-|[]]]; auto.
Qed.
Hint Resolve ok_environments ok_duration : okdb.
Lemma ok_step : ok StepS read_step put_step.
Proof. record2 read_step put_step. Qed.
Lemma ok_command : ok CommandS read_command put_command.
Proof. record2 read_command put_command. Qed.
Hint Resolve ok_step ok_command : okdb.
Lemma ok_context : ok ContextS read_context put_context.
Proof. record2 read_context put_context. Qed.
Lemma ok_job : ok JobS read_job put_job.
Proof. record2 read_job put_job. Qed.
Hint Resolve ok_job : okdb.
Lemma ok_metadata : ok MetadataS read_metadata put_metadata.
Proof. record2 read_metadata put_metadata. Qed.

(** The identifier of a workflow is its text: as a field. *)
Ltac record3 r p := 
  let v := fresh "v" in let c := fresh "c" in intros v c; match goal with |- context [Schema_spec.fits _ _ _ _ ?s v c] => let s' := eval hnf in s in change s with s' end; rewrite record_iff by nodup; cbn [map fst]; unfold r, p; split;
  [ let vs := fresh in let cs := fresh in let E := fresh in let F := fresh in intros (vs & cs & E & -> & F); fields_in F; rewrite E;
    match goal with H : field Text _ _ |- _ => apply (field_req _ _ _ _ _ ok_workflow_id Logic.I) in H; let Ha := fresh in destruct H as (? & Ha & <-); rewrite ?Ha; cbn [bind_opt] end;
    repeat match goal with H : field _ _ _ |- _ => field_in H; let Ha := fresh in destruct H as (? & Ha & <-); rewrite ?Ha; cbn [bind_opt] end; eexists; split; [reflexivity|reflexivity]
  | let a := fresh in let E := fresh in intros (a & E & <-); revert E; match goal with |- context [slots ?f v] => let G := fresh in destruct (slots f v) as [?|] eqn:G; [slots_split G|discriminate];
    let H := fresh in intros H; repeat (apply bind_iff in H; destruct H as (? & ? & H)); injection H as <-; eexists _, _; split; [first [exact G|reflexivity]|]; split; [reflexivity|];
    apply fields_cons_iff; eexists _, _, _, _; split; [reflexivity|]; split; [reflexivity|]; split; [apply (field_req _ _ _ _ _ ok_workflow_id Logic.I); eexists; split; [eassumption|reflexivity]|]; fields_out end ].
Lemma ok_workflow : ok WorkflowS read_workflow put_workflow.
Proof. record3 read_workflow put_workflow. Qed.
Hint Resolve ok_workflow : okdb.
Lemma ok_step_result : ok StepResultS (read_step_result read_time_text) (put_step_result show_time).
Proof. record2 read_step_result put_step_result. Qed.
Hint Resolve ok_step_result : okdb.
Lemma ok_job_result : ok JobResultS (read_job_result read_time_text) (put_job_result show_time).
Proof. record2 read_job_result put_job_result. Qed.
Hint Resolve ok_job_result : okdb.
Lemma ok_workflow_result : ok WorkflowResultS (read_workflow_result read_time_text) (put_workflow_result show_time).
Proof. record3 read_workflow_result put_workflow_result. Qed.
Lemma ok_workflow_log : ok WorkflowLogS (read_workflow_log read_time_text) (put_workflow_log show_time).
Proof. record2 read_workflow_log put_workflow_log. Qed.
Lemma ok_run_event {A} s (d : value -> option A) e : match s with Maybe _ => False | _ => True end -> ok s d e -> ok (RunEventS s) (read_run_event read_payload d) (put_run_event put_payload e).
Proof.
  intros M O v c. unfold RunEventS. rewrite record_iff by nodup. cbn [map fst]. unfold read_run_event, put_run_event. split.
  - intros (vs & cs & E & -> & F). fields_in F. rewrite E. apply (field_req _ _ _ _ _ O M) in F0 as (a & Ea & <-). field_in F1. destruct F1 as (b & Eb & <-). field_in F2. destruct F2 as (p & Ep & <-). rewrite Ea. cbn [bind_opt]. rewrite Eb. cbn [bind_opt]. rewrite Ep.
    eexists. split; reflexivity.
  - intros (a & E & <-). destruct (slots _ v) as [vs|] eqn:G; [slots_split G|discriminate]. repeat (apply bind_iff in E; destruct E as (? & ? & E)). injection E as <-. eexists _, _. split; [reflexivity|]. split; [reflexivity|].
    apply fields_cons_iff. eexists _, _, _, _. split; [reflexivity|]. split; [reflexivity|]. split; [apply (field_req _ _ _ _ _ O M); eexists; split; [eassumption|reflexivity]|]. fields_out.
Qed.
Lemma ok_state_event : ok StateEventS read_state_event put_state_event.
Proof.
  assert (G : forall A (rd : value -> option A) pt mk s, match s with Maybe _ => False | _ => True end -> ok s rd pt -> (forall a st, put_state_event (mk a st) = put_variant (match mk a st with WorkflowStateUpdated _ _ => "WorkflowStateUpdated" | JobStateUpdated _ _ => "JobStateUpdated" | StepStateUpdated _ _ => "StepStateUpdated" end) (put_struct [("id", pt a); ("state", put_state st)])) ->
    exists i, ok (Record [("id", s); ("state", State)]) (read_id_state rd mk) i /\ forall w a, read_id_state rd mk w = Some a -> put_state_event a = put_variant (match a with WorkflowStateUpdated _ _ => "WorkflowStateUpdated" | JobStateUpdated _ _ => "JobStateUpdated" | StepStateUpdated _ _ => "StepStateUpdated" end) (i a)).
  { intros A rd pt mk s M O P. exists (fun e => match put_state_event e with VMap [(_, c)] => c | _ => VNull end). split.
    - intros v c. rewrite record_iff by nodup. cbn [map fst]. unfold read_id_state. split.
      + intros (vs & cs & E & -> & F). fields_in F. rewrite E. apply (field_req _ _ _ _ _ O M) in F0 as (a & Ea & <-). field_in F1. destruct F1 as (b & Eb & <-). rewrite Ea. cbn [bind_opt]. rewrite Eb. eexists. split; [reflexivity|]. rewrite P. reflexivity.
      + intros (a & E & <-). destruct (slots _ v) as [vs|] eqn:G; [slots_split G|discriminate]. repeat (apply bind_iff in E; destruct E as (? & ? & E)). injection E as <-. rewrite P. eexists _, _. split; [reflexivity|]. split; [reflexivity|].
        apply fields_cons_iff. eexists _, _, _, _. split; [reflexivity|]. split; [reflexivity|]. split; [apply (field_req _ _ _ _ _ O M); eexists; split; [eassumption|reflexivity]|]. fields_out.
    - intros w a E. unfold read_id_state in E. destruct (slots _ w) as [vs|] eqn:G; [slots_split G|discriminate]. repeat (apply bind_iff in E; destruct E as (? & ? & E)). injection E as <-. rewrite P. reflexivity. }
  apply ok_choice; [nodup|]. 
  assert (X : forall A (rd : value -> option A) (mk : A -> wf_state -> state_event) w a, read_id_state rd mk w = Some a -> exists i st, a = mk i st).
  { intros A rd mk w a E. unfold read_id_state in E. destruct (slots _ w) as [vs|] eqn:H; [slots_split H|discriminate]. repeat (apply bind_iff in E; destruct E as (? & ? & E)). injection E as <-. eauto. }
  constructor; [|constructor; [|constructor; [|constructor]]]; (split; [reflexivity|]); cbn [snd fst].
  - destruct (G _ _ _ WorkflowStateUpdated Text Logic.I ok_workflow_id) as (i & O & P); [reflexivity|]. exists i. split; [exact O|]. intros w a E. rewrite (P _ _ E). destruct (X _ _ _ _ _ E) as (j & st & ->). reflexivity.
  - destruct (G _ _ _ JobStateUpdated JobIdS Logic.I ok_job_id) as (i & O & P); [reflexivity|]. exists i. split; [exact O|]. intros w a E. rewrite (P _ _ E). destruct (X _ _ _ _ _ E) as (j & st & ->). reflexivity.
  - destruct (G _ _ _ StepStateUpdated StepIdS Logic.I ok_step_id) as (i & O & P); [reflexivity|]. exists i. split; [exact O|]. intros w a E. rewrite (P _ _ E). destruct (X _ _ _ _ _ E) as (j & st & ->). reflexivity.
Qed.
Lemma via_variant {A B} s (d : value -> option A) pt (f : A -> B) (e : B -> value) tag : ok s d pt -> (forall a, e (f a) = put_variant tag (pt a)) ->
  exists i, ok s (via d f) i /\ forall w b, via d f w = Some b -> e b = put_variant tag (i b).
Proof.
  intros O P. exists (fun b => match e b with VMap [(_, c)] => c | _ => VNull end). split.
  - intros v c. rewrite (O v c). unfold via. split; [intros (a & E & <-); rewrite E; eexists; split; [reflexivity|]; rewrite P; reflexivity|]. intros (b & E & <-). apply bind_iff in E as (a & E & F). injection F as <-. rewrite P. eauto.
  - intros w b E. apply bind_iff in E as (a & E & F). injection F as <-. rewrite P. reflexivity.
Qed.
Lemma ok_protocol_event : ok EventS (read_protocol_event read_time_text read_payload) (put_protocol_event show_time put_payload).
Proof.
  apply ok_choice; [nodup|].
  repeat (constructor; [split; [reflexivity|]; cbn [snd fst]; try first
    [eapply via_variant; [apply ok_run_event; [exact Logic.I|apply ok_step]|reflexivity] | eapply via_variant; [apply ok_run_event; [exact Logic.I|apply ok_job]|reflexivity]
    |eapply via_variant; [apply ok_run_event; [exact Logic.I|apply ok_workflow]|reflexivity] | eapply via_variant; [apply ok_step_result|reflexivity]
    |eapply via_variant; [apply ok_job_result|reflexivity] | eapply via_variant; [apply ok_workflow_result|reflexivity] | eapply via_variant; [apply ok_workflow_log|reflexivity]
    |eapply via_variant; [apply ok_state_event|reflexivity]]|]); [|constructor].
  exists (fun e => match e with PSignal i s => put_struct [("step_id", put_step_id i); ("signal", put_signal s)] | _ => VNull end). split; [record ltac:(unfold read_signal_event)|]. unfold read_signal_event. gives_variant.
Qed.
Lemma ok_run_response : ok ResponseS read_run_response put_run_response.
Proof.
  apply ok_choice; [nodup|]. constructor; [|constructor; [|constructor]]; (split; [reflexivity|]); cbn [snd fst].
  - exists (fun e => match e with RrLog i l => put_struct [("step_id", put_step_id i); ("log", put_log l)] | _ => VNull end). split; [record idtac|gives_variant].
  - exists (fun e => match e with RrResult i r => put_struct [("step_id", put_step_id i); ("result", put_run_result r)] | _ => VNull end). split; [record idtac|gives_variant].
Qed.
Lemma message_fits k v c : fits (schema_of k) v c <-> exists m, read_message read_time_text read_payload k v = Some m /\ put_message show_time put_payload m = c.
Proof.
  assert (V : forall A (d : value -> option A) pt (f : A -> message) s, ok s d pt -> (forall a, put_message show_time put_payload (f a) = pt a) -> fits s v c <-> exists m, via d f v = Some m /\ put_message show_time put_payload m = c).
  { intros A d pt f s O P. rewrite (O v c). unfold via. split; [intros (a & E & <-); rewrite E; eexists; split; [reflexivity|]; rewrite P; reflexivity|]. intros (b & E & <-). apply bind_iff in E as (a & E & F). injection F as <-. rewrite P. eauto. }
  destruct k; cbn [schema_of read_message].
  - rewrite record_iff by nodup. cbn [map]. split.
    + intros (vs & cs & E & -> & F). apply fields_nil_iff in F as [-> ->]. rewrite E. eexists. split; reflexivity.
    + intros (m & E & <-). destruct (slots [] v) as [vs|] eqn:G; [|discriminate]. slots_split G. injection E as <-. eexists _, _. split; [reflexivity|]. split; [reflexivity|constructor].
  - eapply V; [apply ok_metadata|reflexivity].
  - eapply V; [apply ok_context|reflexivity].
  - eapply V; [apply ok_run_response|reflexivity].
  - eapply V; [apply ok_protocol_event|reflexivity].
  - eapply V; [apply ok_command|reflexivity].
Qed.
End Fits.
