From Verif Require Import Base Types Ids_spec Stream_model Runner_model Text_model Text_spec Text_proof Pipe_model Pipe_spec.

Lemma fd_eqb_refl e : fd_eqb e e = true.
Proof. destruct e; reflexivity. Qed.
Lemma fd_eqb_eq a b : fd_eqb a b = true <-> a = b.
Proof. destruct a, b; cbn; split; congruence. Qed.
Lemma fd_eqb_ne a b : fd_eqb a b = false <-> a <> b.
Proof. destruct a, b; cbn; split; congruence. Qed.
Lemma upd_eq {A} (f : fd -> A) e x : upd f e x e = x.
Proof. unfold upd. rewrite fd_eqb_refl. reflexivity. Qed.
Lemma upd_ne {A} (f : fd -> A) e e' x : e' <> e -> upd f e x e' = f e'.
Proof. intros H. unfold upd. apply fd_eqb_ne in H. rewrite H. reflexivity. Qed.
Lemma fd_dec (a b : fd) : {a = b} + {a <> b}.
Proof. decide equality. Qed.
Lemma append_nil_r' s : s +++ "" = s.
Proof. induction s; cbn; congruence. Qed.
Lemma length_app' a b : String.length (a +++ b) = String.length a + String.length b.
Proof. induction a; cbn; congruence. Qed.
Lemma take_drop n s : take n s +++ drop n s = s.
Proof. unfold take. revert n. induction s as [|a s IH]; intros [|n]; cbn; try reflexivity. f_equal. apply IH. Qed.
Lemma length_drop n s : String.length (drop n s) = String.length s - n.
Proof. revert n. induction s as [|a s IH]; intros [|n]; cbn; try reflexivity. apply IH. Qed.

(** *** lines *)
Lemma cut_line_some s l r : cut_line s = Some (l, r) <-> s = l +++ lf +++ r /\ free_of nl l.
Proof.
  revert l r. induction s as [|a s IH]; intros l r; cbn [cut_line].
  - split; [discriminate|]. intros [E _]. destruct l; discriminate.
  - destruct (Ascii.eqb_spec a nl) as [->|Ne].
    + split; [intros E; injection E as <- <-; split; [reflexivity|exact I]|]. intros [E F]. destruct l as [|b l]; [injection E as <-; reflexivity|]. injection E as E0 _. destruct F as [F _]. destruct F. rewrite <- E0. reflexivity.
    + destruct (cut_line s) as [[l' r']|] eqn:C.
      * split.
        -- intros E. injection E as <- <-. destruct (proj1 (IH l' r') eq_refl) as [-> F]. split; [reflexivity|split; assumption].
        -- intros [E F]. destruct l as [|b l]; [injection E as Ea _; destruct Ne; rewrite Ea; reflexivity|]. injection E as <- E. destruct F as [_ F]. assert (X := proj2 (IH l r) (conj E F)). injection X as <- <-. reflexivity.
      * split; [discriminate|]. intros [E F]. destruct l as [|b l]; [injection E as Ea _; destruct Ne; rewrite Ea; reflexivity|]. injection E as <- E. destruct F as [_ F]. assert (X := proj2 (IH l r) (conj E F)). discriminate X.
Qed.
Lemma cut_line_none s : cut_line s = None <-> free_of nl s.
Proof.
  induction s as [|a s IH]; cbn [cut_line free_of]; [tauto|]. destruct (Ascii.eqb_spec a nl) as [->|Ne].
  - split; [discriminate|]. intros [H _]. congruence.
  - destruct (cut_line s) as [[l r]|]; [split; [discriminate|]; intros [_ F]; apply IH in F; discriminate F|]. split; [split; [exact Ne|apply IH; reflexivity]|reflexivity].
Qed.
Lemma drop_cr_text s : line_text s (drop_cr s).
Proof.
  induction s as [|a s IH]; [right; split; [reflexivity|]; intros ([|x l] & E); discriminate|]. cbn [drop_cr]. destruct s as [|b s].
  - destruct (Ascii.eqb_spec a cr) as [->|Ne]; [left; reflexivity|]. right. split; [reflexivity|]. intros ([|x [|y l]] & E); [injection E as Ea; destruct Ne; rewrite Ea; reflexivity|discriminate E..].
  - destruct IH as [E|[E N]].
    + left. rewrite E at 1. reflexivity.
    + right. split; [rewrite <- E; reflexivity|]. intros ([|x l] & E'); [discriminate E'|]. injection E' as <- E'. apply N. exists l. exact E'.
Qed.
Lemma append_inv_r' a b c : a +++ c = b +++ c -> a = b.
Proof.
  intros E. assert (L : String.length a = String.length b) by (apply (f_equal String.length) in E; rewrite !length_app' in E; lia).
  revert b E L. induction a as [|x a IH]; intros [|y b] E L; try discriminate L; [reflexivity|]. injection E as <- E. f_equal. apply IH; [exact E|]. injection L. auto.
Qed.
Lemma line_text_fun raw t t' : line_text raw t -> line_text raw t' -> t = t'.
Proof.
  intros [E|[E N]] [E'|[E' N']].
  - rewrite E in E'. eapply append_inv_r', E'.
  - destruct N'. eauto.
  - destruct N. eauto.
  - congruence.
Qed.
Lemma cut_unique a b a' b' : free_of nl a -> free_of nl a' -> a +++ lf +++ b = a' +++ lf +++ b' -> a = a' /\ b = b'.
Proof.
  intros F F' E. assert (X := proj2 (cut_line_some _ a b) (conj eq_refl F)). rewrite E in X. assert (Y := proj2 (cut_line_some _ a' b') (conj eq_refl F')). rewrite Y in X. injection X as <- <-. auto.
Qed.
Lemma not_free a b : ~ free_of nl (a +++ lf +++ b).
Proof. intros F. induction a as [|x a IH]; [destruct F as [F _]; apply F; reflexivity|]. destruct F as [_ F]. exact (IH F). Qed.
Lemma lines_fun s ls ls' : lines s ls -> lines s ls' -> ls = ls'.
Proof.
  intros H. revert ls'. induction H as [|s N F|raw text rest ls F T H IH]; intros ls' H'.
  - inversion H' as [|s' N' F'|raw' text' rest' l' F' T' H'' E]; subst; [reflexivity|congruence|]. destruct raw'; discriminate.
  - inversion H' as [|s' N' F'|raw' text' rest' l' F' T' H'' E]; subst; [congruence|reflexivity|]. destruct (not_free _ _ F).
  - inversion H' as [E|s' N' F' E|raw' text' rest' l' F' T' H'' E]; subst.
    + destruct raw; discriminate.
    + destruct (not_free _ _ F').
    + apply cut_unique in E as [-> ->]; [|assumption..]. rewrite (line_text_fun _ _ _ T T'), (IH _ H''). reflexivity.
Qed.
(** Complete lines. *)
Inductive full : string -> list (string * string) -> Prop :=
| full_nil : full "" []
| full_cons raw text rest ls : free_of nl raw -> line_text raw text -> full rest ls -> full (raw +++ lf +++ rest) ((raw, text) :: ls).
Lemma append_assoc' a b c : (a +++ b) +++ c = a +++ (b +++ c).
Proof. induction a; cbn; congruence. Qed.
Lemma full_lines c ls r rs : full c ls -> lines r rs -> lines (c +++ r) (ls ++ rs).
Proof. intros F R. induction F as [|raw text rest ls H1 H2 F IH]; [exact R|]. rewrite !append_assoc'. cbn [app]. constructor; assumption. Qed.
Lemma full_full c ls r rs : full c ls -> full r rs -> full (c +++ r) (ls ++ rs).
Proof. intros F R. induction F as [|raw text rest ls H1 H2 F IH]; [exact R|]. rewrite !append_assoc'. cbn [app]. constructor; assumption. Qed.
Lemma full_is_lines c ls : full c ls -> lines c ls.
Proof. intros F. rewrite <- (append_nil_r' c), <- (app_nil_r ls). apply full_lines; [exact F|constructor]. Qed.
Lemma lines_exist s : exists ls, lines s ls.
Proof.
  assert (H : forall n s, String.length s <= n -> exists ls, lines s ls); [|eapply H; reflexivity].
  induction n as [|n IH]; intros [|a s0] L; try (cbn in L; lia); try (exists []; constructor).
  destruct (cut_line (String a s0)) as [[l r]|] eqn:C.
  - apply cut_line_some in C as [E F]. destruct (IH r) as (ls & H).
    { apply (f_equal String.length) in E. rewrite !length_app' in E. cbn in E, L. lia. }
    exists ((l, drop_cr l) :: ls). rewrite E. constructor; [exact F|apply drop_cr_text|exact H].
  - eexists. apply lines_last; [discriminate|apply cut_line_none, C].
Qed.
Lemma utf8_ok_iff s : utf8_ok s = true <-> is_utf8 s.
Proof. apply utf8_ok_spec. Qed.
Lemma utf8_ok_false s : utf8_ok s = false <-> ~ is_utf8 s.
Proof. rewrite <- utf8_ok_iff. destruct (utf8_ok s); split; congruence. Qed.

Lemma written_app e a b : written e (a ++ b) = written e a +++ written e b.
Proof. induction a as [|i a IH]; [reflexivity|]. destruct i; cbn [app written]; rewrite ?IH, ?append_assoc'; reflexivity. Qed.
Lemma messages_app t a b : messages t (a ++ b) = messages t a ++ messages t b.
Proof. unfold messages. apply flat_map_app. Qed.

Section P.
Variable cap : nat.
Notation prun := (prun cap).
Notation pstep := (pstep cap).

(** ** The invariant *)
Definition over (p : cphase) : bool := match p with CWait | CDone true => true | _ => false end.
Definition drained (s : pstate) (e : fd) : Prop := pp_open (ps_pipe s e) = false /\ ps_carry s e = "" /\ pp_buf (ps_pipe s e) = "".
Record pinv (ins : list pinput) (s : pstate) (tr : list seff) (L B : fd -> list (string * string)) (fail : list string) : Prop := {
  pi_out : messages LLog tr = map snd (L Out);
  pi_err : messages LError tr = map snd (L Errs) ++ fail;
  pi_data : forall e, exists c, written e ins = c +++ ps_carry s e +++ pp_buf (ps_pipe s e) /\ (full c (L e ++ B e) \/ (lines c (L e ++ B e) /\ drained s e));
  pi_utf : forall e x, In x (L e) -> is_utf8 (fst x);
  pi_before : over (ps_phase s) = false -> fail = [] /\ forall e, B e = [];
  pi_after : over (ps_phase s) = true ->
    (fail = [] /\ (forall e, B e = []) /\ exists e, drained s e) \/
    (fail = [utf8_message] /\ exists e x, B e = [x] /\ ~ is_utf8 (fst x) /\ forall e', e' <> e -> B e' = []);
  pi_closed : forall e, pp_open (ps_pipe s e) = false <-> closed e ins;
  pi_exit : forall code, ps_exit s = Some code <-> In (PIExit code) ins;
  pi_exit1 : length (filter (fun i => match i with PIExit _ => true | _ => false end) ins) = match ps_exit s with Some _ => 1 | None => 0 end;
  pi_end : forall r, In (SeEnd r) tr <-> ps_phase s = CDone true /\ exists code, ps_exit s = Some code /\ r = exit_result code;
}.

Lemma exit_count_app a b : length (filter (fun i => match i with PIExit _ => true | _ => false end) (a ++ b)) =
  length (filter (fun i => match i with PIExit _ => true | _ => false end) a) + length (filter (fun i => match i with PIExit _ => true | _ => false end) b).
Proof. rewrite filter_app, app_length. reflexivity. Qed.

Lemma pinv_run ins s tr : prun ins s tr -> exists L B fail, pinv ins s tr L B fail.
Proof.
  induction 1 as [|ins s tr i s' o R (L & B & fail & IH) E].
  - exists (fun _ => []), (fun _ => []), []. constructor; cbn; auto; try discriminate.
    + intros e. exists "". split; [reflexivity|left; constructor].
    + intros e x [].
    + intros e. split; [discriminate|intros []].
    + intros code. split; [discriminate|intros []].
    + intros r. split; [intros []|intros [C _]; discriminate C].
  - destruct IH as [H1 H2 H3 H4 H5 H6 H7 H8 H8' H9].
    destruct i as [ok|e c|e|code|e n|e|]; cbn [pstep] in E.
    + (* spawn *)
      unfold pcmd in E. destruct (ps_phase s) eqn:Ep; try discriminate. cbn in E. injection E as <- <-.
      assert (F : forall p, (p = if ok then CRead else CDone false) -> over p = false) by (intros p ->; destruct ok; reflexivity).
      exists L, B, fail. constructor; cbn [ps_pipe ps_carry ps_exit ps_phase]; rewrite ?app_nil_r; auto.
      * intros e. destruct (H3 e) as (c & Hc & Hd). exists c. rewrite written_app. cbn. rewrite append_nil_r'. split; [exact Hc|exact Hd].
      * rewrite F by reflexivity. discriminate.
      * intros e. rewrite H7. unfold closed. rewrite in_app_iff. cbn. intuition discriminate.
      * intros code. rewrite H8, in_app_iff. cbn. intuition discriminate.
      * rewrite exit_count_app, H8'. cbn. lia.
      * intros r. rewrite H9. split; intros [C _]; [discriminate|]. destruct ok; discriminate C.
    + (* write *)
      destruct (alive (ps_phase s) && pp_open (ps_pipe s e) && _) eqn:G; [|discriminate]. apply andb_true_iff in G as [G _]. apply andb_true_iff in G as [G1 G2]. injection E as <- <-.
      exists L, B, fail. constructor; cbn [ps_pipe ps_carry ps_exit ps_phase]; rewrite ?app_nil_r; auto.
      * intros e'. destruct (H3 e') as (c' & Hc & Hd). exists c'. rewrite written_app. cbn [written]. rewrite append_nil_r'. destruct (fd_dec e e') as [<-|Ne].
        -- rewrite fd_eqb_refl, upd_eq, Hc. cbn [pp_buf]. rewrite !append_assoc'. split; [reflexivity|]. destruct Hd as [Hd|[Hd (D & _)]]; [left; exact Hd|congruence].
        -- rewrite (proj2 (fd_eqb_ne e e') Ne), append_nil_r'. unfold drained. cbn [ps_pipe ps_carry]. rewrite !upd_ne by congruence. split; [exact Hc|exact Hd].
      * intros O. destruct (H6 O) as [(F1 & F2 & e' & D)|F]; [left|right; exact F]. split; [exact F1|]. split; [exact F2|]. exists e'. unfold drained in *. cbn. destruct (fd_dec e' e) as [->|Ne]; [destruct D; congruence|]. rewrite !upd_ne by congruence. exact D.
      * intros e'. unfold closed in *. rewrite in_app_iff. cbn. destruct (fd_dec e' e) as [->|Ne]; [rewrite upd_eq; cbn|rewrite upd_ne by exact Ne; rewrite H7; intuition discriminate].
        rewrite <- H7, G2. intuition discriminate.
      * intros code. rewrite H8, in_app_iff. cbn. intuition discriminate.
      * rewrite exit_count_app, H8'. cbn. lia.
    + (* close *)
      destruct (alive (ps_phase s) && pp_open (ps_pipe s e)) eqn:G; [|discriminate]. apply andb_true_iff in G as [G1 G2]. injection E as <- <-.
      exists L, B, fail. constructor; cbn [ps_pipe ps_carry ps_exit ps_phase]; rewrite ?app_nil_r; auto.
      * intros e'. destruct (H3 e') as (c' & Hc & Hd). exists c'. rewrite written_app. cbn [written]. rewrite append_nil_r'. destruct (fd_dec e' e) as [->|Ne].
        -- rewrite upd_eq. cbn [pp_buf]. split; [exact Hc|]. destruct Hd as [Hd|[Hd (D & _)]]; [left; exact Hd|congruence].
        -- unfold drained. cbn [ps_pipe ps_carry]. rewrite !upd_ne by congruence. split; [exact Hc|exact Hd].
      * intros O. destruct (H6 O) as [(F1 & F2 & e' & D)|F]; [left|right; exact F]. split; [exact F1|]. split; [exact F2|]. exists e'. unfold drained in *. cbn. destruct (fd_dec e' e) as [->|Ne]; [destruct D; congruence|]. rewrite !upd_ne by congruence. exact D.
      * intros e'. unfold closed in *. rewrite in_app_iff. cbn. destruct (fd_dec e' e) as [->|Ne]; [rewrite upd_eq; cbn; intuition|rewrite upd_ne by exact Ne; rewrite H7; intuition congruence].
      * intros code. rewrite H8, in_app_iff. cbn. intuition discriminate.
      * rewrite exit_count_app, H8'. cbn. lia.
    + (* exit *)
      destruct (ps_exit s) eqn:Ee; [discriminate|]. destruct (alive (ps_phase s)) eqn:G; [|discriminate]. injection E as <- <-.
      exists L, B, fail. constructor; cbn [ps_pipe ps_carry ps_exit ps_phase]; rewrite ?app_nil_r; auto.
      * intros e'. destruct (H3 e') as (c' & Hc & Hd). exists c'. rewrite written_app. cbn [written]. rewrite append_nil_r'. split; [exact Hc|exact Hd].
      * intros e'. rewrite H7. unfold closed. rewrite in_app_iff. cbn. intuition discriminate.
      * intros code'. rewrite in_app_iff. cbn. split; [intros X; injection X as <-; auto|]. intros [X|[X|[]]]; [apply H8 in X; discriminate|congruence].
      * rewrite exit_count_app, H8'. cbn. lia.
      * intros r. rewrite H9. split; intros [C _]; rewrite C in G; discriminate G.
    + (* fill *)
      destruct (ps_phase s) eqn:Ep; try discriminate. destruct (cut_line (ps_carry s e)) eqn:Ec; [discriminate|]. destruct (_ && _ && _) eqn:G; [|discriminate]. injection E as <- <-.
      apply andb_true_iff in G as [G Gc]. apply andb_true_iff in G as [G1 G2]. apply Nat.ltb_lt in G1. apply Nat.leb_le in G2.
      exists L, B, fail. constructor; cbn [ps_pipe ps_carry ps_exit ps_phase]; rewrite ?app_nil_r; auto; try discriminate.
      * intros e'. destruct (H3 e') as (c' & Hc & Hd). exists c'. rewrite written_app. cbn [written]. rewrite append_nil_r'. destruct (fd_dec e' e) as [->|Ne].
        -- rewrite !upd_eq. cbn [pp_buf]. rewrite append_assoc', take_drop. split; [exact Hc|]. destruct Hd as [Hd|[Hd (_ & _ & D)]]; [left; exact Hd|]. rewrite D in G2. cbn in G2. lia.
        -- unfold drained. cbn [ps_pipe ps_carry]. rewrite !upd_ne by congruence. split; [exact Hc|exact Hd].
      * intros e'. unfold closed in *. rewrite in_app_iff. cbn. destruct (fd_dec e' e) as [->|Ne]; [rewrite upd_eq; cbn|rewrite upd_ne by exact Ne]; rewrite H7; intuition discriminate.
      * intros code. rewrite H8, in_app_iff. cbn. intuition discriminate.
      * rewrite exit_count_app, H8'. cbn. lia.
    + (* line *)
      destruct (ps_phase s) eqn:Ep; try discriminate. destruct (next_line _ _) as [[r rest]|] eqn:En; [|discriminate].
      destruct (H5 eq_refl) as [-> HB].
      assert (Wr : forall e', written e' (ins ++ [PILine e]) = written e' ins) by (intros e'; rewrite written_app; apply append_nil_r').
      assert (Cl : forall e', closed e' (ins ++ [PILine e]) <-> closed e' ins) by (intros e'; unfold closed; rewrite in_app_iff; cbn; intuition discriminate).
      assert (Ex : forall code, In (PIExit code) (ins ++ [PILine e]) <-> In (PIExit code) ins) by (intros code; rewrite in_app_iff; cbn; intuition discriminate).
      assert (Xc : length (filter (fun i => match i with PIExit _ => true | _ => false end) (ins ++ [PILine e])) = match ps_exit s with Some _ => 1 | None => 0 end) by (rewrite exit_count_app, H8'; cbn; lia).
      assert (NE : forall r, ~ In (SeEnd r) tr) by (intros r' C; apply H9 in C as [C _]; discriminate C).
      (* what was read *)
      assert (Read : (exists raw text, line_read raw text = r /\ (forall c, full c (L e) -> full (c +++ raw +++ lf) (L e ++ [(raw, text)])) /\ ps_carry s e = raw +++ lf +++ rest) \/
                     (exists raw, raw <> "" /\ line_read raw raw = r /\ (forall c, full c (L e) -> lines (c +++ raw) (L e ++ [(raw, raw)])) /\ ps_carry s e = raw /\ rest = "" /\ pp_buf (ps_pipe s e) = "" /\ pp_open (ps_pipe s e) = false) \/
                     (r = RdEof /\ ps_carry s e = "" /\ rest = "" /\ pp_buf (ps_pipe s e) = "" /\ pp_open (ps_pipe s e) = false)).
      { unfold next_line in En. destruct (cut_line (ps_carry s e)) as [[l t]|] eqn:C.
        - injection En as <- <-. apply cut_line_some in C as [C F]. left. exists l, (drop_cr l). split; [reflexivity|]. split; [|exact C]. intros c Fc. apply full_full; [exact Fc|]. apply (full_cons l (drop_cr l) "" []); [exact F|apply drop_cr_text|constructor].
        - destruct (_ && _) eqn:G; [|discriminate]. injection En as <- <-. apply andb_true_iff in G as [G1 G2]. apply Nat.eqb_eq in G1. apply negb_true_iff in G2. apply cut_line_none in C.
          assert (Eb : pp_buf (ps_pipe s e) = "") by (destruct (pp_buf (ps_pipe s e)); [reflexivity|discriminate G1]). right. destruct (ps_carry s e) as [|a t] eqn:Ea; [right; auto|]. left. exists (String a t).
          split; [discriminate|]. split; [reflexivity|]. split; [|auto]. intros c Fc. apply full_lines; [exact Fc|]. apply lines_last; [discriminate|exact C]. }
      assert (Others : forall e', e' <> e -> exists c, written e' ins = c +++ upd (ps_carry s) e rest e' +++ pp_buf (ps_pipe s e') /\ (full c (L e' ++ []) \/ (lines c (L e' ++ []) /\ upd (ps_carry s) e rest e' = "" /\ pp_open (ps_pipe s e') = false /\ pp_buf (ps_pipe s e') = ""))).
      { intros e' Ne. destruct (H3 e') as (c & Hc & Hd). exists c. rewrite upd_ne by exact Ne. rewrite (HB e') in Hd. unfold drained in Hd. split; [exact Hc|]. tauto. }
      destruct (H3 e) as (c0 & Hc0 & Hd0). rewrite (HB e), app_nil_r in Hd0.
      assert (Fc : forall x y, ps_carry s e +++ pp_buf (ps_pipe s e) = String x y -> full c0 (L e)).
      { intros x y X. destruct Hd0 as [Hd|[Hd (_ & D1 & D2)]]; [exact Hd|]. rewrite D1, D2 in X. discriminate X. }
      (* a line was logged, text with raw; or reading failed; or the end was reached *)
      assert (HLog_ : forall raw text t, r = RdLine text -> (t = match e with Out => LLog | Errs => LError end) -> is_utf8 raw ->
        (exists c, written e ins = c +++ rest +++ pp_buf (ps_pipe s e) /\ (full c (L e ++ [(raw, text)]) \/ (lines c (L e ++ [(raw, text)]) /\ rest = "" /\ pp_open (ps_pipe s e) = false /\ pp_buf (ps_pipe s e) = ""))) ->
        exists L' B' fail', pinv (ins ++ [PILine e]) s' (tr ++ o) L' B' fail').
      { intros raw text t -> -> U D. exists (upd L e (L e ++ [(raw, text)])), B, [].
        assert (Eo : s' = PState (ps_pipe s) (upd (ps_carry s) e rest) (ps_exit s) CRead /\ o = [SeLog (Log match e with Out => LLog | Errs => LError end text)]).
        { unfold pcmd in E. rewrite Ep in E. destruct e; cbn in E; injection E as <- <-; auto. }
        destruct Eo as [-> ->]. constructor; cbn [ps_pipe ps_carry ps_exit ps_phase]; auto; try discriminate.
        - rewrite messages_app, H1. destruct e; cbn; [unfold upd; cbn; rewrite map_app; reflexivity|unfold upd; cbn; apply app_nil_r].
        - rewrite messages_app, H2, !app_nil_r. destruct e; cbn; [unfold upd; cbn; apply app_nil_r|unfold upd; cbn; rewrite map_app; reflexivity].
        - intros e'. rewrite Wr, (HB e'). unfold drained. cbn [ps_pipe ps_carry]. destruct (fd_dec e' e) as [->|Ne].
          + rewrite !upd_eq, app_nil_r. destruct D as (c & D1 & D2). exists c. split; [exact D1|]. tauto.
          + destruct (Others e' Ne) as (c & D1 & D2). exists c. rewrite (upd_ne L) by exact Ne. split; [exact D1|]. tauto.
        - intros e' x. destruct (fd_dec e' e) as [->|Ne]; [rewrite upd_eq, in_app_iff; intros [X|[<-|[]]]; [eapply H4, X|exact U]|rewrite upd_ne by exact Ne; apply H4].
        - intros e'. rewrite Cl. apply H7.
        - intros code. rewrite Ex. apply H8.
        - intros r'. rewrite in_app_iff. cbn. split; [intros [C|[C|[]]]; [destruct (NE _ C)|discriminate C]|intros [C _]; discriminate C]. }
      assert (HFail_ : forall raw text, r = RdFail utf8_message -> ~ is_utf8 raw ->
        (exists c, written e ins = c +++ rest +++ pp_buf (ps_pipe s e) /\ (full c (L e ++ [(raw, text)]) \/ (lines c (L e ++ [(raw, text)]) /\ rest = "" /\ pp_open (ps_pipe s e) = false /\ pp_buf (ps_pipe s e) = ""))) ->
        exists L' B' fail', pinv (ins ++ [PILine e]) s' (tr ++ o) L' B' fail').
      { intros raw text -> U D. exists L, (upd B e [(raw, text)]), [utf8_message].
        assert (Eo : s' = PState (ps_pipe s) (upd (ps_carry s) e rest) (ps_exit s) CWait /\ o = [SeLog (Log LError utf8_message)]).
        { unfold pcmd in E. rewrite Ep in E. destruct e; cbn in E; injection E as <- <-; auto. }
        destruct Eo as [-> ->]. constructor; cbn [ps_pipe ps_carry ps_exit ps_phase]; auto; try discriminate.
        - rewrite messages_app, H1. cbn. apply app_nil_r.
        - rewrite messages_app, H2, app_nil_r. reflexivity.
        - intros e'. rewrite Wr. unfold drained. cbn [ps_pipe ps_carry]. destruct (fd_dec e' e) as [->|Ne].
          + rewrite !upd_eq. destruct D as (c & D1 & D2). exists c. split; [exact D1|]. tauto.
          + destruct (Others e' Ne) as (c & D1 & D2). exists c. rewrite (upd_ne B) by exact Ne. rewrite (HB e'). split; [exact D1|]. tauto.
        - intros _. right. split; [reflexivity|]. exists e, (raw, text). rewrite upd_eq. split; [reflexivity|]. split; [exact U|]. intros e' Ne. rewrite upd_ne by exact Ne. apply HB.
        - intros e'. rewrite Cl. apply H7.
        - intros code. rewrite Ex. apply H8.
        - intros r'. rewrite in_app_iff. cbn. split; [intros [C|[C|[]]]; [destruct (NE _ C)|discriminate C]|intros [C _]; discriminate C]. }
      destruct Read as [(raw & text & Hr & Hf & Hcar)|[(raw & Hne & Hr & Hf & Hcar & -> & Hb & Ho)|(-> & Hcar & -> & Hb & Ho)]].
      * assert (Ff : full c0 (L e)).
        { destruct raw as [|x y]; eapply Fc; rewrite Hcar; reflexivity. }
        assert (D : exists c, written e ins = c +++ rest +++ pp_buf (ps_pipe s e) /\ (full c (L e ++ [(raw, text)]) \/ (lines c (L e ++ [(raw, text)]) /\ rest = "" /\ pp_open (ps_pipe s e) = false /\ pp_buf (ps_pipe s e) = ""))).
        { exists (c0 +++ raw +++ lf). split; [rewrite Hc0, Hcar, !append_assoc'; reflexivity|]. left. apply Hf, Ff. }
        unfold line_read in Hr. destruct (utf8_ok raw) eqn:U.
        -- eapply HLog_; [symmetry; exact Hr|reflexivity|apply utf8_ok_iff, U|exact D].
        -- eapply HFail_; [symmetry; exact Hr|apply utf8_ok_false, U|exact D].
      * assert (Ff : full c0 (L e)).
        { destruct raw as [|x y]; [congruence|]. eapply Fc; rewrite Hcar; reflexivity. }
        assert (D : exists c, written e ins = c +++ "" +++ pp_buf (ps_pipe s e) /\ (full c (L e ++ [(raw, raw)]) \/ (lines c (L e ++ [(raw, raw)]) /\ "" = "" /\ pp_open (ps_pipe s e) = false /\ pp_buf (ps_pipe s e) = ""))).
        { exists (c0 +++ raw). split; [rewrite Hc0, Hcar, !append_assoc'; reflexivity|]. right. split; [apply Hf, Ff|auto]. }
        unfold line_read in Hr. destruct (utf8_ok raw) eqn:U.
        -- eapply HLog_; [symmetry; exact Hr|reflexivity|apply utf8_ok_iff, U|exact D].
        -- eapply HFail_; [symmetry; exact Hr|apply utf8_ok_false, U|exact D].
      * exists L, B, [].
        assert (Eo : s' = PState (ps_pipe s) (upd (ps_carry s) e "") (ps_exit s) CWait /\ o = []).
        { unfold pcmd in E. rewrite Ep in E. destruct e; cbn in E; injection E as <- <-; auto. }
        destruct Eo as [-> ->]. rewrite app_nil_r. constructor; cbn [ps_pipe ps_carry ps_exit ps_phase]; auto; try discriminate.
        -- intros e'. rewrite Wr, (HB e'). unfold drained. cbn [ps_pipe ps_carry]. destruct (fd_dec e' e) as [->|Ne].
           ++ rewrite upd_eq, app_nil_r. exists c0. rewrite Hc0, Hcar. split; [reflexivity|]. destruct Hd0 as [Hd|[Hd _]]; [left; exact Hd|right; auto].
           ++ destruct (Others e' Ne) as (c & D1 & D2). exists c. split; [exact D1|]. tauto.
        -- intros _. left. split; [reflexivity|]. split; [exact HB|]. exists e. unfold drained. cbn. rewrite upd_eq. auto.
        -- intros e'. rewrite Cl. apply H7.
        -- intros code. rewrite Ex. apply H8.
        -- intros r'. split; [intros C; destruct (NE _ C)|intros [C _]; discriminate C].
    + (* reap *)
      destruct (ps_exit s) as [code|] eqn:Ee; [|discriminate]. unfold pcmd in E. destruct (ps_phase s) eqn:Ep; try discriminate. cbn in E. injection E as <- <-.
      exists L, B, fail. constructor; cbn [ps_pipe ps_carry ps_exit ps_phase]; auto; try discriminate.
      * rewrite messages_app, H1. cbn. apply app_nil_r.
      * rewrite messages_app, H2. cbn. apply app_nil_r.
      * intros e'. destruct (H3 e') as (c' & Hc & Hd). exists c'. rewrite written_app. cbn [written]. rewrite append_nil_r'. split; [exact Hc|exact Hd].
      * intros e'. rewrite H7. unfold closed. rewrite in_app_iff. cbn. intuition discriminate.
      * intros code'. rewrite in_app_iff. cbn. rewrite Ee, H8. intuition discriminate.
      * rewrite exit_count_app, H8'. rewrite Ee. reflexivity.
      * intros r. rewrite in_app_iff. cbn. split.
        -- intros [C|[C|[]]]; [apply H9 in C as [C _]; discriminate C|]. injection C as <-. split; [reflexivity|]. exists code. auto.
        -- intros (_ & code' & X & ->). right. left. congruence.
Qed.
End P.
