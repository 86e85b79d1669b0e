From Verif Require Import Base Types Ids_spec Stream_model Runner_model Text_model Text_spec Text_proof Pipe_model Pipe_spec Pipe_proof.

Lemma firstn_app_len {A} (a b : list A) : firstn (length a) (a ++ b) = a.
Proof. induction a; cbn; [destruct b; reflexivity|congruence]. Qed.
Lemma nth_app_len {A} (a b : list A) x : nth_error (a ++ x :: b) (length a) = Some x.
Proof. induction a; cbn; auto. Qed.

Section P.
Variable cap : nat.
Notation prun := (prun cap).
Notation pstep := (pstep cap).
Notation pexec := (pexec cap).

(** What has been read is a prefix of the lines written. *)
Lemma inv_prefix ins s tr L B fail e ls : pinv ins s tr L B fail -> lines (written e ins) ls -> exists rest, ls = L e ++ B e ++ rest /\ (drained s e -> rest = []).
Proof.
  intros I H. destruct (pi_data _ _ _ _ _ _ I e) as (c & E & [F|[F D]]).
  - destruct (lines_exist (ps_carry s e +++ pp_buf (ps_pipe s e))) as (rs & R). exists rs. assert (X := full_lines _ _ _ _ F R). rewrite <- E in X. split; [rewrite (lines_fun _ _ _ H X), <- app_assoc; reflexivity|].
    intros (_ & D1 & D2). rewrite D1, D2 in R. apply (lines_fun _ _ _ R). constructor.
  - assert (E' := E). destruct D as (_ & D1 & D2). rewrite D1, D2, !append_nil_r' in E'. rewrite E' in H. exists []. rewrite (lines_fun _ _ _ H F), app_nil_r. auto.
Qed.

Lemma refine ins s tr : prun ins s tr -> exists cins, cmd_run cins (ps_phase s) tr.
Proof.
  induction 1 as [|ins s tr i s' o R (cins & IH) E]; [exists []; constructor|].
  assert (K : forall carry ci, pcmd s carry ci = Some (s', o) -> exists cins', cmd_run cins' (ps_phase s') (tr ++ o)).
  { intros carry ci X. unfold pcmd in X. destruct (cmd_step (ps_phase s) ci) as [[p o']|] eqn:Y; [|discriminate]. injection X as <- <-. exists (cins ++ [ci]). cbn. econstructor; eauto. }
  assert (Q : ps_phase s' = ps_phase s -> o = [] -> exists cins', cmd_run cins' (ps_phase s') (tr ++ o)).
  { intros -> ->. rewrite app_nil_r. exists cins. exact IH. }
  destruct i as [ok|e c|e|code|e n|e|]; cbn [Pipe_model.pstep] in E.
  - eapply K, E.
  - destruct (_ && _); [|discriminate]. injection E as <- <-. apply Q; reflexivity.
  - destruct (_ && _); [|discriminate]. injection E as <- <-. apply Q; reflexivity.
  - destruct (ps_exit s); [discriminate|]. destruct (alive _); [|discriminate]. injection E as <- <-. apply Q; reflexivity.
  - destruct (ps_phase s) eqn:P; try discriminate. destruct (cut_line _); [discriminate|]. destruct (_ && _); [|discriminate]. injection E as <- <-. apply Q; [exact (eq_sym P)|reflexivity] || (apply Q; reflexivity).
  - destruct (ps_phase s); try discriminate. destruct (next_line _ _) as [[r rest]|]; [|discriminate]. eapply K, E.
  - destruct (ps_exit s); [|discriminate]. eapply K, E.
Qed.

(** ** Runs are short *)
Definition ph (p : cphase) : nat := match p with CSpawn => 3 | CRead => 2 | CWait => 1 | CDone _ => 0 end.
Definition buflen (s : pstate) (e : fd) := String.length (pp_buf (ps_pipe s e)).
Definition carrylen (s : pstate) (e : fd) := String.length (ps_carry s e).
Definition pot (s : pstate) : nat := 2 * buflen s Out + 2 * buflen s Errs + carrylen s Out + carrylen s Errs + ph (ps_phase s).
Lemma actions_app a b : actions (a ++ b) = actions a ++ actions b.
Proof. apply filter_app. Qed.
Lemma length_take n s : n <= String.length s -> String.length (take n s) = n.
Proof. intros H. assert (X := f_equal String.length (take_drop n s)). rewrite length_app', length_drop in X. lia. Qed.
Lemma pot_step s i s' o : pstep s i = Some (s', o) -> S (pot s') <= pot s + 3 * length (actions [i]).
Proof.
  intros E. destruct i as [ok|e c|e|code|e n|e|]; cbn [Pipe_model.pstep] in E; cbn [actions filter child_action length].
  - unfold pcmd in E. destruct (ps_phase s) eqn:P; try discriminate. cbn in E. injection E as <- <-. unfold pot, buflen, carrylen. cbn. rewrite P. destruct ok; cbn; lia.
  - destruct (_ && _); [|discriminate]. injection E as <- <-. unfold pot, buflen, carrylen. destruct e; cbn; rewrite length_app'; cbn; lia.
  - destruct (_ && _); [|discriminate]. injection E as <- <-. unfold pot, buflen, carrylen. destruct e; cbn; lia.
  - destruct (ps_exit s); [discriminate|]. destruct (alive _); [|discriminate]. injection E as <- <-. unfold pot, buflen, carrylen. cbn. lia.
  - destruct (ps_phase s) eqn:P; try discriminate. destruct (cut_line _); [discriminate|]. destruct (_ && _) eqn:G; [|discriminate]. injection E as <- <-. apply andb_true_iff in G as [G _]. apply andb_true_iff in G as [G1 G2]. apply Nat.ltb_lt in G1. apply Nat.leb_le in G2.
    unfold pot, buflen, carrylen. destruct e; cbn; rewrite length_app', length_drop, length_take, P by exact G2; cbn; lia.
  - destruct (ps_phase s) eqn:P; try discriminate. destruct (next_line _ _) as [[r rest]|] eqn:En; [|discriminate].
    assert (K : String.length rest + 1 <= String.length (ps_carry s e) \/ (r = RdEof /\ String.length rest <= String.length (ps_carry s e))).
    { unfold next_line in En. destruct (cut_line (ps_carry s e)) as [[l t]|] eqn:C.
      - injection En as <- <-. apply cut_line_some in C as [C _]. rewrite C, !length_app'. cbn. left. lia.
      - destruct (_ && _); [|discriminate]. injection En as <- <-. destruct (ps_carry s e); [right; auto|left; cbn; lia]. }
    unfold pcmd in E. rewrite P in E. unfold pot, buflen, carrylen. destruct e, r; cbn in E; injection E as <- <-; cbn; rewrite P; cbn; destruct K as [K|[K K']]; try discriminate K; lia.
  - destruct (ps_exit s); [|discriminate]. unfold pcmd in E. destruct (ps_phase s) eqn:P; try discriminate. cbn in E. injection E as <- <-. unfold pot, buflen, carrylen. cbn. rewrite P. cbn. lia.
Qed.
Lemma pot_run ins s tr : prun ins s tr -> length ins + pot s <= 3 * length (actions ins) + 3.
Proof.
  induction 1 as [|ins s tr i s' o R IH E]; [cbn; lia|]. apply pot_step in E. rewrite actions_app, !app_length. change (length [i]) with 1. lia.
Qed.

(** ** Programs *)
Lemma written_actions e ins : written e (actions ins) = written e ins.
Proof. unfold actions in *. induction ins as [|[| | | | | |] ins IH]; cbn [filter child_action written]; rewrite ?IH; reflexivity. Qed.
Lemma in_actions i ins : child_action i = true -> (In i (actions ins) <-> In i ins).
Proof. intros H. unfold actions. rewrite filter_In. tauto. Qed.
Lemma closed_actions e ins : closed e ins <-> closed e (actions ins).
Proof. unfold closed. rewrite in_actions by reflexivity. tauto. Qed.

Lemma reader_ready s e : ps_phase s = CRead -> (buflen s e <> 0 \/ pp_open (ps_pipe s e) = false) -> exists i s' o, pstep s i = Some (s', o) /\ child_action i = false.
Proof.
  intros P H. destruct (cut_line (ps_carry s e)) as [[l t]|] eqn:C.
  - exists (PILine e). cbn [Pipe_model.pstep]. rewrite P. unfold next_line, pcmd. rewrite C, P. unfold line_read. destruct e; destruct (utf8_ok l); cbn; eauto.
  - destruct (Nat.eq_dec (buflen s e) 0) as [Z|Z].
    + destruct H as [H|H]; [congruence|]. exists (PILine e). cbn [Pipe_model.pstep]. rewrite P, H. unfold next_line, pcmd. rewrite C, P. unfold buflen in Z. rewrite Z. cbn [Nat.eqb negb andb].
      unfold line_read. destruct (ps_carry s e) as [|a r]; [destruct e; cbn; eauto|]. destruct (utf8_ok (String a r)); destruct e; cbn; eauto.
    + exists (PIFill e 1). cbn [Pipe_model.pstep]. rewrite P, C. unfold buflen in Z. replace (Nat.leb 1 (String.length (pp_buf (ps_pipe s e)))) with true by (symmetry; apply Nat.leb_le; lia).
      cbn -[upd drop take]. eauto.
Qed.

Lemma performs_more prog ins i : performs prog ins -> child_action i = false -> performs prog (ins ++ [i]).
Proof. intros (r & E) H. exists r. rewrite actions_app. unfold actions at 2. cbn. rewrite H. cbn. rewrite app_nil_r. exact E. Qed.
Lemma performs_next prog ins i r : prog = actions ins ++ i :: r -> child_action i = true -> performs prog (ins ++ [i]).
Proof. intros E H. exists r. rewrite actions_app. unfold actions at 2. cbn. rewrite H. rewrite E, <- app_assoc. reflexivity. Qed.

(** An ordinary program: what we need of it. *)
Definition well_behaved (prog : list pinput) : Prop :=
  (forall i, In i prog -> child_action i = true) /\ (forall e, closed e prog) /\ (exists code, In (PIExit code) prog) /\
  (forall e a b, prog = a ++ PIClose e :: b -> ~ closed e a) /\
  (forall code code' a b, prog = a ++ PIExit code :: b -> ~ In (PIExit code') a) /\
  (forall e e' c a b, prog = a ++ PIWrite e c :: b -> ~ closed e' a).
Lemma split_app {A} (x y a : list A) z b : x ++ y = a ++ z :: b -> (exists b', x = a ++ z :: b') \/ (exists a', a = x ++ a' /\ y = a' ++ z :: b).
Proof.
  revert a. induction x as [|w x IH]; intros a E; [right; exists a; auto|]. destruct a as [|w' a]; cbn in E; injection E as -> E; [left; exists x; reflexivity|].
  destruct (IH _ E) as [(b' & ->)|(a' & -> & ->)]; [left; exists b'; reflexivity|right; exists a'; split; reflexivity].
Qed.
Lemma ordinary_well prog : ordinary_program prog -> well_behaved prog.
Proof.
  intros (bs & code & W & H).
  assert (exists t, prog = bs ++ t /\ (t = [PIExit code; PIClose Out; PIClose Errs] \/ t = [PIClose Out; PIClose Errs; PIExit code] \/ t = [PIExit code; PIClose Errs; PIClose Out] \/ t = [PIClose Errs; PIClose Out; PIExit code])) as (t & -> & T) by (destruct H as [->|[->|[->| ->]]]; eexists; (split; [reflexivity|tauto])).
  clear H. assert (NB : forall i, In i bs -> exists e c, i = PIWrite e c) by exact W.
  assert (P : forall a z b, bs ++ t = a ++ z :: b -> (exists e c, z = PIWrite e c) /\ (forall i, In i a -> In i bs) \/ (exists a', a = bs ++ a' /\ t = a' ++ z :: b)).
  { intros a z b E. apply split_app in E as [(b' & ->)|E]; [left|right; exact E]. split; [apply W, in_app_iff; right; left; reflexivity|]. intros i Hi. apply in_app_iff; auto. }
  assert (NW : forall e a, In (PIClose e) (bs ++ a) -> In (PIClose e) a) by (intros e a Hi; apply in_app_iff in Hi as [Hi|Hi]; [destruct (W _ Hi) as (? & ? & ?); discriminate|exact Hi]).
  assert (NX : forall e a, In (PIExit e) (bs ++ a) -> In (PIExit e) a) by (intros e a Hi; apply in_app_iff in Hi as [Hi|Hi]; [destruct (W _ Hi) as (? & ? & ?); discriminate|exact Hi]).
  split; [|split; [|split; [|split; [|split]]]].
  - intros i Hi. apply in_app_iff in Hi as [Hi|Hi]; [destruct (W _ Hi) as (? & ? & ->); reflexivity|]. destruct T as [->|[->|[->| ->]]]; repeat (destruct Hi as [<-|Hi]; [reflexivity|]); destruct Hi.
  - intros e. unfold closed. apply in_app_iff. right. destruct T as [->|[->|[->| ->]]]; destruct e; cbn; tauto.
  - exists code. apply in_app_iff. right. destruct T as [->|[->|[->| ->]]]; cbn; tauto.
  - intros e a b E C. apply P in E as [[(? & ? & ?) _]|(a' & -> & E)]; [discriminate|]. apply NW in C.
    destruct T as [->|[->|[->| ->]]]; destruct a' as [|x [|y [|z [|? ?]]]]; cbn in E, C; inversion E; subst; intuition congruence.
  - intros c c' a b E C. apply P in E as [[(? & ? & ?) _]|(a' & -> & E)]; [discriminate|]. apply NX in C.
    destruct T as [->|[->|[->| ->]]]; destruct a' as [|x [|y [|z [|? ?]]]]; cbn in E, C; inversion E; subst; intuition congruence.
  - intros e e' c a b E C. apply P in E as [[_ E]|(a' & -> & E)]; [apply E in C; destruct (W _ C) as (? & ? & ?); discriminate|].
    destruct T as [->|[->|[->| ->]]]; destruct a' as [|x [|y [|z [|? ?]]]]; cbn in E; inversion E.
Qed.

Lemma all_written prog ins rest e e' : well_behaved prog -> prog = actions ins ++ rest -> closed e ins -> written e' ins = written e' prog.
Proof.
  intros (Ch & _ & _ & _ & _ & Wr) E C. rewrite E, written_app, written_actions.
  assert (written e' rest = "") as ->; [|symmetry; apply append_nil_r'].
  apply (proj1 (closed_actions _ _)) in C. assert (K : forall a b, rest = a ++ b -> written e' a = ""); [|eapply (K rest []); symmetry; apply app_nil_r].
  intros a. induction a as [|x a IH] using rev_ind; [reflexivity|]. intros b Eb. rewrite written_app, (IH (x :: b)) by (rewrite Eb, <- app_assoc; reflexivity).
  destruct x; try reflexivity. exfalso. eapply Wr; [rewrite E, Eb, <- app_assoc, app_assoc; reflexivity|]. unfold closed. rewrite in_app_iff. left. exact C.
Qed.

Theorem progress prog ins s tr : cap > 0 -> prun ins s tr -> performs prog ins -> ordinary_program prog ->
  (forall e ls x, lines (written e prog) ls -> In x ls -> is_utf8 (fst x)) ->
  (exists b, ps_phase s = CDone b) \/ exists i s' o, pstep s i = Some (s', o) /\ performs prog (ins ++ [i]).
Proof.
  intros Hcap R (rest & Ep) Ord U. apply ordinary_well in Ord. assert (WB := Ord). destruct Ord as (Ch & Cl & (code & Ex) & C1 & X1 & W1).
  destruct (pinv_run _ _ _ _ R) as (L & B & fail & I).
  assert (Pf : performs prog ins) by (exists rest; exact Ep).
  assert (Op : forall e, ~ closed e (actions ins) -> pp_open (ps_pipe s e) = true).
  { intros e H. destruct (pp_open _) eqn:O; [reflexivity|]. apply (pi_closed _ _ _ _ _ _ I) in O. destruct H. apply (proj1 (closed_actions _ _)), O. }
  assert (Nx : (forall c, ~ In (PIExit c) (actions ins)) -> ps_exit s = None).
  { intros H. destruct (ps_exit s) as [c|] eqn:O; [|reflexivity]. apply (pi_exit _ _ _ _ _ _ I) in O. destruct (H c). apply in_actions; auto. }
  (* the child can move unless it is writing to a full pipe *)
  assert (Child : alive (ps_phase s) = true -> rest <> [] -> (exists i s' o, pstep s i = Some (s', o) /\ performs prog (ins ++ [i])) \/ (exists e c r, rest = PIWrite e c :: r /\ buflen s e >= cap)).
  { intros A Hr. destruct rest as [|i r]; [congruence|]. assert (Ca : child_action i = true) by (apply Ch; rewrite Ep; apply in_app_iff; right; left; reflexivity).
    assert (Pn := performs_next _ _ _ _ Ep Ca). destruct i as [ok|e c|e|c|e n|e|]; try discriminate Ca.
    - destruct (Nat.ltb (buflen s e) cap) eqn:Lt; [left|right; exists e, c, r; split; [reflexivity|apply Nat.ltb_ge in Lt; exact Lt]].
      exists (PIWrite e c). cbn [Pipe_model.pstep]. unfold buflen in Lt. rewrite A, Lt, (Op e) by (eapply W1, Ep). cbn. eauto.
    - left. exists (PIClose e). cbn [Pipe_model.pstep]. rewrite A, (Op e) by (eapply C1, Ep). cbn. eauto.
    - left. exists (PIExit c). cbn [Pipe_model.pstep]. rewrite A, Nx by (intros c'; eapply X1, Ep). cbn. eauto. }
  destruct (ps_phase s) as [| | |b] eqn:P; [right|right|right|left; eauto].
  - exists (PISpawn true). cbn [Pipe_model.pstep]. unfold pcmd. rewrite P. cbn. do 2 eexists. split; [reflexivity|]. apply performs_more; auto.
  - assert (Rd : forall e, buflen s e <> 0 \/ pp_open (ps_pipe s e) = false -> exists i s' o, pstep s i = Some (s', o) /\ performs prog (ins ++ [i])).
    { intros e H. destruct (reader_ready s e P H) as (i & s' & o & E & Hi). exists i, s', o. split; [exact E|]. apply performs_more; assumption. }
    destruct rest as [|i r].
    + apply (Rd Out). right. apply (pi_closed _ _ _ _ _ _ I). apply (proj2 (closed_actions _ _)). rewrite app_nil_r in Ep. rewrite <- Ep. apply Cl.
    + destruct (Child eq_refl) as [H|(e & c & r' & E & H)]; [discriminate|exact H|]. apply (Rd e). left. lia.
  - assert (Hc : exists e, closed e ins).
    { destruct (pi_after _ _ _ _ _ _ I) as [(_ & _ & e & D & _)|(_ & e & x & Hb & Nu & _)]; [rewrite P; reflexivity|exists e; apply (pi_closed _ _ _ _ _ _ I), D|].
      exfalso. apply Nu. destruct (pi_data _ _ _ _ _ _ I e) as (c & Ec & Hd).
      destruct (lines_exist (written e prog)) as (ls & Hls). apply (U e ls x Hls).
      destruct Hd as [F|[F D]].
      - assert (Ew : written e prog = c +++ (ps_carry s e +++ pp_buf (ps_pipe s e) +++ written e rest)) by (rewrite Ep, written_app, written_actions, Ec, !append_assoc'; reflexivity).
        destruct (lines_exist (ps_carry s e +++ pp_buf (ps_pipe s e) +++ written e rest)) as (rs & Hrs).
        assert (X := full_lines _ _ _ _ F Hrs). rewrite <- Ew in X. rewrite (lines_fun _ _ _ Hls X), Hb. rewrite !in_app_iff. left. right. left. reflexivity.
      - destruct D as (D0 & D1 & D2). rewrite D1, D2, !append_nil_r' in Ec. assert (Hcl : closed e ins) by (apply (pi_closed _ _ _ _ _ _ I), D0).
        rewrite <- (all_written prog ins rest e e WB Ep Hcl), Ec in Hls. rewrite (lines_fun _ _ _ Hls F), Hb, in_app_iff. right. left. reflexivity. }
    destruct Hc as (e & Hc). destruct rest as [|i r].
    + exists PIReap. cbn [Pipe_model.pstep]. unfold pcmd. rewrite P. assert (ps_exit s = Some code) as ->.
      { apply (pi_exit _ _ _ _ _ _ I). rewrite <- in_actions by reflexivity. rewrite app_nil_r in Ep. rewrite <- Ep. exact Ex. }
      cbn. do 2 eexists. split; [reflexivity|]. apply performs_more; auto.
    + destruct (Child eq_refl) as [H|(e' & c & r' & E & H)]; [discriminate|exact H|]. exfalso. rewrite E in Ep. eapply W1; [exact Ep|]. apply (proj1 (closed_actions _ _)) in Hc. exact Hc.
Qed.

(** ** Blocking *)
Lemma prun_pexec ins s tr ins' s' o : prun ins s tr -> pexec s ins' = Some (s', o) -> prun (ins ++ ins') s' (tr ++ o).
Proof.
  revert ins s tr o. induction ins' as [|i ins' IH]; intros ins s tr o R E; cbn in E.
  - injection E as <- <-. rewrite !app_nil_r. exact R.
  - destruct (pstep s i) as [[s1 o1]|] eqn:E1; [|discriminate]. destruct (pexec s1 ins') as [[s2 o2]|] eqn:E2; [|discriminate]. injection E as <- <-.
    change (i :: ins') with ([i] ++ ins'). rewrite !app_assoc. eapply IH; [econstructor; eauto|exact E2].
Qed.
Lemma wait_step s i s' o e : ps_phase s = CWait -> pstep s i = Some (s', o) -> String.length (written e [i]) + buflen s e = buflen s' e /\ (buflen s e <= cap -> buflen s' e <= cap).
Proof.
  intros P E. destruct i as [ok|e' c|e'|code|e' n|e'|]; cbn [Pipe_model.pstep] in E; unfold pcmd in E; rewrite ?P in E; try discriminate.
  - destruct (alive _ && _ && _) eqn:G; [|discriminate]. apply andb_true_iff in G as [_ G]. apply Nat.ltb_lt in G. injection E as <- <-. unfold buflen. cbn [ps_pipe written]. destruct (fd_dec e' e) as [<-|Ne].
    + rewrite fd_eqb_refl, upd_eq. cbn [pp_buf]. rewrite !length_app'. cbn. lia.
    + rewrite (proj2 (fd_eqb_ne _ _) Ne), upd_ne by congruence. cbn. lia.
  - destruct (_ && _); [|discriminate]. injection E as <- <-. unfold buflen. cbn [ps_pipe written]. destruct (fd_dec e e') as [<-|Ne]; [rewrite upd_eq|rewrite upd_ne by congruence]; cbn; lia.
  - destruct (ps_exit s); [discriminate|]. cbn in E. injection E as <- <-. cbn. auto.
  - destruct (ps_exit s); [|discriminate]. cbn in E. injection E as <- <-. cbn. auto.
Qed.
Lemma done_step s i b s' o : ps_phase s = CDone b -> pstep s i = Some (s', o) -> False.
Proof.
  intros P E. destruct i as [ok|e' c|e'|code|e' n|e'|]; cbn [Pipe_model.pstep] in E; unfold pcmd in E; rewrite ?P in E; try discriminate.
  - destruct (ps_exit s); discriminate E.
  - destruct (ps_exit s); [|discriminate]. discriminate E.
Qed.
Lemma wait_phase s i s' o : ps_phase s = CWait -> pstep s i = Some (s', o) -> ps_phase s' = CWait \/ exists b, ps_phase s' = CDone b.
Proof.
  intros P E. destruct i as [ok|e' c|e'|code|e' n|e'|]; cbn [Pipe_model.pstep] in E; unfold pcmd in E; rewrite ?P in E; try discriminate.
  - destruct (_ && _); [|discriminate]. injection E as <- <-. left. exact P || reflexivity.
  - destruct (_ && _); [|discriminate]. injection E as <- <-. left. exact P || reflexivity.
  - destruct (ps_exit s); [discriminate|]. cbn in E. injection E as <- <-. left. exact P || reflexivity.
  - destruct (ps_exit s); [|discriminate]. cbn in E. injection E as <- <-. right. eexists. reflexivity.
Qed.
Lemma wait_exec ins' : forall s s' o e, ps_phase s = CWait -> buflen s e <= cap -> pexec s ins' = Some (s', o) -> String.length (written e ins') + buflen s e <= cap.
Proof.
  induction ins' as [|i ins' IH]; intros s s' o e P H E; cbn [Pipe_model.pexec] in E; [exact H|].
  destruct (pstep s i) as [[s1 o1]|] eqn:E1; [|discriminate]. destruct (pexec s1 ins') as [[s2 o2]|] eqn:E2; [|discriminate].
  destruct (wait_step _ _ _ _ e P E1) as [W1 W2]. specialize (W2 H). change (i :: ins') with ([i] ++ ins'). rewrite written_app, length_app'.
  destruct (wait_phase _ _ _ _ P E1) as [P'|[b P']].
  - specialize (IH _ _ _ e P' W2 E2). lia.
  - destruct ins' as [|j ins'].
    + change (written e []) with "". change (String.length "") with 0. lia.
    + cbn [Pipe_model.pexec] in E2. destruct (pstep s1 j) as [[s3 o3]|] eqn:E3; [|discriminate]. destruct (done_step _ _ _ _ _ P' E3).
Qed.
(** A pipe never holds more than its capacity. *)
Lemma buf_cap ins s tr e : prun ins s tr -> buflen s e <= cap.
Proof.
  induction 1 as [|ins s tr i s' o R IH E]; [cbn; lia|]. destruct i as [ok|e' c|e'|code|e' n|e'|]; cbn [Pipe_model.pstep] in E; unfold pcmd in E.
  - destruct (cmd_step _ _) as [[p o']|]; [|discriminate]. injection E as <- <-. exact IH.
  - destruct (_ && _) eqn:G; [|discriminate]. apply andb_true_iff in G as [_ G]. apply Nat.ltb_lt in G. injection E as <- <-. unfold buflen in *. cbn [ps_pipe]. destruct (fd_dec e e') as [<-|Ne]; [rewrite upd_eq|rewrite upd_ne by congruence; exact IH]. cbn [pp_buf]. rewrite length_app'. cbn. lia.
  - destruct (_ && _); [|discriminate]. injection E as <- <-. unfold buflen in *. cbn [ps_pipe]. destruct (fd_dec e e') as [<-|Ne]; [rewrite upd_eq|rewrite upd_ne by congruence]; exact IH.
  - destruct (ps_exit s); [discriminate|]. destruct (alive _); [|discriminate]. injection E as <- <-. exact IH.
  - destruct (ps_phase s); try discriminate. destruct (cut_line _); [discriminate|]. destruct (_ && _); [|discriminate]. injection E as <- <-. unfold buflen in *. cbn [ps_pipe]. destruct (fd_dec e e') as [<-|Ne]; [rewrite upd_eq|rewrite upd_ne by congruence; exact IH]. cbn [pp_buf]. rewrite length_drop. lia.
  - destruct (ps_phase s); try discriminate. destruct (next_line _ _) as [[r rest]|]; [|discriminate]. destruct (cmd_step _ _) as [[p o']|]; [|discriminate]. injection E as <- <-. exact IH.
  - destruct (ps_exit s); [|discriminate]. destruct (cmd_step _ _) as [[p o']|]; [|discriminate]. injection E as <- <-. exact IH.
Qed.

(** The state only changes by what the reader did not see: exits. *)
Lemma pexec_run ins s tr ins' s' o : prun ins s tr -> pexec s ins' = Some (s', o) -> ps_phase s = CWait -> ps_phase s' = CWait \/ exists code, In (PIExit code) (ins ++ ins').
Proof.
  intros R E P. assert (R' := prun_pexec _ _ _ _ _ _ R E). destruct (pinv_run _ _ _ _ R') as (L & B & fail & I).
  destruct (ps_exit s') as [code|] eqn:X; [right; exists code; apply (pi_exit _ _ _ _ _ _ I), X|left].
  assert (K : forall ins' s s' o, pexec s ins' = Some (s', o) -> ps_phase s = CWait -> ps_exit s' = None -> ps_phase s' = CWait /\ ps_exit s = None).
  { clear. induction ins' as [|i ins' IH]; intros s s' o E P X; cbn [Pipe_model.pexec] in E; [injection E as <- <-; auto|].
    destruct (pstep s i) as [[s1 o1]|] eqn:E1; [|discriminate]. destruct (pexec s1 ins') as [[s2 o2]|] eqn:E2; [|discriminate]. injection E as <- <-.
    destruct (wait_phase _ _ _ _ P E1) as [P1|[b P1]].
    - destruct (IH _ _ _ E2 P1 X) as [A1 A2]. split; [exact A1|]. destruct i as [ok|e c|e|code|e n|e|]; cbn [Pipe_model.pstep] in E1; unfold pcmd in E1; rewrite ?P in E1; try discriminate.
      + destruct (_ && _); [|discriminate]. injection E1 as <- <-. exact A2.
      + destruct (_ && _); [|discriminate]. injection E1 as <- <-. exact A2.
      + destruct (ps_exit s); [discriminate|reflexivity].
      + destruct (ps_exit s) as [code|] eqn:Z; [|discriminate]. cbn in E1. injection E1 as <- <-. cbn in A2. congruence.
    - exfalso. destruct ins' as [|j ins'].
      + cbn in E2. injection E2 as <- <-. destruct i as [ok|e c|e|code|e n|e|]; cbn [Pipe_model.pstep] in E1; unfold pcmd in E1; rewrite ?P in E1; try discriminate.
        * destruct (_ && _); [|discriminate]. injection E1 as <- <-. cbn in P1. congruence.
        * destruct (_ && _); [|discriminate]. injection E1 as <- <-. cbn in P1. congruence.
        * destruct (ps_exit s) eqn:Z; [discriminate|]. cbn in E1. injection E1 as <- <-. cbn in P1. congruence.
        * destruct (ps_exit s) as [code|] eqn:Z; [|discriminate]. cbn in E1. injection E1 as <- <-. cbn in X. congruence.
      + cbn [Pipe_model.pexec] in E2. destruct (pstep s1 j) as [[s3 o3]|] eqn:E3; [|discriminate]. destruct (done_step _ _ _ _ _ P1 E3). }
  eapply K; eauto.
Qed.

Lemma blocked prog ins s tr e mid code post : prun ins s tr -> ps_phase s = CWait -> prog = actions ins ++ mid ++ PIExit code :: post ->
  (forall c, ~ In (PIExit c) (actions ins ++ mid)) -> String.length (written e mid) > cap ->
  forall ins' s' o, pexec s ins' = Some (s', o) -> performs prog (ins ++ ins') -> ps_phase s' = CWait /\ (forall c, ~ In (PIExit c) (ins ++ ins')).
Proof.
  intros R P Ep NX H ins' s' o E (rest & Er). assert (Hb := buf_cap _ _ _ e R). assert (W := wait_exec _ _ _ _ _ P Hb E).
  assert (N : forall c, ~ In (PIExit c) (ins ++ ins')).
  { intros c C. rewrite <- in_actions in C by reflexivity. rewrite actions_app in Er, C. rewrite Ep, <- app_assoc in Er. apply app_inv_head in Er.
    rewrite in_app_iff in C. destruct C as [C|C]; [apply (NX c), in_app_iff; auto|]. apply in_split in C as (a & b & C). rewrite C in Er.
    rewrite <- app_assoc in Er. cbn [app] in Er. apply split_app in Er as [(b' & Em)|(a' & Ea & _)].
    - apply (NX c). rewrite Em, !in_app_iff. right. right. left. reflexivity.
    - assert (String.length (written e ins') <= cap) by lia. rewrite <- written_actions, C, Ea, !written_app, !length_app' in H0. lia. }
  split; [|exact N]. destruct (pexec_run _ _ _ _ _ _ R E P) as [K|[c K]]; [exact K|destruct (N c K)].
Qed.

(** ** Programs that block *)
Lemma close_blocks e : exists s, prun [PISpawn true; PIClose e; PILine e] s [] /\ ps_phase s = CWait.
Proof.
  destruct (pexec pinit [PISpawn true; PIClose e; PILine e]) as [[s o]|] eqn:E.
  - exists s. assert (o = [] /\ ps_phase s = CWait) as [-> P] by (destruct e; cbn in E; injection E as <- <-; auto). split; [|exact P].
    apply (prun_pexec [] pinit [] _ s []); [constructor|exact E].
  - destruct e; discriminate E.
Qed.
Lemma written_writes e e' s : written e' (writes e s) = if fd_eqb e e' then s else "".
Proof. unfold writes. induction s as [|a s IH]; cbn [list_ascii_of_string map written]; [destruct (fd_eqb e e'); reflexivity|]. rewrite IH. destruct (fd_eqb e e'); reflexivity. Qed.
Lemma writes_actions e s : actions (writes e s) = writes e s.
Proof. unfold writes, actions. induction s as [|a s IH]; cbn; [reflexivity|]. rewrite IH. reflexivity. Qed.
Lemma writes_no_exit e s c : ~ In (PIExit c) (writes e s).
Proof. unfold writes. rewrite in_map_iff. intros (x & E & _). discriminate E. Qed.
Lemma exec_writes e w : forall s, ps_phase s = CRead -> pp_open (ps_pipe s e) = true -> buflen s e + String.length w <= cap ->
  exists f, pexec s (writes e w) = Some (PState f (ps_carry s) (ps_exit s) CRead, []) /\ pp_buf (f e) = pp_buf (ps_pipe s e) +++ w /\ pp_open (f e) = true.
Proof.
  unfold writes. induction w as [|a w IH]; intros s P O H.
  - exists (ps_pipe s). cbn. rewrite append_nil_r', <- P. destruct s; auto.
  - cbn [list_ascii_of_string map Pipe_model.pexec Pipe_model.pstep]. rewrite P, O. cbn in H. replace (Nat.ltb (String.length (pp_buf (ps_pipe s e))) cap) with true by (symmetry; apply Nat.ltb_lt; unfold buflen in H; lia). cbn [alive andb].
    set (s1 := PState _ _ _ _). destruct (IH s1) as (f & E & B & O').
    + reflexivity.
    + cbn. rewrite upd_eq. reflexivity.
    + unfold buflen in *. cbn. rewrite upd_eq. cbn. rewrite length_app'. cbn. lia.
    + exists f. rewrite E. cbn [app]. split; [reflexivity|]. split; [|exact O']. rewrite B. cbn. rewrite upd_eq. cbn. rewrite append_assoc'. reflexivity.
Qed.
Lemma take_all s : take (String.length s) s = s.
Proof. unfold take. induction s; cbn; congruence. Qed.
Lemma bad_line_blocks e raw : free_of nl raw -> ~ is_utf8 raw -> S (String.length raw) <= cap -> S (String.length raw) <= bufreader_capacity ->
  exists s, prun (PISpawn true :: writes e (raw +++ lf) ++ [PIFill e (S (String.length raw)); PILine e]) s [SeLog (Log LError utf8_message)] /\ ps_phase s = CWait.
Proof.
  intros F U Hc Hb. set (s0 := PState (fun _ => Pipe "" true) (fun _ => "") None CRead).
  assert (Ll : String.length (raw +++ lf) = S (String.length raw)) by (rewrite length_app'; cbn; lia).
  assert (R0 : prun [PISpawn true] s0 []) by (apply (prun_step cap [] pinit [] (PISpawn true) s0 []); [constructor|reflexivity]).
  destruct (exec_writes e (raw +++ lf) s0) as (f & E & B & O); [reflexivity|reflexivity|rewrite Ll; exact Hc|]. cbn [ps_carry ps_exit s0] in E.
  assert (R1 := prun_pexec _ _ _ _ _ _ R0 E). cbn [app] in R1.
  set (s1 := PState f (fun _ => "") None CRead) in *. cbn in B.
  assert (E2 : exists s2, pstep s1 (PIFill e (S (String.length raw))) = Some (s2, []) /\ ps_carry s2 e = raw +++ lf /\ ps_phase s2 = CRead).
  { cbn [Pipe_model.pstep s1 ps_phase ps_carry ps_pipe ps_exit]. cbn [cut_line]. rewrite B, Ll. rewrite Nat.leb_refl. replace (Nat.leb (S (String.length raw)) bufreader_capacity) with true by (symmetry; apply Nat.leb_le, Hb). cbn [Nat.ltb Nat.leb andb].
    eexists. split; [reflexivity|]. cbn [ps_carry ps_phase]. rewrite upd_eq. split; [|reflexivity]. rewrite <- Ll. cbn [append]. apply take_all. }
  destruct E2 as (s2 & E2 & C2 & P2).
  assert (E3 : exists s3, pstep s2 (PILine e) = Some (s3, [SeLog (Log LError utf8_message)]) /\ ps_phase s3 = CWait).
  { cbn [Pipe_model.pstep]. rewrite P2, C2. unfold next_line. rewrite (proj2 (cut_line_some (raw +++ lf) raw "") (conj eq_refl F)). unfold line_read, pcmd. apply utf8_ok_false in U. rewrite U, P2. destruct e; cbn; eauto. }
  destruct E3 as (s3 & E3 & P3). exists s3. split; [|exact P3].
  assert (R3 := prun_step _ _ _ _ _ _ _ (prun_step _ _ _ _ _ _ _ R1 E2) E3). rewrite <- app_assoc in R3. exact R3.
Qed.

Lemma done_facts ins s tr : prun ins s tr ->
  (ps_phase s = CDone true <-> In PIReap ins) /\ (ps_phase s = CDone false <-> In (PISpawn false) ins) /\ (ps_phase s = CDone true -> exists code, ps_exit s = Some code).
Proof.
  induction 1 as [|ins s tr i s' o R (IH1 & IH2 & IH3) E]; [cbn; repeat split; try discriminate; intros []|].
  assert (N1 : ~ In PIReap ins) by (intros C; apply IH1 in C; eapply done_step; eauto).
  assert (N2 : ~ In (PISpawn false) ins) by (intros C; apply IH2 in C; eapply done_step; eauto).
  assert (ND : forall b, ps_phase s <> CDone b) by (intros b C; eapply done_step; eauto).
  rewrite !in_app_iff. destruct i as [ok|e c|e|code|e n|e|]; cbn [Pipe_model.pstep] in E; unfold pcmd in E.
  - destruct (ps_phase s) eqn:P; try discriminate. cbn in E. injection E as <- <-. cbn. destruct ok; repeat split; try discriminate; intuition (try discriminate; auto).
  - destruct (_ && _); [|discriminate]. injection E as <- <-. cbn [ps_phase ps_exit]. cbn. repeat split; try (intros C; destruct (ND _ C)); intuition discriminate.
  - destruct (_ && _); [|discriminate]. injection E as <- <-. cbn [ps_phase ps_exit]. cbn. repeat split; try (intros C; destruct (ND _ C)); intuition discriminate.
  - destruct (ps_exit s); [discriminate|]. destruct (alive _); [|discriminate]. injection E as <- <-. cbn [ps_phase ps_exit]. cbn. repeat split; try (intros C; destruct (ND _ C)); intuition discriminate.
  - destruct (ps_phase s) eqn:P; try discriminate. destruct (cut_line _); [discriminate|]. destruct (_ && _); [|discriminate]. injection E as <- <-. cbn. repeat split; try discriminate; intuition discriminate.
  - destruct (ps_phase s) eqn:P; try discriminate. destruct (next_line _ _) as [[rd rest]|]; [|discriminate]. destruct (cmd_step _ _) as [[p o']|] eqn:Cs; [|discriminate]. injection E as <- <-. cbn [ps_phase ps_exit].
    assert (forall b, p <> CDone b) by (intros b; destruct e, rd; cbn in Cs; injection Cs as <- <-; discriminate). cbn. repeat split; try (intros C; destruct (H _ C)); intuition discriminate.
  - destruct (ps_exit s) eqn:X; [|discriminate]. destruct (ps_phase s) eqn:P; try discriminate. cbn in E. injection E as <- <-. cbn [ps_phase ps_exit]. cbn. repeat split; try discriminate; intuition (try discriminate; eauto).
Qed.
End P.
