From Verif Require Import Base Types Signals_model Signals_proof Stream_model Stream_proof Plugins_model Plugins_spec Plugins_proof Exec_model Runner_model Runner_spec Sched_model Sched_spec Sched_proof Remote_model Remote_spec.

(** ** The stream under the client's calls *)
Fixpoint first_end (effs : list seff) : option run_result :=
  match effs with [] => None | SeEnd r :: _ => Some r | _ :: rest => first_end rest end.
Lemma first_end_app a b : first_end (a ++ b) = match first_end a with Some r => Some r | None => first_end b end.
Proof. induction a as [|[l|r] a IH]; cbn; auto. Qed.
Lemma logged_app a b : logged (a ++ b) = logged a ++ logged b.
Proof. apply flat_map_app. Qed.
Lemma has_end_iff effs : has_end effs = match first_end effs with Some _ => true | None => false end.
Proof. induction effs as [|[l|r] e IH]; cbn; auto. Qed.
Lemma stream_of_eq effs : stream_of effs = StreamState (logged effs) (first_end effs) None 0 [].
Proof.
  unfold stream_of. induction effs as [|e effs IH] using rev_ind; [reflexivity|].
  rewrite flat_map_app, stream_after_app, IH, logged_app, first_end_app. cbn [flat_map]. rewrite app_nil_r.
  destruct e as [[[|] m]|r]; cbn.
  - destruct (first_end effs); reflexivity.
  - destruct (first_end effs); reflexivity.
  - unfold end_call. cbn [fold_left fst stream_step]. unfold stream_end_check. cbn [ss_result ss_logs ss_waker ss_index ss_enders].
    rewrite app_nil_r. destruct (first_end effs) eqn:E.
    + cbn. reflexivity.
    + cbn. reflexivity.
Qed.

Lemma server_sent_snoc ins i : server_sent (ins ++ [i]) = server_sent ins ++ match i with RiLog l => [RspLog l] | RiResult r => [RspResult r] | _ => [] end.
Proof. unfold server_sent. rewrite flat_map_app. cbn. rewrite app_nil_r. reflexivity. Qed.
Lemma deliveries_snoc ins i : deliveries (ins ++ [i]) = deliveries ins + match i with RiDeliver => 1 | _ => 0 end.
Proof. unfold deliveries. rewrite filter_app, app_length. destruct i; reflexivity. Qed.
Lemma logs_of_app a b : logs_of (a ++ b) = logs_of a ++ logs_of b.
Proof. apply flat_map_app. Qed.
Lemma result_of_app a b : result_of (a ++ b) = match result_of a with Some r => Some r | None => result_of b end.
Proof. induction a as [|[l|r] a IH]; cbn; auto. Qed.
Lemma find_app {A} (f : A -> bool) a b : find f (a ++ b) = match find f a with Some x => Some x | None => find f b end.
Proof. induction a as [|x a IH]; cbn; [reflexivity|]. destruct (f x); auto. Qed.

Definition line_after (ins : list rinput) (res : option run_result) : list log :=
  match find ends_client ins with
  | Some (RiAnswer (Some e)) | Some (RiBroken e) => [log_error ("Failed to run: " +++ e)]
  | Some _ => match res with Some _ => [] | None => [log_error "Failed to run"] end
  | None => []
  end.
Record rinv (ins : list rinput) (st : remote) (del : list response) : Prop := RInv {
  ri_sent : server_sent ins = del ++ r_wire st;
  ri_del : deliveries ins = length del;
  ri_logged : logged (r_effs st) = logs_of del ++ line_after ins (result_of del);
  ri_end : first_end (r_effs st) = match result_of del with Some r => Some r | None => match r_client st with RDone => Some (RFailed 1) | _ => None end end;
  ri_done : find ends_client ins = None <-> r_client st <> RDone;
  ri_call : r_client st = RCall -> del = [] }.

Lemma log_same l : match l_type l with LError => log_error (l_message l) | LLog => log_log (l_message l) end = l.
Proof. destruct l as [[|] m]; reflexivity. Qed.
Lemma not_done ins st del : rinv ins st del -> r_client st <> RDone -> line_after ins (result_of del) = [] /\ find ends_client ins = None.
Proof. intros I H. apply (ri_done _ _ _ I) in H. unfold line_after. rewrite H. auto. Qed.
Lemma line_snoc_none ins i res : ends_client i = false -> line_after (ins ++ [i]) res = line_after ins res.
Proof. intros H. unfold line_after. rewrite find_app. cbn. rewrite H. destruct (find ends_client ins); reflexivity. Qed.
Lemma find_snoc_none ins i : ends_client i = false -> find ends_client (ins ++ [i]) = find ends_client ins.
Proof. intros H. rewrite find_app. cbn. rewrite H. destruct (find ends_client ins); reflexivity. Qed.

Lemma rinv_run ins st : remote_run ins st -> exists del, rinv ins st del.
Proof.
  induction 1 as [|ins st i st' R [del I] E].
  - exists []. constructor; try reflexivity. split; [intros _; discriminate|reflexivity].
  - destruct st as [cl sv wire effs sent]. assert (Hx : forall p : Prop, (cl <> RDone -> p) -> (cl = RDone -> p) -> p) by (intros p A B; destruct cl; [apply A; discriminate|apply A; discriminate|apply B; reflexivity]).
    destruct I as [I1 I2 I3 I4 I5 I6]. cbn [r_client r_server r_wire r_effs r_sent] in *.
    destruct i as [err|l|r| | | |e|s err]; cbn [remote_step r_client r_server r_wire r_effs r_sent] in E; unfold client_gets in E; cbn [r_client r_effs] in E.
    + destruct cl; try discriminate E. destruct err as [e|]; cbn in E; injection E as <-; exists del; constructor; cbn [r_client r_wire r_effs];
        rewrite ?server_sent_snoc, ?deliveries_snoc, ?app_nil_r, ?Nat.add_0_r; try assumption.
      * assert (F : find ends_client ins = None) by (apply I5; discriminate). rewrite logged_app, I3. unfold line_after. rewrite find_app, F. cbn. rewrite (I6 eq_refl). reflexivity.
      * rewrite first_end_app, I4. rewrite (I6 eq_refl). reflexivity.
      * assert (F : find ends_client ins = None) by (apply I5; discriminate). rewrite find_app, F. cbn. split; [discriminate|intros C; contradiction].
      * discriminate.
      * rewrite line_snoc_none by reflexivity. exact I3.
      * rewrite find_snoc_none by reflexivity. split; [discriminate|]. intros _. apply I5. discriminate.
      * discriminate.
    + destruct sv; try discriminate E. injection E as <-. exists del. constructor; cbn [r_client r_wire r_effs]; rewrite ?server_sent_snoc, ?deliveries_snoc, ?Nat.add_0_r; try assumption.
      * rewrite I1, app_assoc. reflexivity.
      * rewrite line_snoc_none by reflexivity. exact I3.
      * rewrite find_snoc_none by reflexivity. exact I5.
    + destruct sv; try discriminate E. injection E as <-. exists del. constructor; cbn [r_client r_wire r_effs]; rewrite ?server_sent_snoc, ?deliveries_snoc, ?Nat.add_0_r; try assumption.
      * rewrite I1, app_assoc. reflexivity.
      * rewrite line_snoc_none by reflexivity. exact I3.
      * rewrite find_snoc_none by reflexivity. exact I5.
    + destruct sv; try discriminate E. injection E as <-. exists del. constructor; cbn [r_client r_wire r_effs]; rewrite ?server_sent_snoc, ?deliveries_snoc, ?app_nil_r, ?Nat.add_0_r; try assumption.
      * rewrite line_snoc_none by reflexivity. exact I3.
      * rewrite find_snoc_none by reflexivity. exact I5.
    + destruct wire as [|m w]; [discriminate E|]. destruct cl; try (destruct m; discriminate E).
      assert (F : find ends_client ins = None) by (apply I5; discriminate).
      assert (G : line_after ins (result_of del) = []) by (unfold line_after; rewrite F; reflexivity). rewrite G, app_nil_r in I3.
      exists (del ++ [m]). destruct m as [l|r]; cbn [client_step] in E; injection E as <-; constructor; cbn [r_client r_wire r_effs];
        rewrite ?server_sent_snoc, ?deliveries_snoc, ?app_nil_r, ?app_length; cbn [length]; try (rewrite I2; reflexivity); try (rewrite I1, <- app_assoc; reflexivity);
        try (rewrite find_snoc_none by reflexivity; split; [discriminate|intros _; exact F]); try discriminate.
      * rewrite line_snoc_none by reflexivity. rewrite logged_app, I3, logs_of_app, log_same. unfold line_after. rewrite F, app_nil_r. reflexivity.
      * rewrite first_end_app, result_of_app, I4. cbn. destruct (result_of del); reflexivity.
      * rewrite line_snoc_none by reflexivity. rewrite logged_app, I3, logs_of_app. unfold line_after. rewrite F. cbn. rewrite !app_nil_r. reflexivity.
      * rewrite first_end_app, result_of_app, I4. cbn. destruct (result_of del); reflexivity.
    + destruct wire; [|discriminate E]. destruct sv; try discriminate E. destruct cl; try discriminate E. cbn [client_step] in E. injection E as <-.
      assert (F : find ends_client ins = None) by (apply I5; discriminate).
      assert (G : line_after ins (result_of del) = []) by (unfold line_after; rewrite F; reflexivity). rewrite G, app_nil_r in I3.
      exists del. constructor; cbn [r_client r_wire r_effs]; rewrite ?server_sent_snoc, ?deliveries_snoc, ?app_nil_r, ?Nat.add_0_r; try assumption; try discriminate.
      * rewrite app_nil_r in I1. exact I1.
      * rewrite logged_app, I3. unfold line_after. rewrite find_app, F. cbn. rewrite has_end_iff, I4. destruct (result_of del); reflexivity.
      * rewrite first_end_app, has_end_iff, I4. destruct (result_of del); reflexivity.
      * rewrite find_app, F. cbn. split; [discriminate|intros C; contradiction].
    + destruct cl; try discriminate E. cbn [client_step] in E. injection E as <-.
      assert (F : find ends_client ins = None) by (apply I5; discriminate).
      assert (G : line_after ins (result_of del) = []) by (unfold line_after; rewrite F; reflexivity). rewrite G, app_nil_r in I3.
      exists del. constructor; cbn [r_client r_wire r_effs]; rewrite ?server_sent_snoc, ?deliveries_snoc, ?app_nil_r, ?Nat.add_0_r; try assumption; try discriminate.
      * rewrite logged_app, I3. unfold line_after. rewrite find_app, F. cbn. reflexivity.
      * rewrite first_end_app, I4. destruct (result_of del); reflexivity.
      * rewrite find_app, F. cbn. split; [discriminate|intros C; contradiction].
    + destruct cl; try discriminate E. destruct err as [e|]; cbn [client_step] in E; injection E as <-;
      assert (F : find ends_client ins = None) by (apply I5; discriminate);
      assert (G : line_after ins (result_of del) = []) by (unfold line_after; rewrite F; reflexivity); rewrite G, app_nil_r in I3;
      exists del; constructor; cbn [r_client r_wire r_effs]; rewrite ?server_sent_snoc, ?deliveries_snoc, ?app_nil_r, ?Nat.add_0_r; try assumption; try discriminate.
      * rewrite logged_app, I3. unfold line_after. rewrite find_app, F. cbn. rewrite has_end_iff, I4. destruct (result_of del); reflexivity.
      * rewrite first_end_app, has_end_iff, I4. destruct (result_of del); reflexivity.
      * rewrite find_app, F. cbn. split; [discriminate|intros C; contradiction].
      * rewrite line_snoc_none by reflexivity. rewrite G, app_nil_r. exact I3.
      * rewrite find_snoc_none by reflexivity. split; [discriminate|intros _; exact F].
Qed.
Lemma rinv_arrived ins st del : rinv ins st del -> arrived ins = del.
Proof. intros I. unfold arrived. rewrite (ri_del _ _ _ I), (ri_sent _ _ _ I), firstn_app, firstn_all, Nat.sub_diag. cbn. apply app_nil_r. Qed.

(** What the server's runner has done so far. *)
Lemma server_inv ins st : remote_run ins st ->
  match r_server st with
  | SvDone => (exists r, server_sent ins = map RspLog (yielded ins) ++ [RspResult r] /\ In (RiResult r) ins) \/ (server_sent ins = map RspLog (yielded ins) /\ In RiRunnerFails ins)
  | _ => server_sent ins = map RspLog (yielded ins)
  end /\ (clean ins -> r_client st = RDone -> r_wire st = [] /\ r_server st = SvDone).
Proof.
  induction 1 as [|ins st i st' R [IH1 IH2] E]; [split; [reflexivity|intros _; discriminate]|].
  assert (Y : yielded (ins ++ [i]) = yielded ins ++ match i with RiLog l => [l] | _ => [] end) by (unfold yielded; rewrite flat_map_app; cbn; rewrite app_nil_r; reflexivity).
  assert (CL : clean (ins ++ [i]) -> clean ins /\ is_fault i = false) by (intros C; split; [intros j Hj; apply C, in_or_app; auto|apply C, in_or_app; right; left; reflexivity]).
  destruct st as [cl sv wire effs sent]. cbn [r_client r_server r_wire r_effs r_sent] in *. rewrite Y, server_sent_snoc.
  assert (K : match i with RiLog _ | RiResult _ | RiRunnerFails => False | _ => True end ->
     forall sv', match sv with
      | SvDone => (exists r, server_sent ins = map RspLog (yielded ins) ++ [RspResult r] /\ In (RiResult r) ins) \/ (server_sent ins = map RspLog (yielded ins) /\ In RiRunnerFails ins)
      | _ => server_sent ins = map RspLog (yielded ins)
      end -> (sv' = sv \/ (sv <> SvDone /\ sv' <> SvDone)) ->
      match sv' with
      | SvDone => (exists r, server_sent ins ++ [] = map RspLog (yielded ins ++ []) ++ [RspResult r] /\ In (RiResult r) (ins ++ [i])) \/ (server_sent ins ++ [] = map RspLog (yielded ins ++ []) /\ In RiRunnerFails (ins ++ [i]))
      | _ => server_sent ins ++ [] = map RspLog (yielded ins ++ [])
      end).
  { intros _ sv' H Hs. rewrite !app_nil_r. destruct Hs as [->|[H1 H2]].
    - destruct sv; auto. destruct H as [(r & H & Hi)|[H Hi]]; [left; exists r|right]; (split; [exact H|apply in_or_app; auto]).
    - destruct sv; try contradiction; destruct sv'; try contradiction; exact H. }
  destruct i as [err|l|r| | | |e|s err]; cbn [remote_step r_client r_server r_wire r_effs r_sent] in E; unfold client_gets in E; cbn [r_client r_effs] in E.
  - destruct cl; try discriminate E. destruct err as [e|]; cbn in E; injection E as <-; cbn [r_client r_server r_wire].
    + split; [apply K; auto|]. intros C _. apply CL in C as [_ C]. discriminate C.
    + split; [|intros _; discriminate]. rewrite !app_nil_r. destruct sv; auto. exfalso.
      clear -R. remember (Remote RCall SvDone wire effs sent) as st eqn:S. revert wire effs sent S.
      assert (J : forall ins st, remote_run ins st -> r_client st = RCall -> r_server st = SvIdle).
      { clear. induction 1 as [|ins st i st' R IH E]; [reflexivity|]. intros H. destruct st as [cl sv wire effs sent]; cbn [r_client r_server] in *.
        destruct i as [err|l|r| | | |e|s err]; cbn [remote_step r_client r_server r_wire r_effs r_sent] in E; unfold client_gets in E; cbn [r_client r_effs] in E.
        - destruct cl; try discriminate E. destruct err; cbn in E; injection E as <-; discriminate H.
        - destruct sv; try discriminate E. injection E as <-. cbn in H. specialize (IH H). discriminate.
        - destruct sv; try discriminate E. injection E as <-. cbn in H. specialize (IH H). discriminate.
        - destruct sv; try discriminate E. injection E as <-. cbn in H. specialize (IH H). discriminate.
        - destruct wire as [|m w]; [discriminate|]. destruct cl, m; try discriminate E; injection E as <-; discriminate H.
        - destruct wire; [|discriminate]. destruct sv; try discriminate. destruct cl; try discriminate E. injection E as <-. discriminate H.
        - destruct cl; try discriminate E. injection E as <-. discriminate H.
        - destruct cl; try discriminate E. destruct err; injection E as <-; discriminate H. }
      intros wire effs sent ->. specialize (J _ _ R eq_refl). discriminate J.
  - destruct sv; try discriminate E. injection E as <-. cbn [r_client r_server r_wire]. split; [rewrite IH1, map_app; reflexivity|]. intros C H. apply CL in C as [C _]. apply IH2 in C as [_ C]; [discriminate C|exact H].
  - destruct sv; try discriminate E. injection E as <-. cbn [r_client r_server r_wire]. split.
    + left. exists r. rewrite IH1, app_nil_r. split; [reflexivity|apply in_or_app; right; left; reflexivity].
    + intros C H. apply CL in C as [C _]. apply IH2 in C as [_ C]; [discriminate C|exact H].
  - destruct sv; try discriminate E. injection E as <-. cbn [r_client r_server r_wire]. split.
    + right. rewrite !app_nil_r. split; [exact IH1|apply in_or_app; right; left; reflexivity].
    + intros C _. apply CL in C as [_ C]. discriminate C.
  - destruct wire as [|m w]; [discriminate|]. destruct cl; [destruct m; discriminate E| |destruct m; discriminate E].
    destruct m; cbn in E; injection E as <-; cbn [r_client r_server r_wire]; (split; [apply K; auto|intros _; discriminate]).
  - destruct wire; [|discriminate]. destruct sv; try discriminate. destruct cl; try discriminate E. cbn in E. injection E as <-. cbn [r_client r_server r_wire]. split; [apply (K I SvDone); auto|auto].
  - destruct cl; try discriminate E. cbn in E. injection E as <-. cbn [r_client r_server r_wire]. split; [apply K; auto|]. intros C _. apply CL in C as [_ C]. discriminate C.
  - destruct cl; try discriminate E. destruct err; cbn in E; injection E as <-; cbn [r_client r_server r_wire]; (split; [apply K; auto|]); [|intros _; discriminate]. intros C _. apply CL in C as [_ C]. discriminate C.
Qed.
Lemma logs_of_map ls : logs_of (map RspLog ls) = ls.
Proof. induction ls; cbn; [reflexivity|f_equal; assumption]. Qed.
Lemma result_of_map ls r : result_of (map RspLog ls ++ [RspResult r]) = Some r.
Proof. induction ls; cbn; auto. Qed.

(** ** The table of signals *)
Lemma stable_after_app a b : stable_after (a ++ b) = fold_left stable_step b (stable_after a).
Proof. apply fold_left_app. Qed.
Definition table_ok (t : stable) : Prop :=
  (forall id a, lookup id (tb_signals t) = Some a -> a < length (tb_heap t)) /\
  (forall id id' a, lookup id (tb_signals t) = Some a -> lookup id' (tb_signals t) = Some a -> id = id').
Lemma heap_length_step t m : length (tb_heap (stable_step t m)) = length (tb_heap t) + match m with SmRun _ => 1 | _ => 0 end.
Proof.
  destruct m as [id|id|id s|]; cbn [stable_step tb_heap]; rewrite ?app_length; cbn [length]; try lia.
  destruct (lookup id (tb_signals t)) as [a|]; [|lia]. destruct (nth_error (tb_heap t) a); cbn [tb_heap]; rewrite ?list_set_length; lia.
Qed.
Lemma table_ok_step t m : table_ok t -> table_ok (stable_step t m).
Proof.
  intros [B J]. destruct m as [id|id|id s|]; cbn [stable_step].
  - split; cbn [tb_signals tb_heap].
    + intros id' a. rewrite app_length. cbn [length]. rewrite lookup_insert_b. destruct (eqb id' id); [intros [= <-]; lia|]. intros H. apply B in H. lia.
    + intros i1 i2 a. rewrite !lookup_insert_b. destruct (eqb i1 id) eqn:E1, (eqb i2 id) eqn:E2.
      * apply (proj1 (eqb_true _ _)) in E1, E2. congruence.
      * intros [= <-] H. apply B in H. lia.
      * intros H [= <-]. apply B in H. lia.
      * apply J.
  - split; cbn [tb_signals tb_heap].
    + intros id' a. rewrite lookup_remove_b. destruct (eqb id' id); [discriminate|apply B].
    + intros i1 i2 a. rewrite !lookup_remove_b. destruct (eqb i1 id), (eqb i2 id); try discriminate. apply J.
  - destruct (lookup id (tb_signals t)) as [a|]; [|split; assumption]. destruct (nth_error (tb_heap t) a); [|split; assumption].
    split; cbn [tb_signals tb_heap]; [|exact J]. intros id' b H. rewrite list_set_length. exact (B _ _ H).
  - split; assumption.
Qed.
Lemma table_ok_after h : table_ok (stable_after h).
Proof.
  induction h as [|m h IH] using rev_ind; [split; cbn; discriminate|]. rewrite stable_after_app. cbn [fold_left]. apply table_ok_step, IH.
Qed.
Lemma heap_length h : length (tb_heap (stable_after h)) = run_calls h.
Proof.
  induction h as [|m h IH] using rev_ind; [reflexivity|]. rewrite stable_after_app. cbn [fold_left]. rewrite heap_length_step, IH. unfold run_calls. rewrite filter_app, app_length. destruct m; reflexivity.
Qed.
Lemma nth_list_set_ne {A} n (x : A) l k : k <> n -> nth_error (list_set n x l) k = nth_error l k.
Proof. intros H. rewrite nth_error_list_set. destruct (Nat.eq_dec k n); [contradiction|reflexivity]. Qed.
(** Once nobody refers to a signal it stays as it is. *)
Lemma unreferenced h : forall t k sg, table_ok t -> nth_error (tb_heap t) k = Some sg -> (forall id, lookup id (tb_signals t) <> Some k) ->
  nth_error (tb_heap (fold_left stable_step h t)) k = Some sg.
Proof.
  induction h as [|m h IH]; intros t k sg T H N; [exact H|]. cbn [fold_left]. apply IH; [apply table_ok_step, T| |].
  - destruct m as [id|id|id s|]; cbn [stable_step tb_heap]; try exact H.
    + rewrite nth_error_app1; [exact H|]. apply nth_error_Some. rewrite H. discriminate.
    + destruct (lookup id (tb_signals t)) as [a|] eqn:L; [|exact H]. destruct (nth_error (tb_heap t) a); [|exact H]. cbn [tb_heap]. rewrite nth_list_set_ne; [exact H|]. intros ->. exact (N id L).
  - intros id'. destruct m as [id|id|id s|]; cbn [stable_step tb_signals]; try apply N.
    + rewrite lookup_insert_b. destruct (eqb id' id); [|apply N]. intros [= C]. assert (k < length (tb_heap t)) by (apply nth_error_Some; rewrite H; discriminate). lia.
    + rewrite lookup_remove_b. destruct (eqb id' id); [discriminate|apply N].
    + destruct (lookup id (tb_signals t)) as [a|]; [|apply N]. destruct (nth_error (tb_heap t) a); apply N.
Qed.
Lemma referenced h : forall t id k sg, table_ok t -> nth_error (tb_heap t) k = Some (SigState false sg None) -> lookup id (tb_signals t) = Some k ->
  nth_error (tb_heap (fold_left stable_step h t)) k = Some (SigState false (match sg with Some s => Some s | None => raised_for id h end) None).
Proof.
  induction h as [|m h IH]; intros t id k sg T H L; [cbn; destruct sg; exact H|]. cbn [fold_left].
  assert (Lt : k < length (tb_heap t)) by (apply nth_error_Some; rewrite H; discriminate). assert (T' := table_ok_step t m T).
  destruct m as [i|i|i s|]; cbn [raised_for].
  - destruct (eqb i id) eqn:E.
    + apply (proj1 (eqb_true _ _)) in E. subst i. rewrite (unreferenced h _ k (SigState false sg None)); [destruct sg; reflexivity|exact T'| |].
      * cbn [stable_step tb_heap]. rewrite nth_error_app1 by exact Lt. exact H.
      * intros id'. cbn [stable_step tb_signals]. rewrite lookup_insert_b. destruct (eqb id' id) eqn:E; [intros [= C]; lia|]. intros C. apply eqb_false in E. apply E. destruct T as [_ J]. exact (J _ _ _ C L).
    + apply (IH _ id); [exact T'| |].
      * cbn [stable_step tb_heap]. rewrite nth_error_app1 by exact Lt. exact H.
      * cbn [stable_step tb_signals]. rewrite lookup_insert_b. destruct (eqb id i) eqn:E2; [apply (proj1 (eqb_true _ _)) in E2; subst; rewrite eqb_refl in E; discriminate|exact L].
  - destruct (eqb i id) eqn:E.
    + apply (proj1 (eqb_true _ _)) in E. subst i. rewrite (unreferenced h _ k (SigState false sg None)); [destruct sg; reflexivity|exact T'|exact H|].
      intros id'. cbn [stable_step tb_signals]. rewrite lookup_remove_b. destruct (eqb id' id) eqn:E; [discriminate|]. intros C. apply eqb_false in E. apply E. destruct T as [_ J]. exact (J _ _ _ C L).
    + apply (IH _ id); [exact T'|exact H|].
      cbn [stable_step tb_signals]. rewrite lookup_remove_b. destruct (eqb id i) eqn:E2; [apply (proj1 (eqb_true _ _)) in E2; subst; rewrite eqb_refl in E; discriminate|exact L].
  - cbn [stable_step] in T' |- *. destruct (lookup i (tb_signals t)) as [a|] eqn:Li.
    + destruct (nth_error (tb_heap t) a) as [sa|] eqn:Ha; [|exfalso; apply nth_error_None in Ha; destruct T as [B _]; apply B in Li; lia].
      destruct (eqb i id) eqn:E.
      * apply (proj1 (eqb_true _ _)) in E. subst i. rewrite L in Li. injection Li as <-. rewrite H in Ha. injection Ha as <-.
        rewrite (IH _ id k (match sg with Some x => Some x | None => Some s end)); [destruct sg; reflexivity|exact T'| |exact L].
        cbn [tb_heap]. rewrite nth_error_list_set. destruct (Nat.eq_dec k k); [|contradiction]. rewrite H. destruct sg, s; reflexivity.
      * apply (IH _ id); [exact T'| |exact L]. cbn [tb_heap]. rewrite nth_list_set_ne; [exact H|]. intros ->. apply eqb_false in E. apply E. destruct T as [_ J]. exact (J _ _ _ Li L).
    + destruct (eqb i id) eqn:E; [apply (proj1 (eqb_true _ _)) in E; congruence|]. apply (IH _ id); assumption.
  - apply (IH _ id); assumption.
Qed.
Lemma run_signal a id b : nth_error (tb_heap (stable_after (a ++ SmRun id :: b))) (run_calls a) = Some (SigState false (raised_for id b) None).
Proof.
  rewrite stable_after_app. cbn [fold_left]. apply (referenced b _ id _ None).
  - apply table_ok_step, table_ok_after.
  - cbn [stable_step tb_heap]. rewrite <- heap_length, nth_error_app_last. reflexivity.
  - cbn [stable_step tb_signals]. rewrite lookup_insert_b, eqb_refl, heap_length. reflexivity.
Qed.

(** ** Connecting *)
Lemma connect_spec a m : connect a = Some m <-> a = Reports m /\ rm_version m = protocol_version.
Proof.
  destruct a as [| |m']; cbn; try (split; [discriminate|intros [C _]; discriminate]). destruct (eqb (rm_version m') protocol_version) eqn:E.
  - apply (proj1 (eqb_true _ _)) in E. split; [intros [= <-]; auto|intros [[= <-] _]; reflexivity].
  - apply eqb_false in E. split; [discriminate|]. intros [[= <-] C]. contradiction.
Qed.
Definition connected_by (urls : list attempt) (id : string) (m : runner_meta) : Prop :=
  exists a b, urls = a ++ Reports m :: b /\ rm_id m = id /\ rm_version m = protocol_version /\
              forall m', In (Reports m') a -> rm_version m' = protocol_version -> rm_id m' <> id.
Lemma connect_all_snoc urls a : connect_all (urls ++ [a]) [] = match connect a with Some m => if contains_key (rm_id m) (connect_all urls []) then connect_all urls [] else insert (rm_id m) m (connect_all urls []) | None => connect_all urls [] end.
Proof. unfold connect_all. rewrite fold_left_snoc. reflexivity. Qed.
Lemma connected_none urls id : lookup id (connect_all urls []) = None -> forall m, In (Reports m) urls -> rm_version m = protocol_version -> rm_id m <> id.
Proof.
  induction urls as [|a urls IH] using rev_ind; [intros _ m []|]. rewrite connect_all_snoc. intros H m Hm Hv.
  assert (P : lookup id (connect_all urls []) = None).
  { destruct (connect a) as [m'|]; [|exact H]. destruct (contains_key _ _); [exact H|]. rewrite lookup_insert_b in H. destruct (eqb id (rm_id m')); [discriminate|exact H]. }
  apply in_app_or in Hm as [Hm|[->|[]]]; [apply (IH P); assumption|]. rewrite (proj2 (connect_spec (Reports m) m)) in H by auto.
  intros <-. destruct (contains_key (rm_id m) (connect_all urls [])) eqn:C.
  - apply contains_key_true in C. apply lookup_None in P. contradiction.
  - rewrite lookup_insert_b, eqb_refl in H. discriminate.
Qed.
Lemma connect_all_spec urls : forall id m, lookup id (connect_all urls []) = Some m <-> connected_by urls id m.
Proof.
  induction urls as [|a urls IH] using rev_ind; intros id m.
  - split; [discriminate|]. intros (x & y & C & _). destruct x; discriminate.
  - assert (Old : connected_by urls id m -> connected_by (urls ++ [a]) id m).
    { intros (x & y & -> & H). exists x, (y ++ [a]). rewrite <- app_assoc. split; [reflexivity|exact H]. }
    assert (Split : connected_by (urls ++ [a]) id m -> connected_by urls id m \/
       (a = Reports m /\ rm_id m = id /\ rm_version m = protocol_version /\ forall m', In (Reports m') urls -> rm_version m' = protocol_version -> rm_id m' <> id)).
    { intros (x & y & E & H). apply app_eq_app in E as (l & [[-> E]|[-> E]]).
      - destruct l as [|h l]; [injection E as <- _; rewrite app_nil_r; right; auto|]. injection E as <- ->. left. exists x, l. auto.
      - destruct l as [|h l]; [injection E as -> _; right; rewrite app_nil_r in H; auto|]. destruct l; discriminate. }
    assert (First : forall m', connected_by urls id m' -> ~ (forall m'', In (Reports m'') urls -> rm_version m'' = protocol_version -> rm_id m'' <> id)).
    { intros m' (x & y & -> & H1 & H2 & _) C. apply (C m'); auto. apply in_or_app. right. left. reflexivity. }
    rewrite connect_all_snoc. destruct (connect a) as [m1|] eqn:E1.
    + apply connect_spec in E1 as [-> V1]. destruct (contains_key (rm_id m1) (connect_all urls [])) eqn:C.
      * rewrite IH. split; [exact Old|]. intros H. apply Split in H as [H|([= <-] & <- & _ & H)]; [exact H|]. exfalso.
        apply contains_key_true, lookup_is_Some in C as [m2 C]. apply IH in C. exact (First _ C H).
      * rewrite lookup_insert_b. destruct (eqb id (rm_id m1)) eqn:E.
        -- apply (proj1 (eqb_true _ _)) in E. subst id. apply contains_key_false, lookup_None in C. split.
           ++ intros [= <-]. exists urls, []. split; [reflexivity|]. split; [reflexivity|]. split; [exact V1|]. apply connected_none. exact C.
           ++ intros H. apply Split in H as [H|([= <-] & _)]; [|reflexivity]. apply IH in H. congruence.
        -- rewrite IH. split; [exact Old|]. intros H. apply Split in H as [H|([= <-] & <- & _)]; [exact H|]. rewrite eqb_refl in E. discriminate.
    + rewrite IH. split; [exact Old|]. intros H. apply Split in H as [H|(-> & _ & V & _)]; [exact H|].
      rewrite (proj2 (connect_spec (Reports m) m)) in E1 by auto. discriminate.
Qed.
Lemma connect_all_nodup urls : NoDup (keys (connect_all urls [])).
Proof.
  induction urls as [|a urls IH] using rev_ind; [constructor|]. rewrite connect_all_snoc. destruct (connect a); [|exact IH]. destruct (contains_key _ _); [exact IH|]. apply NoDup_keys_insert, IH.
Qed.
Lemma connected_found urls m : In m (values (connect_all urls [])) -> lookup (rm_id m) (connect_all urls []) = Some m.
Proof.
  intros H. apply in_map_iff in H as ([k m'] & E & H). cbn in E. subst m'. apply In_lookup in H; [|apply connect_all_nodup].
  assert (H' := H). apply connect_all_spec in H' as (a & b & _ & <- & _). exact H.
Qed.

(** ** Hooks before a step *)
Section BeforeProof.
Variable W : Type.
Lemma step_command st : step_of_command (command_of_step st) = without_condition st.
Proof. reflexivity. Qed.
Lemma command_step c : command_of_step (step_of_command c) = c.
Proof. destruct c; reflexivity. Qed.
Lemma server_before_ok s c w w2 c' : server_before W s c w = (w2, Ok c') <->
  exists st1 w1 st2, passes (sv_plugins W s) (step_of_command c) w st1 w1 /\ on_before_run_step (sv_runner W s) st1 w1 = (w2, Ok st2) /\ c' = command_of_step st2.
Proof.
  unfold server_before. destruct (driver_on_before_run_step W (sv_plugins W s) (step_of_command c) w) as [w1 st1] eqn:E. apply drv_before in E. split.
  - destruct (on_before_run_step (sv_runner W s) st1 w1) as [w3 [st2|e]] eqn:E2; [|discriminate]. intros [= <- <-]. eauto 8.
  - intros (st1' & w1' & st2 & P & E2 & ->). apply drv_before in P. apply drv_before in E. rewrite E in P. injection P as <- <-. rewrite E2. reflexivity.
Qed.
Lemma server_before_err s c w w2 e : server_before W s c w = (w2, Err e) <->
  exists st1 w1, passes (sv_plugins W s) (step_of_command c) w st1 w1 /\ on_before_run_step (sv_runner W s) st1 w1 = (w2, Err e).
Proof.
  unfold server_before. destruct (driver_on_before_run_step W (sv_plugins W s) (step_of_command c) w) as [w1 st1] eqn:E. apply drv_before in E. split.
  - destruct (on_before_run_step (sv_runner W s) st1 w1) as [w3 [st2|e']] eqn:E2; [discriminate|]. intros [= <- <-]. eauto 8.
  - intros (st1' & w1' & P & E2). apply drv_before in P. apply drv_before in E. rewrite E in P. injection P as <- <-. rewrite E2. reflexivity.
Qed.
Lemma before_all_ok servers : forall c w w' c', before_all W servers c w = (w', Ok c') <-> through servers (step_of_command c) w (step_of_command c') w'.
Proof.
  induction servers as [|[s [e|]] rest IH]; intros c w w' c'; cbn [before_all].
  - split; [intros [= <- <-]; constructor|]. intros H. assert (Q : step_of_command c = step_of_command c' /\ w = w') by (destruct c, c'; inversion H; auto). destruct Q as [Q ->].
    rewrite <- (command_step c), <- (command_step c'), Q. reflexivity.
  - split; [discriminate|intros H; inv H].
  - destruct (server_before W s c w) as [w2 [c2|e]] eqn:E.
    + rewrite IH. apply server_before_ok in E as (st1 & w1 & st2 & P & R & ->). rewrite step_command. split.
      * intros H. econstructor; eassumption.
      * intros H. inv H. match goal with A : passes (sv_plugins W s) _ _ ?x ?y, B : on_before_run_step _ ?x ?y = _ |- _ => apply drv_before in A; apply drv_before in P; rewrite P in A; injection A as <- <-; rewrite R in B; injection B as <- <- end. assumption.
    + apply server_before_err in E as (st1 & w1 & P & R). split; [discriminate|]. intros H. inv H.
      match goal with A : passes (sv_plugins W s) _ _ ?x ?y, B : on_before_run_step _ ?x ?y = (_, Ok _) |- _ => apply drv_before in A; apply drv_before in P; rewrite P in A; injection A as <- <-; rewrite R in B; discriminate end.
Qed.
Lemma before_all_err servers : forall c w w' e, before_all W servers c w = (w', Err e) <-> stopped servers (step_of_command c) w w' e.
Proof.
  induction servers as [|[s [e0|]] rest IH]; intros c w w' e; cbn [before_all].
  - split; [discriminate|intros H; inv H].
  - split; [intros [= <- <-]; constructor|intros H; inv H; reflexivity].
  - destruct (server_before W s c w) as [w2 [c2|e2]] eqn:E.
    + rewrite IH. apply server_before_ok in E as (st1 & w1 & st2 & P & R & ->). rewrite step_command. split.
      * intros H. eapply stopped_later; eassumption.
      * intros H. inv H; match goal with A : passes (sv_plugins W s) _ _ ?x ?y, B : on_before_run_step _ ?x ?y = _ |- _ => apply drv_before in A; apply drv_before in P; rewrite P in A; injection A as <- <-; rewrite R in B; try discriminate B; injection B as <- <- end. assumption.
    + apply server_before_err in E as (st1 & w1 & P & R). split.
      * intros [= <- <-]. eapply stopped_here; eassumption.
      * intros H. inv H; match goal with A : passes (sv_plugins W s) _ _ ?x ?y, B : on_before_run_step _ ?x ?y = _ |- _ => apply drv_before in A; apply drv_before in P; rewrite P in A; injection A as <- <-; rewrite R in B; try discriminate B; injection B as <- <- end. reflexivity.
Qed.
End BeforeProof.

(** ** Events *)
Definition subscribed (ins : list finput) : bool := existsb (fun i => match i with FiSubscribe => true | _ => false end) ins.
Lemma emitted_snoc ins i : emitted (ins ++ [i]) = emitted ins ++ (if subscribed ins then match i with FiEvent e => [e] | _ => [] end else []).
Proof.
  induction ins as [|j ins IH]; cbn [app]; [destruct i; reflexivity|]. destruct j; cbn [emitted subscribed existsb orb]; try exact IH.
  rewrite flat_map_app. cbn. rewrite app_nil_r. reflexivity.
Qed.
Lemma subscribed_snoc ins i : subscribed (ins ++ [i]) = subscribed ins || match i with FiSubscribe => true | _ => false end.
Proof. unfold subscribed. rewrite existsb_app. cbn. rewrite orb_false_r. reflexivity. Qed.
Lemma got_by_app c a b : got_by c (a ++ b) = got_by c a ++ got_by c b.
Proof. apply flat_map_app. Qed.
Lemma subseq_refl {A} (l : list A) : subsequence l l.
Proof. induction l; constructor; assumption. Qed.
Lemma subseq_app {A} (a l b m : list A) : subsequence a l -> subsequence b m -> subsequence (a ++ b) (l ++ m).
Proof.
  induction 1 as [l|x a l S IH|x a l S IH]; intros H; cbn.
  - induction l as [|x l IHl]; cbn; [exact H|constructor; exact IHl].
  - constructor. auto.
  - constructor. auto.
Qed.
Lemma subseq_more {A} (a l m : list A) : subsequence a l -> subsequence a (l ++ m).
Proof. intros H. rewrite <- (app_nil_r a). apply subseq_app; [exact H|constructor]. Qed.
(** [all_ok]: every send succeeded. *)
Definition all_ok (ins : list finput) : Prop := ~ In (FiSent false) ins.
Definition finv (ins : list finput) (f : fwd) (hd : list hook_event) : Prop :=
  (forall cs, In (FiConnected cs) ins -> NoDup cs) ->
  match f_phase f with
  | LBefore => emitted ins = [] /\ subscribed ins = false /\ f_queue f = [] /\ f_sent f = [] /\ f_clients f = []
  | LConnecting => subscribed ins = true /\ emitted ins = f_queue f /\ f_sent f = [] /\ f_clients f = []
  | LLoop => subscribed ins = true /\ NoDup (f_clients f) /\ emitted ins = hd ++ f_queue f /\
      (forall c, subsequence (got_by c (f_sent f)) hd) /\ (all_ok ins -> forall c, In c (f_clients f) -> got_by c (f_sent f) = hd)
  | LSending e rest => subscribed ins = true /\ NoDup (f_clients f) /\ emitted ins = hd ++ e :: f_queue f /\ rest <> [] /\
      exists before, f_clients f = before ++ rest /\
      (forall c, subsequence (got_by c (f_sent f)) (hd ++ if memb c before then [e] else [])) /\
      (all_ok ins -> forall c, In c (f_clients f) -> got_by c (f_sent f) = hd ++ if memb c before then [e] else [])
  | LEnded => subscribed ins = true /\ NoDup (f_clients f) /\ (exists tl, emitted ins = hd ++ tl /\ capacity < length tl) /\
      (forall c, subsequence (got_by c (f_sent f)) hd) /\ (all_ok ins -> forall c, In c (f_clients f) -> got_by c (f_sent f) = hd)
  end.
Lemma all_ok_snoc ins i : all_ok (ins ++ [i]) -> all_ok ins.
Proof. intros H C. apply H, in_or_app. auto. Qed.
Lemma finv_run ins f : fwd_run ins f -> exists hd, finv ins f hd.
Proof.
  induction 1 as [|ins f i f' R [hd I] E]; [exists []; intros _; repeat split; reflexivity|].
  destruct f as [p q s cs]. unfold finv in I. cbn [f_phase f_queue f_sent f_clients] in I.
  assert (Hn : (forall cs, In (FiConnected cs) (ins ++ [i]) -> NoDup cs) -> forall cs, In (FiConnected cs) ins -> NoDup cs) by (intros H x Hx; apply H, in_or_app; auto).
  destruct i as [e| |clients| |ok].
  - assert (E' : match p with LBefore | LEnded => f' = Fwd p q s cs | _ => f' = Fwd p (q ++ [e]) s cs end) by (destruct p; cbn in E; congruence). clear E.
    exists hd. intros N. specialize (I (Hn N)). destruct p; subst f'; cbn [f_phase f_queue f_sent f_clients]; rewrite emitted_snoc, subscribed_snoc.
    + destruct I as (I1 & I2 & I3). rewrite I1, I2. auto.
    + destruct I as (I1 & I2 & I3). rewrite I1, I2. auto.
    + destruct I as (I1 & I2 & I3 & I4 & I5). rewrite I1, I3, <- app_assoc. split; [reflexivity|]. split; [exact I2|]. split; [reflexivity|]. split; [exact I4|]. intros A. apply I5, (all_ok_snoc _ _ A).
    + destruct I as (I1 & I2 & I3 & I4 & before & I5 & I6 & I7). rewrite I1, I3, <- app_assoc. split; [reflexivity|]. split; [exact I2|]. split; [reflexivity|]. split; [exact I4|]. exists before. split; [exact I5|]. split; [exact I6|]. intros A. apply I7, (all_ok_snoc _ _ A).
    + destruct I as (I1 & I2 & (tl & I3 & L) & I4 & I5). rewrite I1, I3. split; [reflexivity|]. split; [exact I2|]. split; [exists (tl ++ [e]); rewrite app_assoc, app_length; split; [reflexivity|cbn; lia]|]. split; [exact I4|]. intros A. apply I5, (all_ok_snoc _ _ A).
  - destruct p; try discriminate E. injection E as <-. exists []. intros N. destruct (I (Hn N)) as (I1 & I2 & I3 & I4 & I5). cbn [f_phase f_queue f_sent f_clients]. rewrite emitted_snoc, subscribed_snoc, I1, I2. auto.
  - destruct p; try discriminate E. injection E as <-. exists []. intros N. destruct (I (Hn N)) as (I1 & I2 & I3 & I4). cbn [f_phase f_queue f_sent f_clients] in *. rewrite emitted_snoc, subscribed_snoc, I1, I2, I3, app_nil_r.
    split; [reflexivity|]. split; [apply N, in_or_app; right; left; reflexivity|]. split; [reflexivity|]. split; [intros c; constructor|]. intros _ c _. reflexivity.
  - destruct p; try discriminate E. cbn [fwd_step f_phase f_queue f_sent f_clients] in E. destruct (Nat.ltb capacity (length q)) eqn:L.
    + apply Nat.ltb_lt in L. injection E as <-. exists hd. intros N. destruct (I (Hn N)) as (I1 & I2 & I3 & I4 & I5). cbn [f_phase f_queue f_sent f_clients] in *. rewrite emitted_snoc, subscribed_snoc, I1, app_nil_r.
      split; [reflexivity|]. split; [exact I2|]. split; [exists q; auto|]. split; [exact I4|]. intros A. apply I5, (all_ok_snoc _ _ A).
    + destruct q as [|e q]; [discriminate E|]. injection E as <-. destruct cs as [|c0 cs].
      * exists (hd ++ [e]). intros N. destruct (I (Hn N)) as (I1 & I2 & I3 & I4 & I5). cbn [f_phase f_queue f_sent f_clients] in *. rewrite emitted_snoc, subscribed_snoc, I1, app_nil_r, <- app_assoc.
        split; [reflexivity|]. split; [exact I2|]. split; [exact I3|]. split; [intros c; apply subseq_more, I4|]. intros _ c [].
      * exists hd. intros N. destruct (I (Hn N)) as (I1 & I2 & I3 & I4 & I5). cbn [f_phase f_queue f_sent f_clients] in *. rewrite emitted_snoc, subscribed_snoc, I1, app_nil_r.
        split; [reflexivity|]. split; [exact I2|]. split; [exact I3|]. split; [discriminate|]. exists []. split; [reflexivity|]. split; [intros c; cbn; rewrite app_nil_r; apply I4|].
        intros A c Hc. cbn. rewrite app_nil_r. apply I5; [apply (all_ok_snoc _ _ A)|exact Hc].
  - destruct p as [| | |e [|c0 rest]|]; try discriminate E. cbn [fwd_step f_phase f_queue f_sent f_clients] in E. injection E as <-.
    assert (Core : (forall cs, In (FiConnected cs) (ins ++ [FiSent ok]) -> NoDup cs) ->
       let s' := if ok then s ++ [(c0, e)] else s in
       exists before, subscribed ins = true /\ NoDup cs /\ emitted ins = hd ++ e :: q /\ cs = (before ++ [c0]) ++ rest /\
       (forall c, subsequence (got_by c s') (hd ++ if memb c (before ++ [c0]) then [e] else [])) /\
       (all_ok (ins ++ [FiSent ok]) -> forall c, In c cs -> got_by c s' = hd ++ if memb c (before ++ [c0]) then [e] else [])).
    { intros N s'. destruct (I (Hn N)) as (I1 & I2 & I3 & _ & before & I5 & I6 & I7). exists before. split; [exact I1|]. split; [exact I2|]. split; [exact I3|]. split; [rewrite <- app_assoc; exact I5|].
      assert (NB : memb c0 before = false) by (apply memb_false; rewrite I5 in I2; apply NoDup_remove in I2 as [_ I2]; intros C; apply I2, in_or_app; auto).
      assert (M : forall c, memb c (before ++ [c0]) = if eqb c c0 then true else memb c before).
      { intros c. unfold memb. rewrite existsb_app. cbn. destruct (eqb c c0); rewrite ?orb_true_r, ?orb_false_r; reflexivity. }
      split.
      - intros c. rewrite M. specialize (I6 c). destruct (eqb c c0) eqn:Ec.
        + apply (proj1 (eqb_true _ _)) in Ec. subst c. rewrite NB, app_nil_r in I6. subst s'. destruct ok; [|apply subseq_more, I6].
          rewrite got_by_app. cbn. rewrite eqb_refl. apply subseq_app; [exact I6|apply subseq_refl].
        + subst s'. destruct ok; [|exact I6]. rewrite got_by_app. cbn. destruct (eqb c0 c) eqn:Ec'; [apply (proj1 (eqb_true _ _)) in Ec'; subst; rewrite eqb_refl in Ec; discriminate|]. cbn. rewrite app_nil_r. exact I6.
      - intros A c Hc. destruct ok; [|exfalso; apply A, in_or_app; right; left; reflexivity]. specialize (I7 (all_ok_snoc _ _ A) c Hc). subst s'. rewrite got_by_app, I7, M. cbn.
        destruct (eqb c c0) eqn:Ec.
        + apply (proj1 (eqb_true _ _)) in Ec. subst c. rewrite NB, eqb_refl, app_nil_r. reflexivity.
        + destruct (eqb c0 c) eqn:Ec'; [apply (proj1 (eqb_true _ _)) in Ec'; subst; rewrite eqb_refl in Ec; discriminate|]. cbn. rewrite app_nil_r. reflexivity. }
    destruct rest as [|c1 rest].
    + exists (hd ++ [e]). intros N. destruct (Core N) as (before & C1 & C2 & C3 & C4 & C5 & C6). cbn [f_phase f_queue f_sent f_clients]. rewrite emitted_snoc, subscribed_snoc, C1, app_nil_r, C3.
      split; [reflexivity|]. split; [exact C2|]. split; [rewrite <- app_assoc; reflexivity|]. rewrite app_nil_r in C4. split.
      * intros c. specialize (C5 c). destruct (memb c (before ++ [c0])); [exact C5|]. rewrite app_nil_r in C5. apply subseq_more, C5.
      * intros A c Hc. specialize (C6 A c Hc). rewrite C4 in Hc. apply memb_true in Hc. rewrite Hc in C6. exact C6.
    + exists hd. intros N. destruct (Core N) as (before & C1 & C2 & C3 & C4 & C5 & C6). cbn [f_phase f_queue f_sent f_clients]. rewrite emitted_snoc, subscribed_snoc, C1, app_nil_r, C3.
      split; [reflexivity|]. split; [exact C2|]. split; [reflexivity|]. split; [discriminate|]. exists (before ++ [c0]). auto.
Qed.
Lemma ended_stays f i f' : fwd_step f i = Some f' -> f_phase f = LEnded -> f_phase f' = LEnded /\ f_sent f' = f_sent f.
Proof. intros E H. destruct f as [p q s cs]; cbn in H; subst p. destruct i; cbn in E; try discriminate; injection E as <-; auto. Qed.
Lemma ended_why ins f : fwd_run ins f -> f_phase f = LEnded -> exists a b f1, ins = a ++ FiRecv :: b /\ fwd_run a f1 /\ capacity < length (f_queue f1).
Proof.
  induction 1 as [|ins f i f' R IH E]; [discriminate|]. intros H. destruct f as [p q s cs].
  assert (D : p = LEnded \/ (i = FiRecv /\ capacity < length q)).
  { destruct i as [e| |cl| |ok].
    - destruct p; cbn in E; auto; injection E as <-; discriminate H.
    - destruct p; cbn in E; auto; try discriminate E. injection E as <-; discriminate H.
    - destruct p; cbn in E; auto; try discriminate E. injection E as <-; discriminate H.
    - right. split; [reflexivity|]. destruct p; try discriminate E. cbn [fwd_step f_phase f_queue] in E. destruct (Nat.ltb capacity (length q)) eqn:L; [apply Nat.ltb_lt, L|].
      exfalso. destruct q; [discriminate|]. injection E as <-. destruct cs; discriminate H.
    - destruct p as [| | |e' [|c0 [|c1 rest]]|]; cbn in E; auto; try discriminate E; injection E as <-; discriminate H. }
  destruct D as [->|[-> L]].
  - destruct (IH eq_refl) as (a & b & f1 & -> & Ra & L). exists a, (b ++ [i]), f1. rewrite <- app_assoc. auto.
  - exists ins, [], (Fwd p q s cs). auto.
Qed.

(** ** The client's scheduler *)
Lemma picks_count ops m tr : sched_run ops m tr -> (forall op, In op ops -> match op with SStepDone _ | SJobDone _ => False | _ => True end) ->
  forall r, count_of (sd_counts (sm_st m)) r = Z.of_nat (picks (rm_id r) tr).
Proof. intros R N. apply (counts_picks _ _ _ R). intros id H. apply (done_reported _ _ _ R) in H. exact (N _ H). Qed.
