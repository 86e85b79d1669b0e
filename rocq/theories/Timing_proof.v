(** Proofs about timeouts and cancellation of a step (C26, C27), and concrete executions. *)
From Verif Require Import Base Types Signals_model Signals_spec Signals_proof Stream_model Stream_spec Stream_proof Cond_model
  Plugins_model Plugins_spec Plugins_proof Exec_model Exec_spec Step_proof.

Section P.
Variable cx : ectx.
Variable me : task.

(** ** Executions as a function *)
Fixpoint sexec (sh : shared) (p : step_phase) (ls : list slabel) : option (shared * step_phase * list obs) :=
  match ls with
  | [] => Some (sh, p, [])
  | SEnv e :: ls' => sexec (env_step sh e) p ls'
  | SOwn op :: ls' =>
      match step_step cx me sh p op with
      | None => None
      | Some (sh', p', o) => match sexec sh' p' ls' with
                             | None => None
                             | Some (sh2, p2, o2) => Some (sh2, p2, o ++ o2)
                             end
      end
  end.

Lemma sexec_run st0 ls : forall ls0 sh p tr sh' p' o, srun cx me st0 ls0 sh p tr -> sexec sh p ls = Some (sh', p', o) ->
  srun cx me st0 (ls0 ++ ls) sh' p' (tr ++ o).
Proof.
  induction ls as [|[op|e] ls IH]; cbn; intros ls0 sh p tr sh' p' o R E.
  - injection E as <- <- <-. rewrite !app_nil_r. exact R.
  - destruct (step_step cx me sh p op) as [[[sh1 p1] o1]|] eqn:E1; [|discriminate].
    destruct (sexec sh1 p1 ls) as [[[sh2 p2] o2]|] eqn:E2; [|discriminate]. injection E as <- <- <-.
    rewrite app_cons_assoc, app_assoc. eapply IH; eauto. eapply srun_own; eauto.
  - rewrite app_cons_assoc. eapply IH; eauto. apply srun_env, R.
Qed.
Lemma sexec_init st0 ls sh sh' p' o : sexec sh (SpBefore st0) ls = Some (sh', p', o) -> srun cx me st0 ls sh' p' o.
Proof. intros E. apply (sexec_run st0 ls [] sh (SpBefore st0) [] sh' p' o); [constructor|exact E]. Qed.

(** ** C26 *)
Lemma ticks_app a b : ticks (a ++ b) = (ticks a + ticks b)%N.
Proof. induction a as [|[op|[d| |]] a IH]; cbn; try exact IH; [reflexivity|]. rewrite IH. lia. Qed.

Definition tinv (ls : list slabel) (sh : shared) (p : step_phase) : Prop :=
  match p with
  | SpLoop st t0 a sg str ti =>
      exists ls1 ls2, ls = ls1 ++ SOwn OpNext :: ls2 /\ ~ In (SOwn OpNext) ls2 /\ (sh_now sh = ti + ticks ls2)%N
  | _ => True
  end.

Lemma sm_step_now sh sm : sh_now (set_sm sm sh) = sh_now sh. Proof. reflexivity. Qed.

Lemma tinv_run st0 ls sh p tr : srun cx me st0 ls sh p tr -> tinv ls sh p.
Proof.
  induction 1 as [sh|ls sh p tr op sh' p' o R IH E|ls sh p tr e R IH]; [exact I| |].
  - unfold step_step in E.
    destruct p as [st|st|st t0|st t0|st t0|st t0 a|st t0 a sg str|st t0 a sg str|st t0 a sg str|st t0 a sg str ti|st t0 a sg str l
    |st t0 a sg str wl|st t0 a sg str|st t0 s c|r|r|r|w]; destruct op as [|c'|ok| | | |ro]; try discriminate E;
    try (injection E as <- <- <-; exact I).
    + destruct (lookup _ _); injection E as <- <- <-; exact I.
    + destruct ok; injection E as <- <- <-; exact I.
    + destruct (runner_step ro sg str); injection E as <- <- <-; exact I.
    + destruct (runner_step ro sg str); injection E as <- <- <-; exact I.
    + injection E as <- <- <-. exists ls, []. split; [reflexivity|]. split; [intros []|cbn; lia].
    + destruct (runner_step ro sg str); injection E as <- <- <-; exact I.
    + destruct (_ <=? _)%N; [|discriminate]. injection E as <- <- <-. exact I.
    + destruct IH as (ls1 & ls2 & -> & H2 & H3).
      destruct (sm_step _ _) as [sm' [| | |so|]]; try discriminate.
      destruct so as [| |[s|]]; try discriminate; injection E as <- <- <-; [exact I|].
      exists ls1, (ls2 ++ [SOwn OpJobSignal]). rewrite <- app_assoc. split; [reflexivity|]. split.
      * intros C. apply in_app_iff in C as [C|[C|[]]]; [auto|discriminate].
      * rewrite ticks_app. cbn. lia.
    + destruct IH as (ls1 & ls2 & -> & H2 & H3).
      destruct (stream_poll me str) as [[str' [l| |]] w]; injection E as <- <- <-; [exact I|exact I|].
      exists ls1, (ls2 ++ [SOwn OpStream]). rewrite <- app_assoc. split; [reflexivity|]. split.
      * intros C. apply in_app_iff in C as [C|[C|[]]]; [auto|discriminate].
      * rewrite ticks_app. cbn. lia.
    + destruct IH as (ls1 & ls2 & -> & H2 & H3). destruct (runner_step ro sg str); injection E as <- <- <-.
      exists ls1, (ls2 ++ [SOwn (OpRunner ro)]). rewrite <- app_assoc. split; [reflexivity|]. split.
      * intros C. apply in_app_iff in C as [C|[C|[]]]; [auto|discriminate].
      * rewrite ticks_app. cbn. lia.
    + destruct (runner_step ro sg str); injection E as <- <- <-; exact I.
    + destruct (runner_step ro sg str); injection E as <- <- <-; exact I.
    + destruct (ss_result str); injection E as <- <- <-; exact I.
    + destruct (runner_step ro sg str); injection E as <- <- <-; exact I.
  - destruct p; try exact I. destruct IH as (ls1 & ls2 & -> & H2 & H3). exists ls1, (ls2 ++ [SEnv e]).
    rewrite <- app_assoc. split; [reflexivity|]. split.
    + intros C. apply in_app_iff in C as [C|[C|[]]]; [auto|discriminate].
    + rewrite ticks_app. destruct e; cbn; lia.
Qed.

(** ** C27 *)
Definition cell (sh : shared) (a : nat) : option sig_state := nth_error (sm_heap (sh_sm sh)) a.

Lemma sig_cancel_notified st : sg_notified (fst (fst (sig_cancel st))) = sg_notified st.
Proof. unfold sig_cancel. destruct (sg_signal st); reflexivity. Qed.
Lemma sig_step_notified st o : sg_notified st = true -> sg_notified (fst (sig_step st o)) = true.
Proof.
  intros H. destruct o; cbn; auto.
  - unfold sig_cancel. destruct (sg_signal st); exact H.
  - unfold sig_timeout. destruct (sg_signal st); exact H.
  - unfold sig_poll. rewrite H. exact H.
Qed.

Lemma notified_stays_sm sm o a c : nth_error (sm_heap sm) a = Some c -> sg_notified c = true ->
  exists c', nth_error (sm_heap (fst (sm_step sm o))) a = Some c' /\ sg_notified c' = true.
Proof.
  intros H N. destruct o as [j|j|k j|k|b so]; cbn.
  - exists c. split; [|exact N]. rewrite nth_error_app1; [exact H|]. apply nth_error_Some. congruence.
  - eauto.
  - destruct (lookup j (sm_reg sm)); cbn; eauto.
  - destruct (lookup k (sm_pending sm)) as [b|]; cbn; eauto.
    destruct (nth_error (sm_heap sm) b) as [st|] eqn:Eb; cbn; eauto.
    destruct (sig_cancel st) as [[st' r] w] eqn:Es. cbn. rewrite nth_error_list_set.
    destruct (Nat.eq_dec a b) as [->|]; [|eauto].
    rewrite H. assert (st = c) as -> by congruence. exists st'. split; [reflexivity|].
    assert (Hn := sig_cancel_notified c). rewrite Es in Hn. cbn in Hn. congruence.
  - destruct (nth_error (sm_heap sm) b) as [st|] eqn:Eb; cbn; eauto.
    destruct (sig_step st so) as [st' r] eqn:Es. cbn. rewrite nth_error_list_set.
    destruct (Nat.eq_dec a b) as [->|]; [|eauto].
    rewrite H. assert (st = c) as -> by congruence. exists st'. split; [reflexivity|].
    assert (Hn := sig_step_notified c so N). rewrite Es in Hn. exact Hn.
Qed.

Lemma step_step_notified sh p op sh' p' o a c : step_step cx me sh p op = Some (sh', p', o) ->
  cell sh a = Some c -> sg_notified c = true -> exists c', cell sh' a = Some c' /\ sg_notified c' = true.
Proof.
  intros E Hc N.
  assert (D : sh_sm sh' = sh_sm sh \/ exists so, sh_sm sh' = fst (sm_step (sh_sm sh) so)).
  { unfold step_step in E.
    destruct p; destruct op; try discriminate E; try (injection E as <- <- <-; left; reflexivity);
    try (destruct (runner_step _ _ _); injection E as <- <- <-; left; reflexivity).
    - destruct (lookup _ _); injection E as <- <- <-; left; reflexivity.
    - destruct ok; injection E as <- <- <-; left; reflexivity.
    - destruct (_ <=? _)%N; [|discriminate]. injection E as <- <- <-; left; reflexivity.
    - destruct (sm_step _ _) as [sm' [| | |so|]] eqn:Es; try discriminate.
      destruct so as [| |[s|]]; try discriminate; injection E as <- <- <-; right; eexists; rewrite Es; reflexivity.
    - destruct (stream_poll _ _) as [[str' [l| |]] w]; injection E as <- <- <-; left; reflexivity.
    - destruct (ss_result str); injection E as <- <- <-; left; reflexivity. }
  unfold cell in *. destruct D as [->|[so ->]]; [eauto|]. eapply notified_stays_sm; eauto.
Qed.
Lemma env_step_notified sh e a c : cell sh a = Some c -> sg_notified c = true ->
  exists c', cell (env_step sh e) a = Some c' /\ sg_notified c' = true.
Proof.
  intros Hc N. unfold cell in *. destruct e; cbn; eauto. eapply notified_stays_sm; eauto.
Qed.

Lemma job_signal_poll sh st t0 a sg str ti c : cell sh a = Some c ->
  let deliver := if sg_notified c then None else sg_signal c in
  exists sh', step_step cx me sh (SpLoop st t0 a sg str ti) OpJobSignal =
    Some (sh', match deliver with Some s => SpEnter st t0 a (raise_ok s sg) str | None => SpLoop st t0 a sg str ti end, []) /\
    sh_now sh' = sh_now sh /\ sh_cache sh' = sh_cache sh /\ sm_reg (sh_sm sh') = sm_reg (sh_sm sh) /\
    (forall b, b <> a -> cell sh' b = cell sh b) /\
    (forall s, deliver = Some s -> exists c', cell sh' a = Some c' /\ sg_notified c' = true /\ sg_signal c' = Some s).
Proof.
  unfold cell. intros Hc. cbn [step_step sm_step]. rewrite Hc. cbn.
  assert (L : forall c' b, b <> a -> nth_error (list_set a c' (sm_heap (sh_sm sh))) b = nth_error (sm_heap (sh_sm sh)) b).
  { intros c' b Hb. rewrite nth_error_list_set. destruct (Nat.eq_dec b a); [congruence|reflexivity]. }
  assert (K : forall c', nth_error (list_set a c' (sm_heap (sh_sm sh))) a = Some c').
  { intros c'. rewrite nth_error_list_set, Hc. destruct (Nat.eq_dec a a); [reflexivity|congruence]. }
  unfold sig_poll. destruct (sg_notified c); cbn; [|destruct (sg_signal c) as [s|]; cbn]; eexists; (split; [reflexivity|]);
    cbn; (split; [reflexivity|]); (split; [reflexivity|]); (split; [reflexivity|]); (split; [intros b Hb; apply L; exact Hb|]);
    intros s' Hs'; try discriminate.
  injection Hs' as <-. rewrite K. eauto.
Qed.

Lemma raise_ok_spec s sg : sg_signal (raise_ok s sg) = match sg_signal sg with None => Some s | Some s0 => Some s0 end.
Proof.
  unfold raise_ok, sig_raise, sig_cancel, sig_timeout. destruct s, (sg_signal sg) eqn:E; cbn; rewrite ?E; reflexivity.
Qed.
End P.
