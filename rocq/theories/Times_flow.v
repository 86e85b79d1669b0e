(** C110: the times of a whole workflow run. *)
From Coq Require Import Sorting.Sorted.
From Verif Require Import Base Types Signals_model Signals_proof Stream_model Cond_model Plugins_model Exec_model Exec_spec Workflow_model Workflow_spec Workflow_proof Times_spec Times_proof.

Section W.
Variables (glob : glob_oracle) (cx : ectx) (wf : workflow).
Notation wrun := (wrun glob cx wf).
Notation wtimed := (wtimed glob cx wf).
Notation wstep := (wstep glob cx wf).
Definition at_ {A} (t : time) (l : list A) : timed A := map (fun x => (t, x)) l.

Lemma wtimed_wrun base ls s tr : wtimed base ls s tr -> wrun ls s (map snd tr).
Proof.
  induction 1 as [|base ls s tr op s' o R IH E]; [apply wrun_init|]. rewrite map_app, map_map, map_id. eapply wrun_step; eassumption.
Qed.
Lemma wrun_wtimed ls s tr : wrun ls s tr -> exists base ttr, wtimed base ls s ttr /\ map snd ttr = tr.
Proof.
  induction 1 as [sh|ls s tr op s' o R (base & ttr & IH & <-) E]; [exists (sh_now sh), []; split; [constructor|reflexivity]|].
  exists base. eexists. split; [eapply wtimed_step; eassumption|]. rewrite map_app, map_map, map_id. reflexivity.
Qed.
Lemma tev_app w a b : timed_events_of w (a ++ b) = timed_events_of w a ++ timed_events_of w b.
Proof. apply flat_map_app. Qed.
Lemma tev_at w t o : timed_events_of w (at_ t o) = at_ t (events_of w o).
Proof. induction o as [|[w' x] o IH]; [reflexivity|]. cbn [at_ map timed_events_of flat_map]. unfold events_of. cbn [flat_map fst snd]. destruct (eqb w' w); cbn [app]; [|exact IH]. cbn [at_ map]. f_equal. exact IH. Qed.
Lemma tev_snd w tr : map snd (timed_events_of w tr) = events_of w (map snd tr).
Proof. induction tr as [|[t [w' x]] tr IH]; [reflexivity|]. cbn [timed_events_of flat_map map snd]. unfold events_of. cbn [flat_map fst snd]. rewrite map_app. destruct (eqb w' w); cbn [map app snd]; [f_equal|]; exact IH. Qed.
Lemma spawns_app a b : spawns (a ++ b) = spawns a ++ spawns b.
Proof. apply flat_map_app. Qed.
Lemma spawns_at t o : spawns (at_ t o) = at_ t (started_in (events_of None o)).
Proof.
  induction o as [|[w x] o IH]; [reflexivity|]. cbn [at_ map spawns flat_map]. unfold events_of. cbn [flat_map fst snd]. 
  destruct w as [i|]; [replace (eqb (Some i) (@None nat)) with false by (symmetry; apply eqb_false; discriminate); exact IH|]. rewrite Base.eqb_refl. cbn [app started_in flat_map]. unfold at_. rewrite map_app. destruct x; cbn [map app]; try exact IH. f_equal. exact IH.
Qed.
Lemma spawns_snd tr : map snd (spawns tr) = started (map snd tr).
Proof.
  unfold started. induction tr as [|[t [w x]] tr IH]; [reflexivity|]. cbn [map spawns flat_map snd]. unfold events_of. cbn [flat_map fst snd]. rewrite map_app.
  destruct w as [i|]; [replace (eqb (Some i) (@None nat)) with false by (symmetry; apply eqb_false; discriminate); exact IH|]. rewrite Base.eqb_refl. cbn [app started_in flat_map]. destruct x; cbn [map app snd]; try exact IH. f_equal. exact IH.
Qed.

Record WI (base : time) (s : wstate) (tr : timed (who * obs)) : Prop := {
  wi_base : (base <= sh_now (ws_sh s))%N;
  wi_sorted : asc (map fst tr ++ [sh_now (ws_sh s)]);
  wi_main : truthful cx base (timed_events_of None tr) /\ MI cx base wf (timed_events_of None tr) (sh_now (ws_sh s)) (ws_main s);
  wi_spawns : map snd (spawns tr) = map tk_key (ws_tasks s);
  wi_tasks : forall i t, nth_error (ws_tasks s) i = Some t -> exists b, nth_error (spawns tr) i = Some (b, tk_key t) /\ (base <= b <= sh_now (ws_sh s))%N /\
      truthful cx b (timed_events_of (Some i) tr) /\ JI cx b (tk_job t) (timed_events_of (Some i) tr) (sh_now (ws_sh s)) (tk_phase t);
  wi_none : forall i, length (ws_tasks s) <= i -> timed_events_of (Some i) tr = []
}.
Lemma upto_all (tr : timed (who * obs)) now w : asc (map fst tr ++ [now]) -> upto now (timed_events_of w tr).
Proof.
  intros H. apply asc_snoc in H as [_ H]. unfold upto. apply Forall_forall. intros [t x] Hx. unfold timed_events_of in Hx. apply in_flat_map in Hx as ([t' [w' o]] & Hin & Hx).
  destruct (eqb w' w); [|destruct Hx]. destruct Hx as [[= <- <-]|[]]. rewrite Forall_forall in H. apply H. apply (in_map fst) in Hin. exact Hin.
Qed.
Lemma asc_at l now {A} (o : list A) : asc (l ++ [now]) -> asc (l ++ map fst (at_ now o) ++ [now]).
Proof.
  intros H. induction o as [|x o IH]; [exact H|]. cbn [at_ map fst app].
  change (l ++ now :: map fst (map (fun x0 : A => (now, x0)) o) ++ [now]) with (l ++ [now] ++ map fst (at_ now o) ++ [now]). rewrite !app_assoc in *. apply asc_snoc in IH as [I1 I2].
  assert (E : map fst (at_ now o) = repeat now (length o)) by (clear; induction o; cbn; [reflexivity|f_equal; assumption]). rewrite E in *.
  replace ((l ++ [now]) ++ repeat now (length o)) with (l ++ repeat now (length o) ++ [now]).
  - rewrite app_assoc. apply asc_snoc. split; [apply asc_snoc; auto|]. apply Forall_app. split; [exact I2|]. constructor; [lia|constructor].
  - rewrite <- app_assoc. f_equal. cbn. clear. induction (length o) as [|n IH]; [reflexivity|]. cbn. f_equal. exact IH.
Qed.

(** Time passing and other tasks leave a task's part alone. *)
Lemma WI_step base s tr s' o : WI base s tr -> sh_now (ws_sh s') = sh_now (ws_sh s) ->
  (truthful cx base (timed_events_of None (tr ++ at_ (sh_now (ws_sh s)) o)) /\ MI cx base wf (timed_events_of None (tr ++ at_ (sh_now (ws_sh s)) o)) (sh_now (ws_sh s)) (ws_main s')) ->
  map snd (spawns (tr ++ at_ (sh_now (ws_sh s)) o)) = map tk_key (ws_tasks s') ->
  (forall i t, nth_error (ws_tasks s') i = Some t -> exists b, nth_error (spawns (tr ++ at_ (sh_now (ws_sh s)) o)) i = Some (b, tk_key t) /\ (base <= b <= sh_now (ws_sh s))%N /\
      truthful cx b (timed_events_of (Some i) (tr ++ at_ (sh_now (ws_sh s)) o)) /\ JI cx b (tk_job t) (timed_events_of (Some i) (tr ++ at_ (sh_now (ws_sh s)) o)) (sh_now (ws_sh s)) (tk_phase t)) ->
  (forall i, length (ws_tasks s') <= i -> events_of (Some i) o = [] /\ length (ws_tasks s) <= i) -> WI base s' (tr ++ at_ (sh_now (ws_sh s)) o).
Proof.
  intros [A1 A2 A3 A4 A5 A6] Hs Hm Hk Ht Hn. split; rewrite ?Hs; auto.
  - rewrite map_app, <- app_assoc. apply asc_at, A2.
  - intros i Hi. destruct (Hn i Hi) as [E1 E2]. rewrite tev_app, tev_at, E1, A6 by exact E2. reflexivity.
Qed.
Lemma winv_times base ls s tr : wtimed base ls s tr -> WI base s tr.
Proof.
  induction 1 as [sh|base ls s tr op s' o R W E].
  { split; cbn; auto; try lia.
    - repeat constructor.
    - split; [apply truthful_nil|constructor].
    - intros [|i] t H; discriminate H. }
  change (map (fun x => (sh_now (ws_sh s), x)) o) with (at_ (sh_now (ws_sh s)) o). set (now := sh_now (ws_sh s)) in *.
  assert (W' := W). destruct W' as [A1 A2 A3 A4 A5 A6]. fold now in A1, A2, A3, A5.
  destruct op as [|gh|i op|i|e]; cbn [Workflow_model.wstep] in E.
  - assert (Hsh := main_sh _ _ _ _ _ _ E). assert (Hw := main_who _ _ _ _ _ _ E). assert (Hn := who_none_map o Hw).
    assert (Hev : forall i, events_of (Some i) o = []) by (intros i; rewrite Hn; apply events_of_map_other; discriminate).
    assert (M := main_times_ok glob cx base wf _ _ _ (timed_events_of None tr) E A1 (upto_all tr now None A2) (proj1 A3) (proj2 A3)). fold now in M. cbv zeta in M.
    assert (Em : map (fun x : who * obs => (now, snd x)) o = at_ now (events_of None o)).
    { rewrite Hn at 1. unfold at_. rewrite map_map. reflexivity. }
    rewrite Em in M. destruct M as (M1 & M2 & _). apply main_tasks in E.
    apply WI_step; fold now; [exact W|rewrite Hsh; reflexivity|rewrite tev_app, tev_at; auto| | |].
    + rewrite spawns_app, spawns_at, map_app, A4. destruct E as [[-> ->]|(kj & -> & -> & _)]; [apply app_nil_r|]. rewrite map_app. reflexivity.
    + intros i t Hi. rewrite spawns_app, spawns_at, tev_app, tev_at, Hev, app_nil_r. destruct E as [[Et Es]|(kj & Et & -> & _)].
      * rewrite Es. cbn. rewrite app_nil_r. apply A5. congruence.
      * rewrite Et in Hi. assert (Hlen : length (spawns tr) = length (ws_tasks s)) by (rewrite <- (map_length snd (spawns tr)), A4, map_length; reflexivity).
        destruct (Nat.lt_ge_cases i (length (ws_tasks s))) as [Hlt|Hge].
        -- rewrite nth_error_app1 in Hi |- * by lia. destruct (A5 i t Hi) as (b & B1 & B2). exists b. auto.
        -- rewrite nth_error_app2 in Hi |- * by lia. rewrite Hlen. destruct (i - length (ws_tasks s)) as [|n] eqn:Ei; [|destruct n; discriminate Hi]. injection Hi as <-.
           exists now. split; [reflexivity|]. split; [lia|]. rewrite A6 by exact Hge. split; [apply truthful_nil|exact I].
    + intros i Hi. split; [apply Hev|]. destruct E as [[<- _]|(kj & Et & _)]; [exact Hi|]. rewrite Et, app_length in Hi. lia.
  - destruct (ws_main s) as [|c ev| | | | | | | | | | |] eqn:Em; try discriminate E. destruct (is_match_second _ _ _ _) as [cache' b]. injection E as <- <-.
    apply WI_step; fold now; [exact W|reflexivity| | | |].
    + rewrite tev_app, tev_at. split; [apply truthful_snoc; [exact (proj1 A3)|exact I]|]. destruct b; apply no_spawn_snoc; try reflexivity; exact (proj2 A3).
    + rewrite spawns_app, spawns_at. cbn. rewrite app_nil_r. exact A4.
    + intros i t Hi. rewrite spawns_app, spawns_at, tev_app, tev_at. cbn [events_of flat_map eqb]. cbn. rewrite !app_nil_r. apply A5, Hi.
    + intros i Hi. split; [reflexivity|exact Hi].
  - destruct (nth_error (ws_tasks s) i) as [t|] eqn:Ei; [|discriminate].
    destruct (job_step glob cx (S i) (tk_job t) (ws_sh s) (tk_phase t) op) as [[[sh' p'] ob]|] eqn:Ej; [|discriminate]. injection E as <- <-.
    destruct (A5 i t Ei) as (b & B1 & B2 & B3 & B4).
    destruct (job_times_ok glob cx b _ _ _ _ _ _ _ _ _ Ej (proj2 B2) (upto_all tr now (Some i) A2) B3 B4) as (J1 & J2 & J3 & _). fold now in J1, J2, J3.
    assert (Hnone : forall w, w <> Some i -> events_of w (map (fun x => (Some i, x)) ob) = []) by (intros w Hw; apply events_of_map_other, Hw).
    apply WI_step; fold now; [exact W|exact J1| | | |].
    + rewrite tev_app, tev_at, Hnone, app_nil_r by discriminate. exact A3.
    + rewrite spawns_app, spawns_at, Hnone by discriminate. cbn. rewrite app_nil_r, A4. symmetry. apply (map_list_set tk_key i _ t); [exact Ei|reflexivity].
    + intros k t' Hk. cbn [ws_tasks] in Hk. rewrite spawns_app, spawns_at, (Hnone None) by discriminate. cbn [started_in flat_map at_ map]. rewrite app_nil_r, tev_app, tev_at.
      destruct (Nat.eq_dec k i) as [->|Hne].
      * rewrite (list_set_eq _ _ _ t) in Hk by exact Ei. injection Hk as <-. cbn [tk_key tk_job tk_phase]. rewrite events_of_map_same. exists b. auto.
      * rewrite list_set_ne in Hk by exact Hne. rewrite Hnone by congruence. cbn. rewrite app_nil_r. apply A5, Hk.
    + intros k Hk. cbn [ws_tasks] in Hk. rewrite list_set_length in Hk. split; [|exact Hk]. apply Hnone. intros [= ->].
      assert (i < length (ws_tasks s)) by (apply nth_error_Some; congruence). lia.
  - destruct (nth_error (ws_tasks s) i) as [[key j p sent]|] eqn:Ei; [|discriminate]. destruct p as [| | | | | | | | | | | | | |r]; try discriminate.
    destruct sent; [discriminate|].
    assert (Et : ws_tasks s' = list_set i (WTask key j (JpReturned r) true) (ws_tasks s) /\ ws_sh s' = ws_sh s /\ o = [] /\ ws_main s' = ws_main s).
    { destruct (ws_main s) eqn:Em0; try (destruct (Nat.ltb _ _); [|discriminate E]); injection E as <- <-; cbn [ws_tasks ws_sh ws_main set_task]; rewrite ?Em0; auto. }
    destruct Et as (Et & Hsh & -> & Em). apply WI_step; fold now; cbn [at_ map]; rewrite ?app_nil_r; [exact W|rewrite Hsh; reflexivity|rewrite Em; exact A3| | |].
    + rewrite A4, Et. symmetry. apply (map_list_set tk_key i _ (WTask key j (JpReturned r) false)); [exact Ei|reflexivity].
    + intros k t' Hk. rewrite Et in Hk. destruct (Nat.eq_dec k i) as [->|Hne].
      * rewrite (list_set_eq _ _ _ _ Ei) in Hk. injection Hk as <-. exact (A5 i _ Ei).
      * rewrite list_set_ne in Hk by exact Hne. apply A5, Hk.
    + intros k Hk. rewrite Et, list_set_length in Hk. split; [reflexivity|exact Hk].
  - injection E as <- <-. cbn [at_ map]. rewrite app_nil_r.
    assert (L : (now <= sh_now (env_step (ws_sh s) e))%N) by (destruct e; cbn; fold now; lia).
    split; cbn [ws_sh ws_main ws_tasks]; auto.
    + lia.
    + eapply asc_raise; eassumption.
    + split; [exact (proj1 A3)|]. eapply MI_tick; [exact (proj2 A3)|exact L].
    + intros i t Hi. destruct (A5 i t Hi) as (b & B1 & B2 & B3 & B4). exists b. split; [exact B1|]. split; [lia|]. split; [exact B3|]. eapply JI_tick; eassumption.
Qed.
End W.
