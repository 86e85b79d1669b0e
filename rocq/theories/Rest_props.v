(** C111: how far a run can always be brought, whatever its jobs' dependencies. *)
From Verif Require Import Base Types Signals_model Stream_model Cond_model Plugins_model Exec_model Exec_spec Workflow_model Workflow_spec Workflow_proof Workflow_inv Workflow_term Workflow_props
  Runner_model Sched_model Remote_model Config_model Config_spec Config_props Step_props Local_model Local_props Distant_model System_model System_spec System_proof System_flow System_inst System_props Finish_spec Finish_proof Finish_step
  Finish_cycle Finish_props.

Section R.
Variables (glob : glob_oracle) (cx : ectx) (wf : workflow).
Hypothesis Hnd : NoDup (keys (wf_jobs wf)).

Lemma started_grounded ls s tr : wrun glob cx wf ls s tr -> forall k, In k (started tr) -> grounded wf k.
Proof.
  induction 1 as [sh|ls s tr op s' o R IH E]; intros k Hk; [destruct Hk|].
  assert (R' := wrun_step _ _ _ _ _ _ _ _ _ R E). rewrite started_app in Hk. apply in_app_or in Hk as [Hk|Hk]; [exact (IH _ Hk)|].
  assert (Hr : received o = []).
  { assert (L := wobs_le _ _ _ _ _ _ _ E). destruct o as [|[w x] [|? ?]]; [destruct Hk| |cbn in L; lia]. destruct w as [n|]; [destruct Hk|]. destruct x; try destruct Hk; reflexivity. }
  destruct (started_is_job glob cx wf Hnd _ _ _ k R') as (j & Hj & Hd); [rewrite started_app; apply in_or_app; right; exact Hk|].
  exists j; [exact Hj|]. intros d Hdd. apply IH. apply (received_started glob cx wf Hnd _ _ _ _ R). specialize (Hd _ Hdd). rewrite received_app, Hr, app_nil_r in Hd. exact Hd.
Qed.
Lemma rest_received ls w tr : wrun glob cx wf ls w tr -> at_rest w tr -> forall k, grounded wf k -> In k (map fst (received tr)).
Proof.
  intros W ((t0 & ws & wa & rs & Em) & _ & Sub). destruct (winv glob cx wf Hnd _ _ _ W) as [M _].
  rewrite Em in M. cbn in M. destruct M as (chk & recs & (_ & Hlr & _ & -> & _ & _) & Hm).
  assert (Hrc : received tr = recs) by (unfold received; rewrite Hm, received_wmid by exact Hlr; reflexivity). rewrite Hrc in *.
  assert (Hst : started tr = independent wf ++ started_in (reactions wf [] recs)).
  { unfold started. rewrite Hm. unfold wmid, whead. destruct (lets_run_quiet _ _ Hlr) as [_ Hq]. rewrite !started_in_app, Hq, started_spawns. reflexivity. }
  intros k G. induction G as [k j Hj _ Hd].
  destruct (in_dec string_dec k (map fst recs)) as [|Hni]; [assumption|]. exfalso.
  destruct (jb_depends_on j) as [|d0 ds] eqn:Ed.
  - apply Hni, Sub. rewrite Hst. apply in_or_app. left. apply independent_in. eauto.
  - destruct recs as [|x recs' _] using rev_ind; [apply (Hd d0); left; reflexivity|].
    apply Hni, Sub. rewrite Hst. apply in_or_app. right. destruct x as [kx rx]. rewrite reactions_app, started_in_app. apply in_or_app. right. cbn [reactions].
    change (OReceive kx rx :: ?x) with ([OReceive kx rx] ++ x). rewrite !started_in_app, started_spawns. apply in_or_app. right. apply in_or_app. left.
    apply eligible_in. exists j. cbn [app]. rewrite map_app in *. split; [exact Hj|]. split; [rewrite Ed; discriminate|]. split; [rewrite Ed; exact Hd|exact Hni].
Qed.
Lemma done_received ls w tr r : wrun glob cx wf ls w tr -> ws_main w = WpDone r -> (wr_state r = Skipped /\ started tr = []) \/ forall k, In k (map fst (received tr)) <-> grounded wf k.
Proof.
  intros W Em. destruct (winv glob cx wf Hnd _ _ _ W) as [M _]. rewrite Em in M. cbn [minv] in M.
  destruct M as [(c & Ho & Hm & ->)|(chk & recs & (_ & _ & _ & _ & _ & Hc & Ha & _) & Hm)].
  - left. destruct (C36_final_state _ _ _ _ _ _ _ Hnd W Em) as (_ & [(H1 & _ & _ & H2)|(H & _)]); [auto|]. destruct H as [[_ C]|(b & x & a & _ & [C1|C1] & _ & C2)]; [discriminate C|cbn in C2; congruence|cbn in C2; congruence].
  - right. assert (Hr : received tr = recs) by (unfold received; rewrite Hm, received_in_app, received_wmid by exact Hc; apply app_nil_r).
    intros k. split.
    + intros Hk. apply (started_grounded _ _ _ W), (received_started glob cx wf Hnd _ _ _ _ W), Hk.
    + intros [k' j Hj _]. rewrite Hr. apply Ha. apply (in_map fst _ _ Hj).
Qed.
End R.

(** *** C111 *)
(** Only grounded jobs are ever started. *)
Theorem C111_only_grounded_jobs_start : forall glob cx wf, NoDup (keys (wf_jobs wf)) ->
  (forall ls s tr k, wrun glob cx wf ls s tr -> In k (started tr) -> grounded wf k) /\
  (forall rhooks conf sh0 ops s tr k, sysrun (builtin cx rhooks conf) glob cx wf sh0 ops s tr -> In k (started (flow_of (builtin cx rhooks conf) tr)) -> grounded wf k) /\
  (forall cl sh0 ops s tr k, sysrun (distant cx cl) glob cx wf sh0 ops s tr -> In k (started (flow_of (distant cx cl) tr)) -> grounded wf k).
Proof.
  intros glob cx wf Hnd. assert (K : forall ls s tr k, wrun glob cx wf ls s tr -> In k (started tr) -> grounded wf k) by (intros; eapply started_grounded; eassumption).
  split; [exact K|]. split.
  - intros rhooks conf sh0 ops s tr k Hr. destruct (C105_engine _ _ _ _ _ _ _ _ _ Hr) as (wls & W & _). exact (K _ _ _ _ W).
  - intros cl sh0 ops s tr k Hr. destruct (C107_engine _ _ _ _ _ _ _ _ Hr) as (wls & W & _). exact (K _ _ _ _ W).
Qed.
Print Assumptions C111_only_grounded_jobs_start.

(** A job is grounded or not for good: in a workflow whose dependencies are all defined, exactly if it is on no cycle and depends on none. *)
Theorem C111_grounded_iff : forall wf k, NoDup (keys (wf_jobs wf)) -> (forall k d, depends wf k d -> In d (keys (wf_jobs wf))) -> In k (keys (wf_jobs wf)) ->
  (grounded wf k <-> ~ exists e, depends_trans wf e e /\ (k = e \/ depends_trans wf k e)).
Proof.
  intros wf k Hnd Hd Hk. split.
  - intros G. clear Hk. induction G as [k j Hj _ IH]. intros (e & He & Hke).
    assert (F : exists d, depends wf k d /\ (d = e \/ depends_trans wf d e)).
    { destruct Hke as [->|Hke]; apply trans_first; assumption. }
    destruct F as (d & (j' & Hj' & Hdj) & Hde). assert (j' = j) as -> by (apply (In_lookup _ _ _ Hnd) in Hj, Hj'; congruence). apply (IH d Hdj). exists e. split; [exact He|]. destruct Hde; auto.
  - intros Hn.
    assert (K : forall n x, In x (keys (wf_jobs wf)) -> grounded wf x \/ exists l, length l = n /\ chain wf (x :: l) /\ forall y, In y (x :: l) -> In y (keys (wf_jobs wf))).
    { induction n as [|n IH]; intros x Hx; [right; exists []; split; [reflexivity|]; split; [exact Logic.I|]; intros y [<-|[]]; exact Hx|].
      assert (Hx' := Hx). unfold keys in Hx'. apply in_map_iff in Hx' as ([x' j] & Ex & Hj). cbn in Ex. subst x'.
      assert (Q : (forall d, In d (jb_depends_on j) -> grounded wf d) \/ exists d l, In d (jb_depends_on j) /\ length l = n /\ chain wf (d :: l) /\ forall y, In y (d :: l) -> In y (keys (wf_jobs wf))).
      { assert (Hdj : forall d, In d (jb_depends_on j) -> In d (keys (wf_jobs wf))) by (intros d H; apply (Hd x d); exists j; auto).
        induction (jb_depends_on j) as [|d ds IHd]; [left; intros d []|]. destruct (IH d (Hdj d (or_introl eq_refl))) as [Gd|(l & H1 & H2 & H3)].
        - destruct IHd as [Ga|(d' & l & H0 & H)]; [intros y Hy; apply Hdj; right; exact Hy|left; intros y [<-|Hy]; auto|right; exists d', l; split; [right; exact H0|exact H]].
        - right. exists d, l. split; [left; reflexivity|auto]. }
      destruct Q as [Q|(d & l & H0 & H1 & H2 & H3)]; [left; exists j; assumption|right]. exists (d :: l). split; [cbn; lia|]. split; [split; [exists j; auto|exact H2]|].
      intros y [<-|Hy]; [exact Hx|apply H3, Hy]. }
    destruct (K (length (wf_jobs wf)) k Hk) as [G|(l & Hl & Hc & Hi)]; [exact G|exfalso]. apply Hn.
    destruct (twice (k :: l)) as [Hnl|(x & a & b & c & E)].
    + exfalso. assert (L := NoDup_incl_length Hnl Hi). unfold keys in L. rewrite map_length in L. cbn in L. lia.
    + exists x. rewrite E in Hc. split.
      * apply chain_app_r in Hc. apply (chain_trans _ b). apply (chain_app_l _ _ c). cbn [app]. replace ((b ++ [x]) ++ c) with (b ++ x :: c); [exact Hc|]. rewrite <- app_assoc. reflexivity.
      * destruct a as [|k' a]; [left; injection E as -> _; reflexivity|right]. injection E as <- _. apply (chain_trans _ a). apply (chain_app_l _ _ (b ++ x :: c)). cbn [app] in *. rewrite <- app_assoc. exact Hc.
Qed.
Print Assumptions C111_grounded_iff.

(** From wherever a run is, it can be brought to a point where it is skipped or exactly the grounded jobs have delivered their results, when what is
    running goes on, as in C108. *)
Theorem C111_builtin : forall glob cx rhooks conf wf sh0 ops s tr,
  NoDup (keys (wf_jobs wf)) -> distinct_ids wf -> (forall k j, In (k, j) (wf_jobs wf) -> owns_steps j) ->
  sysrun (builtin cx rhooks conf) glob cx wf sh0 ops s tr -> (forall op, In op ops -> orderly wf tame_local op) ->
  forall gh c code, keeps_steps c ->
  exists more s' o, Forall (goes_on gh (plain_local c code)) more /\ sysexec (builtin cx rhooks conf) glob cx wf s more = Some (s', o) /\
    let evs := flow_of (builtin cx rhooks conf) (tr ++ o) in
    ((exists r, ws_main (sy_w s') = WpDone r /\ wr_state r = Skipped /\ started evs = []) \/ forall k, In k (map fst (received evs)) <-> grounded wf k).
Proof.
  intros glob cx rhooks conf wf sh0 ops s tr Hn Hd Ho Hr Hop gh c code Hc.
  destruct (always_settles (builtin cx rhooks conf) glob cx wf tame_local (plain_local c code) gh (builtin_faithful _ _ _) (builtin_tracks _ _ _) (builtin_ends _ _ _ _ _) (plain_tame _ _ Hc)
    Hn Hd Ho _ _ _ _ Hr Hop) as (more & s' & o & Hm & E & Hs).
  assert (Hr1 : sysrun (builtin cx rhooks conf) glob cx wf sh0 (ops ++ more) s' (tr ++ o)) by (eapply sysexec_run; eassumption).
  destruct (C105_engine _ _ _ _ _ _ _ _ _ Hr1) as (wls & W & _).
  exists more, s', o. split; [exact Hm|]. split; [exact E|]. intros evs. destruct Hs as [[r Em]|Hs].
  - destruct (done_received _ _ _ Hn _ _ _ _ W Em) as [[H1 H2]|H]; [left; exists r; auto|right; exact H].
  - right. intros k. split; [|apply (rest_received _ _ _ Hn _ _ _ W Hs)]. intros Hk. apply (started_grounded _ _ _ Hn _ _ _ W), (received_started glob cx wf Hn _ _ _ _ W), Hk.
Qed.
Print Assumptions C111_builtin.

Theorem C111_distant : forall glob cx cl wf sh0 ops s tr,
  NoDup (keys (wf_jobs wf)) -> distinct_ids wf -> (forall k j, In (k, j) (wf_jobs wf) -> owns_steps j) ->
  sysrun (distant cx cl) glob cx wf sh0 ops s tr -> (forall op, In op ops -> orderly wf tame_distant op) ->
  forall gh c clients pick rr, keeps_steps c -> client_start clients pick <> None ->
  exists more s' o, Forall (goes_on gh (plain_distant c clients pick rr)) more /\ sysexec (distant cx cl) glob cx wf s more = Some (s', o) /\
    let evs := flow_of (distant cx cl) (tr ++ o) in
    ((exists r, ws_main (sy_w s') = WpDone r /\ wr_state r = Skipped /\ started evs = []) \/ forall k, In k (map fst (received evs)) <-> grounded wf k).
Proof.
  intros glob cx cl wf sh0 ops s tr Hn Hd Ho Hr Hop gh c clients pick rr Hc Hp.
  destruct (always_settles (distant cx cl) glob cx wf tame_distant (plain_distant c clients pick rr) gh (distant_faithful _ _) (distant_tracks _ _) (distant_ends _ _ _ _ _ _ Hp) (plain_tame_distant _ _ _ _ Hc)
    Hn Hd Ho _ _ _ _ Hr Hop) as (more & s' & o & Hm & E & Hs).
  assert (Hr1 : sysrun (distant cx cl) glob cx wf sh0 (ops ++ more) s' (tr ++ o)) by (eapply sysexec_run; eassumption).
  destruct (C107_engine _ _ _ _ _ _ _ _ Hr1) as (wls & W & _).
  exists more, s', o. split; [exact Hm|]. split; [exact E|]. intros evs. destruct Hs as [[r Em]|Hs].
  - destruct (done_received _ _ _ Hn _ _ _ _ W Em) as [[H1 H2]|H]; [left; exists r; auto|right; exact H].
  - right. intros k. split; [|apply (rest_received _ _ _ Hn _ _ _ W Hs)]. intros Hk. apply (started_grounded _ _ _ Hn _ _ _ W), (received_started glob cx wf Hn _ _ _ _ W), Hk.
Qed.
Print Assumptions C111_distant.

(** Non-vacuity: a built workflow in which [a] is grounded and [b] and [c] wait for one another. *)
Definition c111_wf : workflow := match build ex_pd (fun _ => inl (c109_config (Some ["b"]))) ex_env (Some "id") (Some "text") "uuid" with Ok w => w | Err _ => sys_wf end.
Example C111_nonvacuous : build ex_pd (fun _ => inl (c109_config (Some ["b"]))) ex_env (Some "id") (Some "text") "uuid" = Ok c111_wf /\
  NoDup (keys (wf_jobs c111_wf)) /\ distinct_ids c111_wf /\ (forall k j, In (k, j) (wf_jobs c111_wf) -> owns_steps j) /\ grounded c111_wf "a" /\ ~ grounded c111_wf "b" /\ ~ grounded c111_wf "c" /\
  exists ops s tr, ops <> [] /\ sysrun (builtin c26_cx (fun c => c) loc_conf) (fun _ => None) c26_cx c111_wf sys_sh ops s tr.
Proof.
  assert (B : build ex_pd (fun _ => inl (c109_config (Some ["b"]))) ex_env (Some "id") (Some "text") "uuid" = Ok c111_wf) by (vm_compute; reflexivity). split; [exact B|].
  assert (Hdec : forall (t : string) w, inl (c109_config (Some ["b"])) = @inl user_workflow string w -> NoDup (keys (uw_jobs w))).
  { intros t w [= <-]. repeat constructor; cbn; intuition discriminate. }
  destruct (built_runs _ _ _ _ _ _ _ Hdec B) as (Hnd & _ & Hid & Ho & Hd). split; [exact Hnd|]. split; [exact Hid|]. split; [exact Ho|].
  assert (Db : depends c111_wf "b" "c") by (eexists; split; [right; left; reflexivity|right; left; reflexivity]).
  assert (Dc : depends c111_wf "c" "b") by (eexists; split; [right; right; left; reflexivity|left; reflexivity]).
  assert (Cb : depends_trans c111_wf "b" "b") by (eapply dt_more; [exact Db|apply dt_one; exact Dc]).
  split; [eexists; [left; reflexivity|intros d []]|]. split.
  { intros G. apply (C111_grounded_iff c111_wf "b" Hnd Hd) in G; [|right; left; reflexivity]. apply G. exists "b". auto. }
  split. { intros G. apply (C111_grounded_iff c111_wf "c" Hnd Hd) in G; [|right; right; left; reflexivity]. apply G. exists "b". split; [exact Cb|right; apply dt_one; exact Dc]. }
  exists (repeat (YFlow WMain) 4). do 2 eexists. split; [discriminate|]. eapply (sysexec_run _ _ _ _ _ (repeat (YFlow WMain) 4) [] _ [] _ _ (sysrun_init _ _ _ _ _)). vm_compute; reflexivity.
Qed.
