(** C116: the outcome of a run is determined by what its steps and conditions come to, whatever the interleaving. *)
From Verif Require Import Base Types Signals_model Cond_model Config_model Plugins_model Exec_model Exec_spec
  Step_proof Step_props Job_proof Job_props Workflow_model Workflow_spec Workflow_proof Workflow_inv Workflow_term Workflow_props Outcome_spec Outcome_proof.

Lemma received_ran glob cx wf : NoDup (keys (wf_jobs wf)) -> forall ls s tr k r, wrun glob cx wf ls s tr -> In (k, r) (received tr) ->
  exists i j, nth_error (started tr) i = Some k /\ In (k, j) (wf_jobs wf) /\ job_story cx j (events_of (Some i) tr) r.
Proof.
  intros Hnd ls s tr k r R H.
  destruct (received_task glob cx wf Hnd _ _ _ _ _ R H) as (i & t & Ht & Hk & Hp).
  destruct (winv glob cx wf Hnd _ _ _ R) as [_ [T1 T2 _ _]]. destruct (tasks_run_inv glob cx wf _ _ _ R) as [TR _].
  destruct (TR i t Ht) as (jls & J & _). rewrite Hp in J. exists i, (tk_job t). repeat split; auto.
  - rewrite <- T1, nth_error_map, Ht. cbn. congruence.
  - rewrite <- Hk. apply T2. eapply nth_error_In; eauto.
  - eapply job_done_story; eauto.
Qed.

(** Every finished execution has the outcome computed from the states its steps come to and what its conditions say. *)
Theorem C116_outcome : forall glob cx wf ls s tr r matches res,
  NoDup (keys (wf_jobs wf)) -> wrun glob cx wf ls s tr -> ws_main s = WpDone r -> came_out matches res tr -> outcome matches res wf r.
Proof.
  intros glob cx wf ls s tr r matches res Hnd R Em [HM HR].
  assert (L := C37_life_cycle _ _ _ _ _ _ _ Hnd R Em). destruct (C36_final_state _ _ _ _ _ _ _ Hnd R Em) as [_ F].
  unfold outcome. inversion L as [c Ho Ev Er|check recs ws t0 t1 jobs Hl Ht Hf Hla Hk Hn r' Ev Er]; subst.
  - rewrite Ho. cbn [allowed]. rewrite <- (HM None c false); [split; reflexivity|]. apply in_events_of. rewrite <- Ev. left. reflexivity.
  - subst r'. cbn [wr_state wr_jobs] in *. rewrite (lets_allowed matches _ _ Hl).
    2: { intros c b H. apply (HM None). apply in_events_of. rewrite <- Ev. apply in_or_app. left. exact H. }
    destruct F as [(E & _)|(Hf' & _ & F)].
    { exfalso. subst ws. destruct Hf as [[_ E]|(b & x & a & _ & [Hb|Hb] & _ & E)]; [discriminate E|rewrite Hb in E; discriminate E..]. }
    assert (J : forall k jr, In (k, jr) (received tr) -> exists j, In (k, j) (wf_jobs wf) /\ (jr_state jr, map sr_state (jr_steps jr)) = job_outcome matches res k j).
    { intros k jr Hin. destruct (received_ran glob cx wf Hnd _ _ _ _ _ R Hin) as (i & j & _ & Hj & S). exists j. split; [exact Hj|].
      eapply job_out; [exact S| |].
      - intros c b H. apply (HM (Some i)). apply in_events_of. exact H.
      - intros m x. apply (HR k jr m x Hin). }
    assert (J' : forall k jr j, In (k, jr) (received tr) -> In (k, j) (wf_jobs wf) -> (jr_state jr, map sr_state (jr_steps jr)) = job_outcome matches res k j).
    { intros k jr j Hin Hj. destruct (J _ _ Hin) as (j' & Hj' & E). apply (In_lookup _ _ _ Hnd) in Hj, Hj'. congruence. }
    assert (G : forall k j, In (k, j) (wf_jobs wf) -> exists jr, lookup k jobs = Some jr /\ In (k, jr) (received tr)).
    { intros k j Hj. assert (Hi : In k (keys jobs)) by (apply Hk; apply in_map with (f := fst) in Hj; exact Hj).
      destruct (lookup k jobs) as [jr|] eqn:E.
      - exists jr. split; [reflexivity|]. apply F in E as (b & a & -> & _). apply in_or_app. right. left. reflexivity.
      - exfalso. apply lookup_None in E. exact (E Hi). }
    split; [exact Hk|]. split.
    + intros k j Hj. destruct (G k j Hj) as (jr & Hl' & Hi). exists jr. split; [exact Hl'|]. eapply J'; eassumption.
    + destruct Hf' as [[Hn' ->]|(b & [k jr] & a & Er & Hb & _ & ->)].
      * left. split; [|reflexivity]. intros k j Hj Hb. destruct (G k j Hj) as (jr & _ & Hi). apply (Hn' _ Hi). cbn [snd].
        rewrite <- (J' _ _ _ Hi Hj) in Hb. exact Hb.
      * right. cbn [snd] in *. split; [exact Hb|]. assert (Hi : In (k, jr) (received tr)) by (rewrite Er; apply in_or_app; right; left; reflexivity).
        destruct (J _ _ Hi) as (j & Hj & E). exists k, j. split; [exact Hj|]. rewrite <- E. reflexivity.
Qed.
Print Assumptions C116_outcome.

(** Two finished executions of the same workflow — by different schedules, at different speeds, even with different contexts — in which the steps that ran and the
    conditions came out the same have the same jobs with the same states and the same step states; and one succeeds iff the other does. *)
Theorem C116_interleaving_irrelevant : forall wf matches res glob1 cx1 ls1 s1 tr1 r1 glob2 cx2 ls2 s2 tr2 r2,
  NoDup (keys (wf_jobs wf)) ->
  wrun glob1 cx1 wf ls1 s1 tr1 -> ws_main s1 = WpDone r1 -> came_out matches res tr1 ->
  wrun glob2 cx2 wf ls2 s2 tr2 -> ws_main s2 = WpDone r2 -> came_out matches res tr2 ->
  same_outcome r1 r2 /\ (wr_state r1 = Succeeded <-> wr_state r2 = Succeeded) /\ (wr_state r1 = Skipped <-> wr_state r2 = Skipped) /\
  (wr_state r1 <> wr_state r2 -> exists ka ja kb jb, In (ka, ja) (wf_jobs wf) /\ In (kb, jb) (wf_jobs wf) /\
     fst (job_outcome matches res ka ja) = Failed /\ fst (job_outcome matches res kb jb) = Cancelled).
Proof.
  intros wf matches res glob1 cx1 ls1 s1 tr1 r1 glob2 cx2 ls2 s2 tr2 r2 Hnd R1 E1 C1 R2 E2 C2.
  assert (O1 := C116_outcome _ _ _ _ _ _ _ _ _ Hnd R1 E1 C1). assert (O2 := C116_outcome _ _ _ _ _ _ _ _ _ Hnd R2 E2 C2).
  unfold outcome, bad_state in O1, O2. destruct (allowed matches (wf_on wf)).
  - destruct O1 as (K1 & J1 & S1), O2 as (K2 & J2 & S2). split; [|split; [|split]].
    + intros k. destruct (in_dec eq_dec k (keys (wf_jobs wf))) as [Hk|Hk].
      * apply in_map_iff in Hk as ([k' j] & Ek & Hj). cbn [fst] in Ek. subst k'. destruct (J1 _ _ Hj) as (a & -> & Ea), (J2 _ _ Hj) as (b & -> & Eb).
        rewrite <- Eb in Ea. injection Ea as Es Et. auto.
      * assert (N1 : lookup k (wr_jobs r1) = None) by (apply lookup_None; rewrite K1; exact Hk).
        assert (N2 : lookup k (wr_jobs r2) = None) by (apply lookup_None; rewrite K2; exact Hk). rewrite N1, N2. exact I.
    + destruct S1 as [[N1 ->]|[B1 (k & j & Hj & Ej)]], S2 as [[N2 ->]|[B2 (k' & j' & Hj' & Ej')]]; try tauto.
      * exfalso. apply (N1 _ _ Hj'). rewrite Ej'. exact B2.
      * exfalso. apply (N2 _ _ Hj). rewrite Ej. exact B1.
      * destruct B1 as [-> | ->], B2 as [-> | ->]; split; discriminate.
    + assert (Q : forall r, (wr_state r = Failed \/ wr_state r = Cancelled) -> wr_state r <> Skipped) by (intros r [-> | ->]; discriminate).
      assert (P1 : wr_state r1 <> Skipped) by (destruct S1 as [[_ ->]|[B _]]; [discriminate|exact (Q _ B)]).
      assert (P2 : wr_state r2 <> Skipped) by (destruct S2 as [[_ ->]|[B _]]; [discriminate|exact (Q _ B)]). tauto.
    + intros Hne. destruct S1 as [[N1 E1']|[B1 (k & j & Hj & Ej)]], S2 as [[N2 E2']|[B2 (k' & j' & Hj' & Ej')]].
      * congruence.
      * exfalso. apply (N1 _ _ Hj'). rewrite Ej'. exact B2.
      * exfalso. apply (N2 _ _ Hj). rewrite Ej. exact B1.
      * destruct B1 as [B1|B1], B2 as [B2|B2]; rewrite B1 in *; rewrite B2 in *; try congruence; [exists k, j, k', j'|exists k', j', k, j]; auto.
  - destruct O1 as [-> N1], O2 as [-> N2]. split; [|split; [|split]]; try tauto; try congruence. intros k. rewrite N1, N2. exact I.
Qed.
Print Assumptions C116_interleaving_irrelevant.

(** The exception is real: with a failed and a cancelled job the state of the workflow depends on the order in which the results come in. *)
Definition c116_wf : workflow := Workflow (WorkflowId "id") (Some "w") None [("a", c33_jb "a" "x" []); ("b", c33_jb "b" "y" [])].
Definition c116_run (flip : bool) : list wop :=
  repeat WMain 7 ++ (if flip then whole_job 1 RCancelled ++ repeat WMain 2 ++ whole_job 0 (RFailed 2) else whole_job 0 (RFailed 2) ++ repeat WMain 2 ++ whole_job 1 RCancelled) ++ repeat WMain 4.
Definition c116_res (k : string) (n : nat) : wf_state := if eqb k "a" then Failed else Cancelled.
Theorem C116_state_order_dependent :
  (exists s tr r, wrun (fun _ => None) c26_cx c116_wf (c116_run false) s tr /\ ws_main s = WpDone r /\ came_out (fun _ => true) c116_res tr /\ wr_state r = Cancelled) /\
  (exists s tr r, wrun (fun _ => None) c26_cx c116_wf (c116_run true) s tr /\ ws_main s = WpDone r /\ came_out (fun _ => true) c116_res tr /\ wr_state r = Failed).
Proof.
  assert (Q : forall tr, (forallb (fun x : who * obs => match snd x with OMatch _ _ => false | _ => true end) tr = true) ->
    (forall k r n x, In (k, r) (received tr) -> nth_error (jr_steps r) n = Some x -> sr_state x <> Skipped -> sr_state x = c116_res k n) -> came_out (fun _ => true) c116_res tr).
  { intros tr H HR. split; [|exact HR]. intros w c b Hin. rewrite forallb_forall in H. discriminate (H _ Hin). }
  split.
  1: do 3 eexists; split; [eapply (wexec_run (fun _ => None) c26_cx c116_wf (c116_run false) [] (winit c33_sh) []); [constructor|vm_compute; reflexivity]|].
  2: do 3 eexists; split; [eapply (wexec_run (fun _ => None) c26_cx c116_wf (c116_run true) [] (winit c33_sh) []); [constructor|vm_compute; reflexivity]|].
  all: split; [reflexivity|]; split; [|reflexivity]; apply Q; [reflexivity|].
  all: intros k r n x Hin; vm_compute in Hin; destruct Hin as [E|[E|[]]]; injection E as <- <-; destruct n as [|[|n]]; cbn; intros Hx _; try discriminate Hx; injection Hx as <-; reflexivity.
Qed.
Print Assumptions C116_state_order_dependent.

(** *** C35, C36: what the result contains, and when the run is skipped. *)
Theorem C35_one_entry_per_job : forall glob cx wf ls s tr r,
  NoDup (keys (wf_jobs wf)) -> wrun glob cx wf ls s tr -> ws_main s = WpDone r -> wr_state r <> Skipped ->
  NoDup (keys (wr_jobs r)) /\ forall k, In k (keys (wr_jobs r)) <-> In k (keys (wf_jobs wf)).
Proof.
  intros glob cx wf ls s tr r Hnd R Em Hs. destruct (C37_life_cycle _ _ _ _ _ _ _ Hnd R Em) as [c Ho|check recs st t0 t1 jobs _ _ _ _ Hk Hn]; [exfalso; apply Hs; reflexivity|].
  cbn [wr_jobs]. split; assumption.
Qed.
Print Assumptions C35_one_entry_per_job.
Theorem C36_skipped_iff_not_matched : forall glob cx wf ls s tr r,
  NoDup (keys (wf_jobs wf)) -> wrun glob cx wf ls s tr -> ws_main s = WpDone r ->
  (wr_state r = Skipped <-> exists c, wf_on wf = Some c /\ In (None, OMatch c false) tr) /\
  (wr_state r <> Skipped <-> wf_on wf = None \/ exists c, wf_on wf = Some c /\ In (None, OMatch c true) tr) /\
  (wr_state r = Skipped -> wr_jobs r = [] /\ started tr = []).
Proof.
  intros glob cx wf ls s tr r Hnd R Em. assert (L := C37_life_cycle _ _ _ _ _ _ _ Hnd R Em).
  match type of L with wf_story _ _ ?E _ => assert (M : forall c b, In (None, OMatch c b) tr <-> In (OMatch c b) E) by (intros; symmetry; apply in_events_of); set (evs := E) in *; clearbody evs end.
  destruct (C36_final_state _ _ _ _ _ _ _ Hnd R Em) as [_ F].
  inversion L as [c Ho Ev Er|check recs st t0 t1 jobs Hc _ Hf _ _ _ r0 Ev Er].
  - split; [|split].
    + split; [|reflexivity]. intros _. exists c. split; [exact Ho|]. apply M. try rewrite <- Ev. left. reflexivity.
    + cbn [wr_state]. split; [intros C; congruence|]. intros [C|(c' & Hc & Hin)]; [congruence|]. apply M in Hin. try rewrite <- Ev in Hin. destruct Hin as [E|[E|[]]]; discriminate E.
    + intros _. destruct F as [(_ & _ & _ & F)|(F & _)]; [split; [reflexivity|exact F]|]. exfalso. rewrite <- Er in F. cbn [wr_state] in F. destruct F as [[_ F]|(b & x & a & _ & [F|F] & _ & F')]; congruence.
  - assert (Hns : st <> Skipped) by (destruct Hf as [[_ ->]|(b & x & a & _ & [F'|F'] & _ & F'')]; congruence).
    assert (Hm : forall c b, In (None, OMatch c b) tr -> In (OMatch c b) check).
    { intros c b Hin. apply M in Hin. try rewrite <- Ev in Hin. apply in_app_or in Hin as [Hin|Hin]; [exact Hin|]. exfalso.
      repeat (first [apply in_app_or in Hin as [Hin|Hin]|destruct Hin as [Hin|Hin]]; try discriminate Hin; try contradiction).
      - apply in_map_iff in Hin as (k & E & _). discriminate E.
      - revert Hin. generalize (@nil string) as acc. clear. induction recs as [|[k0 r0] recs IH]; intros acc Hin; [exact Hin|]. cbn [reactions] in Hin.
        repeat (first [apply in_app_or in Hin as [Hin|Hin]|destruct Hin as [Hin|Hin]]; try discriminate Hin; try contradiction); try (eapply IH; exact Hin); apply in_map_iff in Hin as (k & E & _); discriminate E. }
    cbn [wr_state wr_jobs]. split; [|split].
    + split; [intros C; contradiction|]. intros (c & Ho & Hin). apply Hm in Hin. unfold lets_run in Hc. rewrite Ho in Hc. subst check. destruct Hin as [E|[]]; discriminate E.
    + split; [|intros _; exact Hns]. intros _. unfold lets_run in Hc. destruct (wf_on wf) as [c|] eqn:Ho; [|left; reflexivity]. right. exists c. split; [reflexivity|]. apply M. try rewrite <- Ev; rewrite Hc. left. reflexivity.
    + intros C; contradiction.
Qed.
Print Assumptions C36_skipped_iff_not_matched.
