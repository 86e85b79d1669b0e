(** Dependency cycles: what [waits_for_itself] (Workflow_spec.v) means when every dependency is a job of the workflow. *)
From Verif Require Import Base Types Workflow_model Workflow_spec Workflow_term.

Section C.
Variable wf : workflow.
Fixpoint chain (l : list string) : Prop :=
  match l with
  | k :: (d :: _) as rest => depends wf k d /\ chain rest
  | _ => True
  end.
Lemma chain_tail k l : chain (k :: l) -> chain l.
Proof. destruct l; [auto|intros [_ H]; exact H]. Qed.
Lemma chain_trans l2 : forall k x, chain (k :: l2 ++ [x]) -> depends_trans wf k x.
Proof.
  induction l2 as [|d l2 IH]; intros k x H; [destruct H as [H _]; constructor; exact H|].
  destruct H as [H1 H2]. eapply dt_more; [exact H1|]. apply IH. exact H2.
Qed.
Lemma chain_app_l l1 : forall l2, chain (l1 ++ l2) -> chain l1.
Proof. induction l1 as [|k [|d l1] IH]; intros l2 H; [exact I|exact I|]. destruct H as [H1 H2]. split; [exact H1|]. eapply IH. exact H2. Qed.
Lemma chain_app_r l1 : forall l2, chain (l1 ++ l2) -> chain l2.
Proof. induction l1 as [|k l1 IH]; intros l2 H; [exact H|]. apply IH. eapply chain_tail. exact H. Qed.
Lemma depends_job k d : depends wf k d -> In k (keys (wf_jobs wf)).
Proof. intros (j & H & _). unfold keys. apply in_map_iff. exists (k, j). auto. Qed.
Lemma twice (l : list string) : NoDup l \/ exists x a b c, l = a ++ x :: b ++ x :: c.
Proof.
  induction l as [|x l [H|(y & a & b & c & ->)]]; [left; constructor| |right; exists y, (x :: a), b, c; reflexivity].
  destruct (in_dec string_dec x l) as [Hx|Hx]; [|left; constructor; assumption].
  apply in_split in Hx as (b & c & ->). right. exists x, [], b, c. reflexivity.
Qed.
Lemma chain_of S : (forall k d, depends wf k d -> In d (keys (wf_jobs wf))) -> waits_for_itself wf S -> forall n, exists k l, length l = n /\ S k /\ chain (k :: l) /\ (forall x, In x (k :: l) -> S x).
Proof.
  intros Hd [(k0 & _ & HS0) H]. cut (forall n k, S k -> exists l, length l = n /\ chain (k :: l) /\ forall x, In x (k :: l) -> S x).
  { intros K n. destruct (K n k0 HS0) as (l & H1 & H2 & H3). exists k0, l. auto. }
  induction n as [|n IH]; intros k Hk; [exists []; split; [reflexivity|]; split; [exact I|]; intros x [<-|[]]; exact Hk|].
  destruct (H k Hk) as (d & Hdep & [Sd|Nd]); [|destruct Nd; eapply Hd, Hdep]. destruct (IH d Sd) as (l & H1 & H2 & H3).
  exists (d :: l). split; [cbn; lia|]. split; [split; assumption|]. intros x [<-|Hx]; [exact Hk|apply H3, Hx].
Qed.
Lemma has_cycle S : (forall k d, depends wf k d -> In d (keys (wf_jobs wf))) -> waits_for_itself wf S -> exists k, depends_trans wf k k.
Proof.
  intros Hd HS. destruct (chain_of S Hd HS (length (wf_jobs wf))) as (k & l & Hl & _ & Hc & Hin).
  destruct (twice (k :: l)) as [Hn|(x & a & b & c & E)].
  - exfalso. assert (Hi : incl (k :: l) (keys (wf_jobs wf))).
    { intros x Hx. destruct HS as [_ H]. destruct (H x (Hin x Hx)) as (d & Hdep & _). eapply depends_job, Hdep. }
    assert (L := NoDup_incl_length Hn Hi). unfold keys in L. rewrite map_length in L. cbn in L. lia.
  - exists x. rewrite E in Hc. apply chain_app_r in Hc. change (x :: b ++ x :: c) with (x :: (b ++ x :: c)) in Hc.
    apply (chain_trans b). apply (chain_app_l _ c). cbn [app]. replace ((b ++ [x]) ++ c) with (b ++ x :: c); [exact Hc|]. rewrite <- app_assoc. reflexivity.
Qed.
Lemma trans_trans a b c : depends_trans wf a b -> depends_trans wf b c -> depends_trans wf a c.
Proof. induction 1 as [k d H|k d e H _ IH]; intros Hc; [eapply dt_more; eassumption|eapply dt_more; [exact H|auto]]. Qed.
Lemma trans_first k e : depends_trans wf k e -> exists d, depends wf k d /\ (d = e \/ depends_trans wf d e).
Proof. destruct 1; eauto. Qed.
(** A job on a cycle, or depending on one directly or indirectly, waits for itself or for such a job. *)
Lemma cycle_waits e : depends_trans wf e e -> waits_for_itself wf (fun k => depends_trans wf k e).
Proof.
  intros He. split.
  - exists e. split; [|exact He]. destruct (trans_first _ _ He) as (d & Hd & _). eapply depends_job, Hd.
  - intros k Hk. destruct (trans_first _ _ Hk) as (d & Hd & [->|H]); exists d || exists e; split; try exact Hd; left; assumption.
Qed.
Lemma no_cycle_acyclic : NoDup (keys (wf_jobs wf)) -> (forall k d, depends wf k d -> In d (keys (wf_jobs wf))) -> (~ exists k, depends_trans wf k k) -> acyclic wf.
Proof. intros Hn Hd Hc. destruct (graph_cases wf Hn) as [H|[S HS]]; [exact H|]. destruct Hc. eapply has_cycle; eassumption. Qed.
Lemma cycle_or : NoDup (keys (wf_jobs wf)) -> (forall k d, depends wf k d -> In d (keys (wf_jobs wf))) -> acyclic wf \/ exists k, depends_trans wf k k.
Proof. intros Hn Hd. destruct (graph_cases wf Hn) as [H|[S HS]]; [left; exact H|right]. eapply has_cycle; eassumption. Qed.
End C.
