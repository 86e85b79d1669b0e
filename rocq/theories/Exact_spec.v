(** Specification vocabulary for the exact forms of claims that fail as first stated. *)
From Verif Require Import Base Types Ids_model Signals_model Signals_spec Stream_model Stream_spec Cond_model Cond_spec Sched_model.

(** ** Ids. Two ids whose texts are cut at different slashes: [a/b] with key [c], and [a] with key [b/c]. *)
Definition cut_differently (w k w' k' : string) : Prop := exists a b c, w = a +++ "/" +++ b /\ k = c /\ w' = a /\ k' = b +++ "/" +++ c.

(** ** Signals: the tasks woken during a history. *)
Fixpoint woken_from (before ops : list sig_op) : list task :=
  match ops with
  | [] => []
  | o :: r => match sig_output before o with ORaise _ (Some t) => [t] | _ => [] end ++ woken_from (before ++ [o]) r
  end.
Definition woken (ops : list sig_op) : list task := woken_from [] ops.

(** ** Streams. The call of [end(r)] by thread [c] has found the stream not ended and has not stored its result yet. *)
Definition about_to_store (ops : list stream_op) (c : nat) (r : run_result) : Prop :=
  exists pre post, ops = pre ++ SEndCheck c r :: post /\ ~ ended pre /\ ~ In (SEndCommit c) post /\
    (forall p1 r' p2, post = p1 ++ SEndCheck c r' :: p2 -> ended (pre ++ SEndCheck c r :: p1)).
(** The last storing of the history stored [r]. *)
Definition stored_last (ops : list stream_op) (r : run_result) : Prop :=
  exists pre c post, ops = pre ++ SEndCommit c :: post /\ about_to_store pre c r /\
    forall p1 c' p2 r', post = p1 ++ SEndCommit c' :: p2 -> ~ about_to_store (pre ++ SEndCommit c :: p1) c' r'.

(** ** Conditions: the last fetch of the history that delivered, delivered [files]. *)
Definition last_fetched (glob : glob_oracle) (m : matcher) (ev : trigger_event) (ops : list cm_op) (files : list string) : Prop :=
  exists pre call gh post, ops = pre ++ CmFinish call gh :: post /\ contains_key call (cms_inflight (cm_after glob m pre)) = true /\ files_fetched gh ev files /\
    forall p1 call' gh' p2 files', post = p1 ++ CmFinish call' gh' :: p2 -> contains_key call' (cms_inflight (cm_after glob m (pre ++ CmFinish call gh :: p1))) = true -> ~ files_fetched gh' ev files'.

(** ** Scheduler: the same runners with other limits and versions. *)
Section Relabel.
Variable limit : runner_meta -> Z.
Variable version : runner_meta -> string.
Definition relabel (r : runner_meta) : runner_meta := RunnerMeta (rm_id r) (rm_os r) (rm_arch r) (rm_support_docker r) (rm_support_host r) (version r) (limit r).
Definition relabel_req (q : sched_req) : sched_req := SchedReq (map relabel (sq_runners q)) (sq_step q) (sq_container q).
Definition relabel_op (o : sop) : sop := match o with SBegin c q => SBegin c (relabel_req q) | o => o end.
Definition relabel_event (e : sev) : sev :=
  match e with EvCalled c q => EvCalled c (relabel_req q) | EvReturned c q r => EvReturned c (relabel_req q) (option_map relabel r) | e => e end.
End Relabel.
