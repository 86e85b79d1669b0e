(** [Command::run] down to the bytes of the child's output: C95, C96, C97. *)
From Verif Require Import Base Types Ids_spec Stream_model Runner_model Text_model Text_spec Text_proof Pipe_model Pipe_spec Pipe_proof Pipe_live.

(** C95: the log is the lines of the output. [lo]/[le]: the lines written so far to stdout and stderr. What was logged of each is a
    prefix, in order, without carriage return and newline, and UTF-8; the rest of the log is one message at most, about a line
    that is not UTF-8, which is the next one of its stream. When [run] has stopped reading, one output was closed and all its
    lines were logged, or a line was not UTF-8. *)
Theorem C95_logs_are_the_lines_of_the_output :
  forall cap ins s tr lo le,
  prun cap ins s tr -> lines (written Out ins) lo -> lines (written Errs ins) le ->
  exists n m fail,
    messages LLog tr = map snd (firstn n lo) /\ messages LError tr = map snd (firstn m le) ++ fail /\
    (forall x, In x (firstn n lo) \/ In x (firstn m le) -> is_utf8 (fst x)) /\
    (~ stopped_reading s -> fail = []) /\
    (stopped_reading s ->
      (fail = [] /\ ((closed Out ins /\ firstn n lo = lo) \/ (closed Errs ins /\ firstn m le = le))) \/
      (fail = ["stream did not contain valid UTF-8"] /\
       exists x, ~ is_utf8 (fst x) /\ (nth_error lo n = Some x \/ nth_error le m = Some x))).
Proof.
  intros cap ins s tr lo le R Ho He. destruct (pinv_run _ _ _ _ R) as (L & B & fail & I).
  destruct (inv_prefix _ _ _ _ _ _ Out _ I Ho) as (ro & -> & Do). destruct (inv_prefix _ _ _ _ _ _ Errs _ I He) as (re & -> & De).
  exists (length (L Out)), (length (L Errs)), fail. rewrite !firstn_app_len.
  split; [apply (pi_out _ _ _ _ _ _ I)|]. split; [apply (pi_err _ _ _ _ _ _ I)|].
  split; [intros x [H|H]; eapply (pi_utf _ _ _ _ _ _ I), H|].
  assert (O : stopped_reading s <-> over (ps_phase s) = true).
  { unfold stopped_reading. destruct (ps_phase s) as [| | |[]]; cbn; split; try tauto; try congruence; intros [|]; congruence. }
  split.
  - intros N. apply (pi_before _ _ _ _ _ _ I). destruct (over (ps_phase s)) eqn:V; [destruct N; apply O; reflexivity|reflexivity].
  - intros S. apply O in S. destruct (pi_after _ _ _ _ _ _ I S) as [(F & HB & e & D)|(F & e & x & HB & U & HB')]; [left|right]; (split; [exact F|]).
    + rewrite !HB. assert (C : closed e ins) by (apply (pi_closed _ _ _ _ _ _ I), D). destruct e; [left|right]; (split; [exact C|]); [rewrite (Do D)|rewrite (De D)]; rewrite !app_nil_r; reflexivity.
    + exists x. split; [exact U|]. destruct e; [left|right]; rewrite HB; cbn [app]; apply nth_app_len.
Qed.
(** The result is reported once, last, and is the exit code's; [run] reports one only after the child has exited. *)
Theorem C95_result_is_the_exit_code :
  forall cap ins s tr r, prun cap ins s tr ->
  In (SeEnd r) tr <-> In PIReap ins /\ exists code, In (PIExit code) ins /\ r = exit_result code.
Proof.
  intros cap ins s tr r R. destruct (pinv_run _ _ _ _ R) as (L & B & fail & I).
  destruct (done_facts _ _ _ _ R) as (K & _).
  rewrite (pi_end _ _ _ _ _ _ I), K. split; intros (H & code & X & ->); (split; [exact H|]); exists code; (split; [|reflexivity]); apply (pi_exit _ _ _ _ _ _ I), X.
Qed.
(** A run at this level is a run of the command model of Runner_model.v, on which the executors' theorems rest. *)
Theorem C95_refines_the_command_model :
  forall cap ins s tr, prun cap ins s tr -> exists cins, cmd_run cins (ps_phase s) tr.
Proof. intros. eapply refine; eauto. Qed.

(** C96: [run] of a program that keeps its outputs open until it exits, and whose output is text, always comes to an end, however
    little the pipes hold and however the readers are scheduled: it never gets stuck, ... *)
Theorem C96_an_ordinary_command_never_hangs :
  forall cap prog ins s tr, cap > 0 -> ordinary_program prog -> text_output prog ->
  prun cap ins s tr -> performs prog ins ->
  (exists started, ps_phase s = CDone started) \/ exists i s' o, pstep cap s i = Some (s', o) /\ performs prog (ins ++ [i]).
Proof. intros. eapply progress; eauto. Qed.
(** ... it takes a bounded number of steps (of any program), ... *)
Theorem C96_a_command_takes_boundedly_many_steps :
  forall cap prog ins s tr, prun cap ins s tr -> performs prog ins -> length ins <= 3 * length prog + 3.
Proof.
  intros cap prog ins s tr R (rest & ->). assert (H := pot_run _ _ _ _ R). rewrite app_length. lia.
Qed.
(** ... so every way to go on leads to the end: the command's result, unless it could not be started. *)
Theorem C96_an_ordinary_command_can_always_finish :
  forall cap prog ins s tr, cap > 0 -> ordinary_program prog -> text_output prog ->
  prun cap ins s tr -> performs prog ins -> ~ In (PISpawn false) ins ->
  exists ins' s' o code, pexec cap s ins' = Some (s', o) /\ performs prog (ins ++ ins') /\ In (PIExit code) prog /\ In (SeEnd (exit_result code)) (tr ++ o).
Proof.
  intros cap prog ins s tr Hc Ord U. remember (3 * length prog + 3 - length ins) as k eqn:K.
  revert ins s tr K. induction k as [|k IH]; intros ins s tr K R P NS;
    (destruct (C96_an_ordinary_command_never_hangs _ _ _ _ _ Hc Ord U R P) as [(b & D)|(i & s' & o & E & P')]; [clear K; try clear IH|]).
  1,3: exists [], s, []; destruct (pinv_run _ _ _ _ R) as (L & B & fail & I); destruct (done_facts _ _ _ _ R) as (_ & F1 & F2); rewrite !app_nil_r;
    destruct b; [|destruct NS; apply F1, D]; destruct (F2 D) as (code & X); exists code; (split; [reflexivity|]); (split; [exact P|]);
    (split; [destruct P as (rest & ->); apply in_app_iff; left; apply in_actions; [reflexivity|]; apply (pi_exit _ _ _ _ _ _ I), X|]);
    apply (pi_end _ _ _ _ _ _ I); eauto.
  - assert (H := C96_a_command_takes_boundedly_many_steps _ _ _ _ _ (prun_step _ _ _ _ _ _ _ R E) P'). rewrite app_length in H. change (length [i]) with 1 in H. lia.
  - assert (X : exists i s' o, pstep cap s i = Some (s', o) /\ performs prog (ins ++ [i]) /\ i <> PISpawn false).
    { destruct i as [[]|e c|e|code|e n|e|]; try (do 3 eexists; (split; [exact E|]); split; [exact P'|discriminate]).
      exists (PISpawn true). cbn [pstep] in *. unfold pcmd in *. destruct (ps_phase s); try discriminate E. cbn. do 2 eexists. split; [reflexivity|]. split; [apply performs_more; auto|discriminate]. }
    clear i s' o E P'. destruct X as (i & s' & o & E & P' & Ni). assert (R' := prun_step _ _ _ _ _ _ _ R E).
    destruct (IH (ins ++ [i]) s' (tr ++ o)) as (ins' & s2 & o2 & code & E2 & P2 & X & En); [rewrite app_length; change (length [i]) with 1; lia|exact R'|exact P'| |].
    + rewrite in_app_iff. intros [C|[C|[]]]; [exact (NS C)|exact (Ni C)].
    + exists (i :: ins'), s2, (o ++ o2), code. cbn [pexec]. rewrite E, E2. split; [reflexivity|]. rewrite <- app_assoc in P2, En. auto.
Qed.

(** C97: a command that has more to write than a pipe holds when [run] stops reading blocks for ever: it never exits, and [run]
    never returns. *)
Theorem C97_a_blocked_command_never_ends :
  forall cap prog ins s tr e mid code post,
  prun cap ins s tr -> stopped_reading s ->
  prog = actions ins ++ mid ++ PIExit code :: post -> (forall c, ~ In (PIExit c) (actions ins ++ mid)) -> String.length (written e mid) > cap ->
  forall ins' s' o, pexec cap s ins' = Some (s', o) -> performs prog (ins ++ ins') ->
  (forall c, ~ In (PIExit c) (ins ++ ins')) /\ (forall r, ~ In (SeEnd r) (tr ++ o)).
Proof.
  intros cap prog ins s tr e mid code post R S Ep N H ins' s' o E P.
  assert (Hp : ps_phase s = CWait).
  { destruct S as [S|S]; [exact S|]. destruct (done_facts _ _ _ _ R) as (_ & _ & F). destruct (F S) as (c & X). destruct (pinv_run _ _ _ _ R) as (L & B & fail & I).
    apply (pi_exit _ _ _ _ _ _ I) in X. destruct (N c). apply in_app_iff. left. apply in_actions; auto. }
  destruct (blocked _ _ _ _ _ _ _ _ _ R Hp Ep N H _ _ _ E P) as [_ Nx]. split; [exact Nx|]. intros r C.
  apply (C95_result_is_the_exit_code _ _ _ _ _ (prun_pexec _ _ _ _ _ _ _ R E)) in C as (_ & c & C & _). exact (Nx c C).
Qed.
(** And there are such commands: one that closes one of its outputs, and one that prints a line that is not UTF-8. *)
Theorem C97_closing_one_output_hangs :
  forall cap e e' text code post, e' <> e -> String.length text > cap ->
  hangs cap (PIClose e :: writes e' text ++ PIExit code :: post).
Proof.
  intros cap e e' text code post _ H. destruct (close_blocks cap e) as (s & R & P).
  exists [PISpawn true; PIClose e; PILine e], s, []. split; [exact R|]. split; [eexists; reflexivity|]. split; [left; reflexivity|].
  intros ins' s' o E Pf. refine (proj2 (C97_a_blocked_command_never_ends cap _ _ s [] e' (writes e' text) code post R (or_introl P) eq_refl _ _ _ _ _ E Pf)).
  - intros c [C|C]; [discriminate C|]. exact (writes_no_exit _ _ _ C).
  - rewrite written_writes, fd_eqb_refl. exact H.
Qed.
Theorem C97_a_line_that_is_not_text_hangs :
  forall cap e e' raw text code post, free_of (ascii_of_nat 10) raw -> ~ is_utf8 raw -> S (String.length raw) <= cap -> S (String.length raw) <= 8 * 1024 ->
  String.length text > cap ->
  hangs cap (writes e (raw +++ lf) ++ writes e' text ++ PIExit code :: post).
Proof.
  intros cap e e' raw text code post F U Hc Hb H. destruct (bad_line_blocks cap e raw F U Hc Hb) as (s & R & P).
  assert (A : actions (PISpawn true :: writes e (raw +++ lf) ++ [PIFill e (S (String.length raw)); PILine e]) = writes e (raw +++ lf)).
  { change (PISpawn true :: ?x) with ([PISpawn true] ++ x). rewrite !actions_app, writes_actions. cbn. apply app_nil_r. }
  eexists _, s, _. split; [exact R|]. split; [eexists; rewrite A; reflexivity|]. split; [left; reflexivity|].
  intros ins' s' o E Pf. refine (proj2 (C97_a_blocked_command_never_ends cap _ _ s _ e' (writes e' text) code post R (or_introl P) _ _ _ _ _ _ E Pf)).
  - rewrite A. reflexivity.
  - intros c. rewrite A, in_app_iff. intros [C|C]; exact (writes_no_exit _ _ _ C).
  - rewrite written_writes, fd_eqb_refl. exact H.
Qed.

(** ** Concrete cases *)
(** A child that prints "hi\r\n" to stdout and "e" to stderr, then exits with 3. *)
Definition ex_prog : list pinput := writes Out ("hi" +++ crs +++ lf) ++ writes Errs "e" ++ [PIExit (Some 3%Z); PIClose Errs; PIClose Out].
Example ex_prog_ordinary : ordinary_program ex_prog.
Proof.
  exists (writes Out ("hi" +++ crs +++ lf) ++ writes Errs "e"), (Some 3%Z). split; [|right; right; left; reflexivity].
  intros i Hi. cbn in Hi. repeat (destruct Hi as [<-|Hi]; [eauto|]). destruct Hi.
Qed.
Example ex_prog_text : text_output ex_prog.
Proof.
  assert (Ho : lines (written Out ex_prog) [("hi" +++ crs, "hi")]).
  { apply (lines_cons ("hi" +++ crs) "hi" "" []); [cbn; repeat split; discriminate|left; reflexivity|constructor]. }
  assert (He : lines (written Errs ex_prog) [("e", "e")]) by (apply lines_last; [discriminate|cbn; split; [discriminate|exact I]]).
  intros [] ls x H Hx; [rewrite (lines_fun _ _ _ H Ho) in Hx|rewrite (lines_fun _ _ _ H He) in Hx]; destruct Hx as [<-|[]]; apply utf8_ok_iff; reflexivity.
Qed.
(** A pipe of three bytes: the child must wait for the reader, and the two lines are logged. *)
Definition ex_ins : list pinput :=
  PISpawn true :: writes Out ("hi" +++ crs) ++ [PIFill Out 2] ++ writes Out lf ++ [PIFill Out 2; PILine Out] ++ writes Errs "e" ++
  [PIExit (Some 3%Z); PIFill Errs 1; PIClose Errs; PILine Errs; PIClose Out; PILine Out; PIReap].
Example ex_run : exists s, prun 3 ex_ins s [SeLog (Log LLog "hi"); SeLog (Log LError "e"); SeEnd (RFailed 3)] /\ performs ex_prog ex_ins /\ ps_phase s = CDone true.
Proof.
  destruct (pexec 3 pinit ex_ins) as [[s o]|] eqn:E; [|vm_compute in E; discriminate E].
  assert (o = [SeLog (Log LLog "hi"); SeLog (Log LError "e"); SeEnd (RFailed 3)] /\ ps_phase s = CDone true) as [-> P] by (vm_compute in E; injection E as <- <-; auto).
  exists s. split; [apply (prun_pexec 3 [] pinit [] ex_ins s _ (prun_init 3) E)|]. split; [exists []; reflexivity|exact P].
Qed.
(** A byte that is not UTF-8. *)
Example ex_not_text : free_of nl (String (ascii_of_nat 255) "") /\ ~ is_utf8 (String (ascii_of_nat 255) "").
Proof. split; [split; [discriminate|exact I]|]. apply utf8_ok_false. reflexivity. Qed.

Print Assumptions C95_logs_are_the_lines_of_the_output.
Print Assumptions C95_result_is_the_exit_code.
Print Assumptions C95_refines_the_command_model.
Print Assumptions C96_an_ordinary_command_never_hangs.
Print Assumptions C96_a_command_takes_boundedly_many_steps.
Print Assumptions C96_an_ordinary_command_can_always_finish.
Print Assumptions C97_a_blocked_command_never_ends.
Print Assumptions C97_closing_one_output_hangs.
Print Assumptions C97_a_line_that_is_not_text_hangs.
