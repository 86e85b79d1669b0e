From Verif Require Import Base Types Stream_model Paths_model Docker_model Runner_model Runner_spec.

Lemma merge_snoc_l {A} (a b l : list A) x : merge a b l -> merge (a ++ [x]) b (l ++ [x]).
Proof. induction 1; cbn; [apply merge_l, merge_nil|constructor; assumption|constructor; assumption]. Qed.
Lemma merge_snoc_r {A} (a b l : list A) x : merge a b l -> merge a (b ++ [x]) (l ++ [x]).
Proof. induction 1; cbn; [apply merge_r, merge_nil|constructor; assumption|constructor; assumption]. Qed.

Lemma out_reads_snoc ins i : out_reads (ins ++ [i]) = out_reads ins ++ match i with CIOut r => [r] | _ => [] end.
Proof. unfold out_reads. rewrite flat_map_app. cbn. rewrite app_nil_r. reflexivity. Qed.
Lemma err_reads_snoc ins i : err_reads (ins ++ [i]) = err_reads ins ++ match i with CIErr r => [r] | _ => [] end.
Proof. unfold err_reads. rewrite flat_map_app. cbn. rewrite app_nil_r. reflexivity. Qed.

Definition lines_ok (ins : list cinput) (lo le : list string) (ls : list log) : Prop :=
  out_reads ins = map RdLine lo /\ err_reads ins = map RdLine le /\ merge (map log_log lo) (map log_error le) ls.
Definition broke_ok (ins : list cinput) (lo le : list string) (ls : list log) (cut : list log) : Prop :=
  merge (map log_log lo) (map log_error le) ls /\
  exists e, cut = end_log e /\
   ((out_reads ins = map RdLine lo ++ [end_read e] /\ err_reads ins = map RdLine le) \/
    (out_reads ins = map RdLine lo /\ err_reads ins = map RdLine le ++ [end_read e])).
Lemma cmd_inv ins p tr : cmd_run ins p tr ->
  match p with
  | CSpawn => ins = [] /\ tr = []
  | CRead => exists lo le ls, tr = map SeLog ls /\ lines_ok ins lo le ls
  | CWait => exists lo le ls cut, tr = map SeLog (ls ++ cut) /\ broke_ok ins lo le ls cut
  | CDone true => exists lo le ls cut code, tr = map SeLog (ls ++ cut) ++ [SeEnd (exit_result code)] /\ broke_ok ins lo le ls cut /\ In (CIExit code) ins
  | CDone false => True
  end.
Proof.
  induction 1 as [|ins p tr i p' o R IH E]; [auto|].
  destruct p as [| | |ok]; [| | |destruct i; discriminate E].
  - destruct IH as [-> ->]. destruct i as [[|]|r|r|c|]; try discriminate E; injection E as <- <-; [|exact I].
    exists [], [], []. split; [reflexivity|]. split; [reflexivity|]. split; [reflexivity|constructor].
  - destruct IH as (lo & le & ls & -> & H1 & H2 & H3).
    destruct i as [[|]|[s| |m]|[s| |m]|c|]; try discriminate E; injection E as <- <-.
    + exists (lo ++ [s]), le, (ls ++ [log_log s]). unfold lines_ok. rewrite out_reads_snoc, err_reads_snoc, H1, H2, !map_app, app_nil_r. cbn.
      repeat (split; [reflexivity|]). apply merge_snoc_l, H3.
    + exists lo, le, ls, []. rewrite !app_nil_r. split; [reflexivity|]. split; [exact H3|]. exists PEof. split; [reflexivity|].
      left. rewrite out_reads_snoc, err_reads_snoc, H1, H2, app_nil_r. auto.
    + exists lo, le, ls, [log_error m]. split; [rewrite map_app; reflexivity|]. split; [exact H3|]. exists (PError m). split; [reflexivity|].
      left. rewrite out_reads_snoc, err_reads_snoc, H1, H2, app_nil_r. auto.
    + exists lo, (le ++ [s]), (ls ++ [log_error s]). unfold lines_ok. rewrite out_reads_snoc, err_reads_snoc, H1, H2, !map_app, app_nil_r. cbn.
      repeat (split; [reflexivity|]). apply merge_snoc_r, H3.
    + exists lo, le, ls, []. rewrite !app_nil_r. split; [reflexivity|]. split; [exact H3|]. exists PEof. split; [reflexivity|].
      right. rewrite out_reads_snoc, err_reads_snoc, H1, H2, app_nil_r. auto.
    + exists lo, le, ls, [log_error m]. split; [rewrite map_app; reflexivity|]. split; [exact H3|]. exists (PError m). split; [reflexivity|].
      right. rewrite out_reads_snoc, err_reads_snoc, H1, H2, app_nil_r. auto.
  - destruct IH as (lo & le & ls & cut & -> & H1 & e & He & H2).
    destruct i as [[|]|[s| |m]|[s| |m]|c|]; try discriminate E; injection E as <- <-; [|exact I].
    exists lo, le, ls, cut, c. split; [reflexivity|]. split; [|apply in_or_app; right; left; reflexivity].
    split; [exact H1|]. exists e. split; [exact He|]. rewrite out_reads_snoc, err_reads_snoc, !app_nil_r. exact H2.
Qed.

Lemma end_read_not_line e s : end_read e <> RdLine s.
Proof. destruct e; discriminate. Qed.
Lemma end_read_inj e e' : end_read e = end_read e' -> e = e'.
Proof. destruct e, e'; cbn; congruence. Qed.
Lemma prefix_lines lo : forall outs e, prefix_of (map RdLine lo) (map RdLine outs ++ [end_read e]) -> prefix_of lo outs.
Proof.
  induction lo as [|s lo IH]; intros outs e [rest E]; [exists outs; reflexivity|]. destruct outs as [|o outs]; cbn in E.
  - injection E as E _. exfalso. eapply end_read_not_line, E.
  - injection E as <- E. destruct (IH outs e) as [r ->]; [exists rest; exact E|]. exists r. reflexivity.
Qed.
Lemma prefix_lines_end lo : forall outs e e', prefix_of (map RdLine lo ++ [end_read e']) (map RdLine outs ++ [end_read e]) -> lo = outs /\ e' = e.
Proof.
  induction lo as [|s lo IH]; intros outs e e' [rest E]; destruct outs as [|o outs]; cbn in E.
  - injection E as E _. split; [reflexivity|]. symmetry. apply end_read_inj, E.
  - injection E as E _. exfalso. symmetry in E. eapply end_read_not_line, E.
  - injection E as E _. exfalso. eapply end_read_not_line, E.
  - injection E as <- E. destruct (IH outs e e') as [-> ->]; [exists rest; exact E|auto].
Qed.
Lemma cmd_outcome ch ins tr : cmd_run ins (CDone true) tr -> of_child ch ins -> exists code, In (CIExit code) ins /\ outcome ch code tr.
Proof.
  intros R [Ho He]. apply cmd_inv in R as (lo & le & ls & cut & code & -> & (M & e & -> & H) & Hc). exists code. split; [exact Hc|].
  exists lo, le, ls, (end_log e). split; [reflexivity|]. split; [exact M|]. destruct H as [[H1 H2]|[H1 H2]]; rewrite H1 in Ho; rewrite H2 in He.
  - apply prefix_lines_end in Ho as [-> ->]. apply prefix_lines in He. split; [exists []; rewrite app_nil_r; reflexivity|]. auto.
  - apply prefix_lines_end in He as [-> ->]. apply prefix_lines in Ho. split; [auto|]. split; [exists []; rewrite app_nil_r; reflexivity|]. auto.
Qed.

(** Completeness *)
Lemma cmd_read_all lo le ls : merge lo le ls -> forall ins tr a b, lo = map log_log a -> le = map log_error b -> cmd_run ins CRead tr ->
  exists ins2, cmd_run (ins ++ ins2) CRead (tr ++ map SeLog ls) /\ out_reads ins2 = map RdLine a /\ err_reads ins2 = map RdLine b.
Proof.
  induction 1 as [|x lo le ls M IH|x lo le ls M IH]; intros ins tr a b Ea Eb R.
  - destruct a; [|discriminate]. destruct b; [|discriminate]. exists []. rewrite !app_nil_r. auto.
  - destruct a as [|s a]; [discriminate|]. injection Ea as -> ->.
    assert (R2 : cmd_run (ins ++ [CIOut (RdLine s)]) CRead (tr ++ [SeLog (log_log s)])) by (eapply cmd_run_step; [exact R|reflexivity]).
    destruct (IH _ _ a b eq_refl Eb R2) as (ins2 & R3 & H1 & H2). exists (CIOut (RdLine s) :: ins2). rewrite <- !app_assoc in R3. cbn in R3.
    split; [exact R3|]. split; [change (RdLine s :: out_reads ins2 = RdLine s :: map RdLine a); rewrite H1; reflexivity|exact H2].
  - destruct b as [|s b]; [discriminate|]. injection Eb as -> ->.
    assert (R2 : cmd_run (ins ++ [CIErr (RdLine s)]) CRead (tr ++ [SeLog (log_error s)])) by (eapply cmd_run_step; [exact R|reflexivity]).
    destruct (IH _ _ a b Ea eq_refl R2) as (ins2 & R3 & H1 & H2). exists (CIErr (RdLine s) :: ins2). rewrite <- !app_assoc in R3. cbn in R3.
    split; [exact R3|]. split; [exact H1|change (RdLine s :: err_reads ins2 = RdLine s :: map RdLine b); rewrite H2; reflexivity].
Qed.
Lemma prefix_map_lines lo outs x : prefix_of lo outs -> prefix_of (map RdLine lo) (map RdLine outs ++ [x]).
Proof. intros [r ->]. exists (map RdLine r ++ [x]). rewrite map_app, app_assoc. reflexivity. Qed.
Lemma outcome_possible ch code tr : outcome ch code tr -> exists ins, cmd_run ins (CDone true) tr /\ of_child ch ins.
Proof.
  intros (lo & le & ls & cut & -> & M & Po & Pe & H).
  assert (R1 : cmd_run [CISpawn true] CRead []) by (change [CISpawn true] with ([] ++ [CISpawn true]); change (@nil seff) with (@nil seff ++ []); eapply cmd_run_step; [constructor|reflexivity]).
  destruct (cmd_read_all _ _ _ M _ _ lo le eq_refl eq_refl R1) as (ins2 & R2 & H1 & H2). cbn [app] in R2.
  assert (Step : forall i cut', cmd_step CRead i = Some (CWait, map SeLog cut') ->
     cmd_run ((([CISpawn true] ++ ins2) ++ [i]) ++ [CIExit code]) (CDone true) (map SeLog (ls ++ cut') ++ [SeEnd (exit_result code)])).
  { intros i cut' E. apply (cmd_run_step _ CWait); [|reflexivity]. rewrite map_app. eapply cmd_run_step; [exact R2|exact E]. }
  destruct H as [[-> ->]|[-> ->]].
  - exists ((([CISpawn true] ++ ins2) ++ [CIOut (end_read (ch_out_end ch))]) ++ [CIExit code]). split.
    + apply Step. destruct (ch_out_end ch); reflexivity.
    + unfold of_child. rewrite !out_reads_snoc, !err_reads_snoc, !app_nil_r. change (out_reads ([CISpawn true] ++ ins2)) with (out_reads ins2). change (err_reads ([CISpawn true] ++ ins2)) with (err_reads ins2). rewrite H1, H2.
      split; [exists []; rewrite app_nil_r; reflexivity|apply prefix_map_lines, Pe].
  - exists ((([CISpawn true] ++ ins2) ++ [CIErr (end_read (ch_err_end ch))]) ++ [CIExit code]). split.
    + apply Step. destruct (ch_err_end ch); reflexivity.
    + unfold of_child. rewrite !out_reads_snoc, !err_reads_snoc, !app_nil_r. change (out_reads ([CISpawn true] ++ ins2)) with (out_reads ins2). change (err_reads ([CISpawn true] ++ ins2)) with (err_reads ins2). rewrite H1, H2.
      split; [apply prefix_map_lines, Po|exists []; rewrite app_nil_r; reflexivity].
Qed.

(** ** Executor runs *)
Lemma ends_app a b : ends (a ++ b) = ends a ++ ends b.
Proof. apply flat_map_app. Qed.
Definition res_list (r : option run_result) : list run_result := match r with Some x => [x] | None => [] end.
Lemma x_end_spec r res : exists res' o, x_end r res = (res', o) /\ (res = None -> res' = Some r /\ o = [EfEnd r]) /\ (forall x, res = Some x -> res' = Some x /\ o = []).
Proof. destruct res as [x|]; cbn; eexists _, _; (split; [reflexivity|]); split; intros; try discriminate; auto; congruence. Qed.

Lemma xstep_signal c x i x' o : xstep c x i = Some (x', o) ->
  xs_signal x' = match i with XISignal s => match xs_signal x with Some _ => xs_signal x | None => Some s end | _ => xs_signal x end.
Proof.
  destruct x as [ph sg res]. destruct i as [|ok|ci|s|]; cbn [xstep xs_phase xs_signal xs_result]; intros E.
  - destruct ph; try discriminate E; try (injection E as <- <-; reflexivity); destruct (x_end _ res) as [r1 o1]; injection E as <- <-; reflexivity.
  - destruct ph; try discriminate E; destruct ok; injection E as <- <-; reflexivity.
  - destruct ph as [| | |p| | | | |]; try discriminate E. destruct (cmd_step p ci) as [[p' effs]|]; [|discriminate E]. destruct (x_stream effs res). injection E as <- <-. reflexivity.
  - injection E as <- <-. reflexivity.
  - destruct ph; try discriminate E; destruct sg as [s|]; try discriminate E. destruct (xc_host c).
    + destruct (x_end _ res). injection E as <- <-. reflexivity.
    + injection E as <- <-. reflexivity.
Qed.

(** What a command transition does to the stream. *)
Lemma cmd_step_cases p ci p' effs : cmd_step p ci = Some (p', effs) ->
  (p = CSpawn /\ effs = [] /\ ((ci = CISpawn true /\ p' = CRead) \/ (ci = CISpawn false /\ p' = CDone false))) \/
  (p = CRead /\ (p' = CRead \/ p' = CWait) /\ (exists ls, effs = map SeLog ls) /\ (exists r, ci = CIOut r \/ ci = CIErr r)) \/
  (p = CWait /\ ((exists code, ci = CIExit code /\ p' = CDone true /\ effs = [SeEnd (exit_result code)]) \/ (ci = CIWaitErr /\ p' = CDone false /\ effs = []))).
Proof.
  destruct p as [| | |ok]; destruct ci as [[|]|[s| |m]|[s| |m]|code|]; cbn; intros E; try discriminate E; injection E as <- <-.
  - left. auto 6.
  - left. auto 6.
  - right; left. split; [reflexivity|]. split; [auto|]. split; [exists [log_log s]; reflexivity|eauto].
  - right; left. split; [reflexivity|]. split; [auto|]. split; [exists []; reflexivity|eauto].
  - right; left. split; [reflexivity|]. split; [auto|]. split; [exists [log_error m]; reflexivity|eauto].
  - right; left. split; [reflexivity|]. split; [auto|]. split; [exists [log_error s]; reflexivity|eauto].
  - right; left. split; [reflexivity|]. split; [auto|]. split; [exists []; reflexivity|eauto].
  - right; left. split; [reflexivity|]. split; [auto|]. split; [exists [log_error m]; reflexivity|eauto].
  - right; right. split; [reflexivity|]. left. eauto.
  - right; right. split; [reflexivity|]. right. auto.
Qed.
Lemma x_stream_logs ls res : x_stream (map SeLog ls) res = (res, map EfLog ls).
Proof.
  unfold x_stream. assert (G : forall acc, fold_left (fun acc e => match e with
                          | SeLog l => (fst acc, snd acc ++ [EfLog l])
                          | SeEnd r => let '(res', o) := x_end r (fst acc) in (res', snd acc ++ o)
                          end) (map SeLog ls) (res, acc) = (res, acc ++ map EfLog ls)).
  { induction ls as [|l ls IH]; intros acc; cbn [map fold_left fst snd]; [rewrite app_nil_r; reflexivity|]. rewrite IH, <- app_assoc. reflexivity. }
  apply (G []).
Qed.
Lemma x_stream_end r res : x_stream [SeEnd r] res = x_end r res.
Proof. unfold x_stream. cbn [fold_left fst snd]. destruct (x_end r res). reflexivity. Qed.
Lemma ends_logs ls : ends (map EfLog ls) = [].
Proof. induction ls; cbn; auto. Qed.

(** All transitions, as cases. *)
Inductive xtrans (c : xconf) : xstate -> xinput -> xstate -> list xeff -> Prop :=
| xt_signal ph sg res s : xtrans c (XState ph sg res) (XISignal s) (XState ph (match sg with Some _ => sg | None => Some s end) res) []
| xt_check_raised s res : xtrans c (XState XCheck (Some s) res) XIGo (XState XFinish (Some s) res) []
| xt_check res : xtrans c (XState XCheck None res) XIGo (XState XMkdir None res) []
| xt_mkdir_host sg res : xc_host c = true -> xtrans c (XState XMkdir sg res) (XIFs true) (XState (XSelect CSpawn) sg res) [EfMkdir (xc_dir c)]
| xt_mkdir_docker sg res : xc_host c = false -> xtrans c (XState XMkdir sg res) (XIFs true) (XState XWrite sg res) [EfMkdir (xc_dir c)]
| xt_mkdir_fail sg res : xtrans c (XState XMkdir sg res) (XIFs false) (XState XFinish sg res) []
| xt_write sg res : xtrans c (XState XWrite sg res) (XIFs true) (XState (XSelect CSpawn) sg res) [EfWrite (md_entrypoint (xc_meta c)) (entrypoint_content (xc_script c))]
| xt_write_fail sg res : xtrans c (XState XWrite sg res) (XIFs false) (XState XFinish sg res) []
| xt_spawn sg res : xtrans c (XState (XSelect CSpawn) sg res) (XICmd (CISpawn true)) (XState (XSelect CRead) sg res) [EfSpawn (xc_spawned c)]
| xt_spawn_fail sg res : xtrans c (XState (XSelect CSpawn) sg res) (XICmd (CISpawn false)) (XState XRemove sg res) []
| xt_read sg res ci p' ls r : (ci = CIOut r \/ ci = CIErr r) -> (p' = CRead \/ p' = CWait) ->
    xtrans c (XState (XSelect CRead) sg res) (XICmd ci) (XState (XSelect p') sg res) (map EfLog ls)
| xt_exit sg res code res' o : x_end (exit_result code) res = (res', o) ->
    xtrans c (XState (XSelect CWait) sg res) (XICmd (CIExit code)) (XState (XSelect (CDone true)) sg res') o
| xt_wait_fail sg res : xtrans c (XState (XSelect CWait) sg res) (XICmd CIWaitErr) (XState XRemove sg res) []
| xt_take_host p s res res' o : xc_host c = true -> x_end (signal_result s) res = (res', o) ->
    xtrans c (XState (XSelect p) (Some s) res) XITake (XState XRemove (Some s) res') o
| xt_take_docker p s res : xc_host c = false -> xtrans c (XState (XSelect p) (Some s) res) XITake (XState (XKill s) (Some s) res) []
| xt_kill s sg res res' o : x_end (signal_result s) res = (res', o) ->
    xtrans c (XState (XKill s) sg res) XIGo (XState XRemove sg res') (EfKill (md_docker_name (xc_meta c)) :: o)
| xt_remove sg res : xtrans c (XState XRemove sg res) (XIFs true) (XState XFinish sg res) [EfRmdir (xc_dir c)]
| xt_remove_fail sg res : xtrans c (XState XRemove sg res) (XIFs false) (XState XFinish sg res) []
| xt_finish sg res res' o : x_end (RFailed 1) res = (res', o) -> xtrans c (XState XFinish sg res) XIGo (XState XAfter sg res') o
| xt_after sg res : xtrans c (XState XAfter sg res) XIGo (XState XStop sg res) [EfAfterRun].

Lemma xstep_trans c x i x' o : xstep c x i = Some (x', o) -> xtrans c x i x' o.
Proof.
  destruct x as [ph sg res]. destruct i as [|ok|ci|s|]; cbn [xstep xs_phase xs_signal xs_result]; intros E.
  - destruct ph; try discriminate E.
    + destruct sg; injection E as <- <-; constructor.
    + destruct (x_end (signal_result s) res) eqn:X. injection E as <- <-. constructor; assumption.
    + destruct (x_end (RFailed 1) res) eqn:X. injection E as <- <-. constructor; assumption.
    + injection E as <- <-. constructor.
  - destruct ph; try discriminate E; destruct ok; injection E as <- <-; try constructor. destruct (xc_host c) eqn:H; constructor; assumption.
  - destruct ph as [| | |p| | | | |]; try discriminate E. destruct (cmd_step p ci) as [[p' effs]|] eqn:Ec; [|discriminate E].
    apply cmd_step_cases in Ec as [(-> & -> & [[-> ->]|[-> ->]])|[(-> & Hp & [ls ->] & [r Hr])|(-> & [(code & -> & -> & ->)|(-> & -> & ->)])]].
    + injection E as <- <-. constructor.
    + injection E as <- <-. constructor.
    + rewrite x_stream_logs in E. destruct Hp as [->| ->]; injection E as <- <-; (eapply xt_read; [exact Hr|auto]).
    + rewrite x_stream_end in E. destruct (x_end (exit_result code) res) eqn:X. injection E as <- <-. constructor. exact X.
    + injection E as <- <-. constructor.
  - injection E as <- <-. constructor.
  - destruct ph; try discriminate E; destruct sg as [s|]; try discriminate E. destruct (xc_host c) eqn:H.
    + destruct (x_end (signal_result s) res) eqn:X. injection E as <- <-. apply xt_take_host; assumption.
    + injection E as <- <-. apply xt_take_docker; assumption.
Qed.

Lemma x_end_ends r res res' o : x_end r res = (res', o) -> res_list res' = res_list res ++ ends o /\ res' <> None /\ (forall e, In e o -> e = EfEnd r) /\
  (res = None -> res' = Some r) /\ (forall y, res = Some y -> res' = Some y).
Proof. destruct res as [y|]; cbn; intros [= <- <-]; cbn; repeat split; try discriminate; intros; try congruence; intuition. Qed.

Lemma x_ends c ins x tr : xrun c ins x tr -> ends tr = res_list (xs_result x).
Proof.
  induction 1 as [|ins x tr i x' o R IH E]; [reflexivity|]. rewrite ends_app, IH. apply xstep_trans in E. inv E; cbn [xs_result ends flat_map app] in *; rewrite ?app_nil_r; try reflexivity;
    try (match goal with H : x_end _ _ = _ |- _ => apply x_end_ends in H as (H & _); rewrite H; reflexivity end).
  change (res_list res ++ ends (map EfLog ls) = res_list res). rewrite ends_logs, app_nil_r. reflexivity.
Qed.

(** Which phases have a result. *)
Lemma x_result_phase c ins x tr : xrun c ins x tr ->
  match xs_phase x with
  | XCheck | XMkdir | XWrite | XSelect CSpawn | XSelect CRead | XSelect CWait => xs_result x = None
  | XSelect (CDone true) | XAfter | XStop => xs_result x <> None
  | XSelect (CDone false) => False
  | XKill s => xs_signal x = Some s
  | XRemove | XFinish => True
  end.
Proof.
  induction 1 as [|ins x tr i x' o R IH E]; [reflexivity|]. apply xstep_trans in E. inv E; cbn [xs_phase xs_signal xs_result] in *; auto.
  - destruct ph; try exact IH. rewrite IH. reflexivity.
  - destruct H0 as [-> | ->]; exact IH.
  - apply x_end_ends in H as (_ & H & _). exact H.
  - apply x_end_ends in H as (_ & H & _). exact H.
Qed.
Lemma settled_iff c x : settled c x <-> xs_phase x = XStop \/ (exists ok, xs_phase x = XSelect (CDone ok) /\ xs_signal x = None).
Proof.
  destruct x as [ph sg res]. unfold settled. cbn [xs_phase xs_signal]. split.
  - intros H. destruct ph as [| | |p|s| | | |]; try (left; reflexivity); right.
    + assert (C := H XIGo ltac:(discriminate)). discriminate C.
    + assert (C := H (XIFs false) ltac:(discriminate)). discriminate C.
    + assert (C := H (XIFs false) ltac:(discriminate)). discriminate C.
    + destruct p as [| | |ok].
      * assert (C := H (XICmd (CISpawn true)) ltac:(discriminate)). discriminate C.
      * assert (C := H (XICmd (CIOut RdEof)) ltac:(discriminate)). discriminate C.
      * assert (C := H (XICmd CIWaitErr) ltac:(discriminate)). discriminate C.
      * exists ok. split; [reflexivity|]. destruct sg as [s|]; [|reflexivity]. assert (C := H XITake ltac:(discriminate)). cbn in C. destruct (xc_host c); [destruct (x_end _ res)|]; discriminate C.
    + assert (C := H XIGo ltac:(discriminate)). cbn in C. destruct (x_end _ res). discriminate C.
    + assert (C := H (XIFs false) ltac:(discriminate)). discriminate C.
    + assert (C := H XIGo ltac:(discriminate)). cbn in C. destruct (x_end _ res). discriminate C.
    + assert (C := H XIGo ltac:(discriminate)). discriminate C.
  - intros [->|(ok & -> & ->)] i Hi; destruct i; cbn; try reflexivity; exfalso; eapply Hi; reflexivity.
Qed.

(** The shape of the trace. *)
Definition calm (e : xeff) : Prop := match e with EfMkdir _ | EfRmdir _ | EfAfterRun => False | _ => True end.
Definition entry_write (c : xconf) : list xeff := if xc_host c then [] else [EfWrite (md_entrypoint (xc_meta c)) (entrypoint_content (xc_script c))].
Definition fs_done (c : xconf) (ins : list xinput) (t : list xeff) : Prop :=
  ~ In EfAfterRun t /\ (forall p, In (EfMkdir p) t \/ In (EfRmdir p) t -> p = xc_dir c) /\
  (fs_failed ins \/ Forall calm t \/ exists mid post, t = EfMkdir (xc_dir c) :: mid ++ EfRmdir (xc_dir c) :: post /\ Forall calm mid /\ Forall calm post).
Definition shape (c : xconf) (ins : list xinput) (x : xstate) (tr : list xeff) : Prop :=
  match xs_phase x with
  | XCheck | XMkdir => tr = []
  | XWrite => tr = [EfMkdir (xc_dir c)] /\ xc_host c = false
  | XSelect CSpawn => tr = EfMkdir (xc_dir c) :: entry_write c
  | XSelect _ | XKill _ | XRemove => exists mid, tr = EfMkdir (xc_dir c) :: entry_write c ++ mid /\ Forall calm mid
  | XFinish | XAfter => fs_done c ins tr
  | XStop => exists t, tr = t ++ [EfAfterRun] /\ fs_done c ins t
  end.
Lemma calm_ends r (o : list xeff) : (forall e, In e o -> e = EfEnd r) -> Forall calm o.
Proof. intros H. apply Forall_forall. intros e He. rewrite (H e He). exact I. Qed.
Lemma calm_logs ls : Forall calm (map EfLog ls).
Proof. induction ls; cbn; constructor; auto. exact I. Qed.
Lemma calm_not_after t : Forall calm t -> ~ In EfAfterRun t /\ forall p, ~ (In (EfMkdir p) t \/ In (EfRmdir p) t).
Proof. intros F. rewrite Forall_forall in F. split; [intros C; exact (F _ C)|intros p [C|C]; exact (F _ C)]. Qed.
Lemma entry_write_calm c : Forall calm (entry_write c).
Proof. unfold entry_write. destruct (xc_host c); repeat constructor. Qed.
Lemma fs_done_more c ins i t o : fs_done c ins t -> Forall calm o -> fs_done c (ins ++ [i]) (t ++ o).
Proof.
  intros (H1 & H2 & H3) F. destruct (calm_not_after _ F) as [F1 F2]. split; [|split].
  - intros C. apply in_app_or in C. tauto.
  - intros p [C|C]; apply in_app_or in C as [C|C]; [apply H2; auto|exfalso; apply (F2 p); auto|apply H2; auto|exfalso; apply (F2 p); auto].
  - destruct H3 as [H3|[H3|(mid & post & -> & Hm & Hp)]].
    + left. apply in_or_app. auto.
    + right; left. apply Forall_app. auto.
    + right; right. exists mid, (post ++ o). split; [cbn; rewrite <- app_assoc; reflexivity|]. split; [exact Hm|]. apply Forall_app. auto.
Qed.
Lemma fs_done_failed c ins t : (exists mid, t = EfMkdir (xc_dir c) :: entry_write c ++ mid /\ Forall calm mid) \/ t = [] \/ t = [EfMkdir (xc_dir c)] -> fs_done c (ins ++ [XIFs false]) t.
Proof.
  intros H. assert (S : exists rest, Forall calm rest /\ (t = [] \/ t = EfMkdir (xc_dir c) :: rest)).
  { destruct H as [(mid & -> & F)|[->| ->]]; [exists (entry_write c ++ mid)|exists []|exists []]; (split; [|auto]); try constructor. apply Forall_app. split; [apply entry_write_calm|exact F]. }
  unfold fs_done. destruct S as (rest & F & [->| ->]).
  - split; [intros []|]. split; [intros p [[]|[]]|]. right; left. constructor.
  - destruct (calm_not_after _ F) as [F1 F2]. split; [intros [C|C]; [discriminate|contradiction]|]. split; [|left; apply in_or_app; right; left; reflexivity].
    intros p [[C|C]|[C|C]]; try discriminate; [congruence|exfalso; apply (F2 p); auto|exfalso; apply (F2 p); auto].
Qed.
Lemma x_shape c ins x tr : xrun c ins x tr -> shape c ins x tr.
Proof.
  induction 1 as [|ins x tr i x' o R IH E]; [reflexivity|]. apply xstep_trans in E. inv E; unfold shape in *; cbn [xs_phase] in *; rewrite ?app_nil_r.
  - destruct ph as [| | |p| | | | |]; try exact IH.
    + rewrite <- (app_nil_r tr). apply fs_done_more; [exact IH|constructor].
    + rewrite <- (app_nil_r tr). apply fs_done_more; [exact IH|constructor].
    + destruct IH as (t & -> & IH). exists t. split; [reflexivity|]. rewrite <- (app_nil_r t). apply fs_done_more; [exact IH|constructor].
  - rewrite IH. unfold fs_done. split; [intros []|]. split; [intros p [[]|[]]|]. right; left. constructor.
  - exact IH.
  - rewrite IH. unfold entry_write. rewrite H. reflexivity.
  - rewrite IH. auto.
  - apply fs_done_failed. auto.
  - destruct IH as [-> H]. unfold entry_write. rewrite H. reflexivity.
  - apply fs_done_failed. destruct IH as [-> _]. auto.
  - rewrite IH. exists [EfSpawn (xc_spawned c)]. split; [reflexivity|]. repeat constructor.
  - rewrite IH. exists []. split; [rewrite app_nil_r; reflexivity|constructor].
  - destruct IH as (mid & -> & F).
    assert (G : exists mid0, (EfMkdir (xc_dir c) :: entry_write c ++ mid) ++ map EfLog ls = EfMkdir (xc_dir c) :: entry_write c ++ mid0 /\ Forall calm mid0)
      by (exists (mid ++ map EfLog ls); split; [cbn; rewrite <- app_assoc; reflexivity|apply Forall_app; split; [exact F|apply calm_logs]]).
    destruct H0 as [-> | ->]; exact G.
  - destruct IH as (mid & -> & F). apply x_end_ends in H as (_ & _ & H & _). exists (mid ++ o). split; [cbn; rewrite <- app_assoc; reflexivity|]. apply Forall_app. split; [exact F|eapply calm_ends, H].
  - exact IH.
  - apply x_end_ends in H0 as (_ & _ & H0 & _). apply calm_ends in H0. destruct p as [| | |ok].
    + rewrite IH. exists o. split; [reflexivity|exact H0].
    + destruct IH as (mid & -> & F). exists (mid ++ o). split; [cbn; rewrite <- app_assoc; reflexivity|]. apply Forall_app. auto.
    + destruct IH as (mid & -> & F). exists (mid ++ o). split; [cbn; rewrite <- app_assoc; reflexivity|]. apply Forall_app. auto.
    + destruct IH as (mid & -> & F). exists (mid ++ o). split; [cbn; rewrite <- app_assoc; reflexivity|]. apply Forall_app. auto.
  - destruct p as [| | |ok]; [rewrite IH; exists []; split; [rewrite app_nil_r; reflexivity|constructor]| | |]; exact IH.
  - destruct IH as (mid & -> & F). apply x_end_ends in H as (_ & _ & H & _). apply calm_ends in H.
    exists (mid ++ EfKill (md_docker_name (xc_meta c)) :: o0). split; [cbn; rewrite <- app_assoc; reflexivity|]. apply Forall_app. split; [exact F|]. constructor; [exact I|exact H].
  - destruct IH as (mid & -> & F). assert (G : Forall calm (entry_write c ++ mid)) by (apply Forall_app; split; [apply entry_write_calm|exact F]). destruct (calm_not_after _ G) as [G1 G2].
    cbn [app]. unfold fs_done. split; [|split].
    + intros [C|C]; [discriminate|]. apply in_app_or in C as [C|[C|[]]]; [contradiction|discriminate].
    + intros p [[C|C]|[C|C]]; try congruence; apply in_app_or in C as [C|[C|[]]]; try congruence; exfalso; apply (G2 p); auto.
    + right; right. exists (entry_write c ++ mid), []. auto.
  - apply fs_done_failed. auto.
  - apply x_end_ends in H as (_ & _ & H & _). apply calm_ends in H. apply fs_done_more; assumption.
  - exists tr. split; [reflexivity|]. rewrite <- (app_nil_r tr). apply fs_done_more; [exact IH|constructor].
Qed.

(** A spawned docker command finds its entrypoint. *)
Lemma x_spawn c ins x tr : xrun c ins x tr -> forall a s b, tr = a ++ EfSpawn s :: b ->
  s = xc_spawned c /\ a = EfMkdir (xc_dir c) :: entry_write c.
Proof.
  induction 1 as [|ins x tr i x' o R IH E]; intros a s b Eq; [destruct a; discriminate|].
  assert (Old : (forall e s, In e o -> e <> EfSpawn s) -> s = xc_spawned c /\ a = EfMkdir (xc_dir c) :: entry_write c).
  { intros Ho. apply app_eq_app in Eq as (l & [[-> Eq]|[-> Eq]]).
    - destruct l as [|e l]; [cbn in Eq; exfalso; apply (Ho (EfSpawn s) s); [rewrite <- Eq; left; reflexivity|reflexivity]|]. injection Eq as <- ->. eapply IH; reflexivity.
    - exfalso. apply (Ho (EfSpawn s) s); [rewrite Eq; apply in_or_app; right; left; reflexivity|reflexivity]. }
  assert (Sh := x_shape _ _ _ _ R). assert (Rp := x_result_phase _ _ _ _ R).
  apply xstep_trans in E. inv E; try (apply Old; intros e_ s_ [<-|[]]; discriminate); try (apply Old; intros e_ s_ []; fail).
  - unfold shape in Sh. cbn [xs_phase] in Sh. subst tr.
    assert (K : forall a b : list xeff, EfMkdir (xc_dir c) :: entry_write c ++ [EfSpawn (xc_spawned c)] = a ++ EfSpawn s :: b -> s = xc_spawned c /\ a = EfMkdir (xc_dir c) :: entry_write c).
    { clear. unfold entry_write. destruct (xc_host c); intros [|x [|y [|z [|? a]]]] b E; try discriminate E; injection E; intros; subst; auto. }
    apply (K a b). exact Eq.
  - apply Old. intros e_ s_ He. apply in_map_iff in He as (l & <- & _). discriminate.
  - apply Old. apply x_end_ends in H as (_ & _ & H & _). intros e_ s_ He. rewrite (H e_ He). discriminate.
  - apply Old. apply x_end_ends in H0 as (_ & _ & H0 & _). intros e_ s_ He. rewrite (H0 e_ He). discriminate.
  - apply Old. apply x_end_ends in H as (_ & _ & H & _). intros e_ s_ [<-|He]; [discriminate|]. rewrite (H e_ He). discriminate.
  - apply Old. apply x_end_ends in H as (_ & _ & H & _). intros e_ s_ He. rewrite (H e_ He). discriminate.
Qed.

(** Signals. *)
Lemma raised_app a b : raised (a ++ b) = raised a ++ raised b.
Proof. apply flat_map_app. Qed.
Lemma x_first_signal c ins x tr : xrun c ins x tr -> xs_signal x = hd_error (raised ins).
Proof.
  induction 1 as [|ins x tr i x' o R IH E]; [reflexivity|]. rewrite (xstep_signal _ _ _ _ _ E), raised_app.
  destruct i as [|ok|ci|s|]; cbn [raised flat_map]; rewrite ?app_nil_r; try exact IH. rewrite IH. destruct (raised ins); reflexivity.
Qed.
Lemma undisturbed_app a i : undisturbed (a ++ [i]) -> undisturbed a /\ i <> XIFs false /\ (forall code, i <> XICmd (CIExit code)) /\ i <> XICmd (CISpawn false) /\ i <> XICmd CIWaitErr.
Proof.
  intros (H1 & H2 & H3). assert (L : forall y, In y a -> In y (a ++ [i])) by (intros; apply in_or_app; auto). assert (Li : In i (a ++ [i])) by (apply in_or_app; right; left; reflexivity).
  unfold fs_failed, command_exited, command_broke in *. split; [split; [intros C; apply H1; auto|split; [intros [code C]; apply H2; eauto|intros [C|C]; apply H3; auto]]|].
  split; [intros ->; auto|]. split; [intros code ->; apply H2; eauto|]. split; intros ->; apply H3; auto.
Qed.
Lemma x_signalled c ins x tr : xrun c ins x tr -> undisturbed ins ->
  (xs_phase x = XCheck /\ ~ In XIGo ins) \/ (exists a b, ins = a ++ XIGo :: b /\ ~ In XIGo a /\ raised a <> []) \/
  match xs_phase x with
  | XMkdir | XWrite | XSelect CSpawn | XSelect CRead | XSelect CWait => xs_result x = None
  | XKill s => xs_signal x = Some s /\ xs_result x = None
  | XRemove | XFinish | XAfter | XStop => exists s, xs_signal x = Some s /\ xs_result x = Some (signal_result s)
  | _ => False
  end.
Proof.
  induction 1 as [|ins x tr i x' o R IH E]; intros U; [left; split; [reflexivity|intros []]|].
  apply undisturbed_app in U as (U & Hi1 & Hi2 & Hi3 & Hi4). assert (Fs := x_first_signal _ _ _ _ R). specialize (IH U).
  destruct IH as [[Hp Hg]|[(a & b & -> & Ha & Hr)|IH]].
  - apply xstep_trans in E. inv E; cbn [xs_phase] in Hp; try discriminate Hp.
    + subst ph. left. split; [reflexivity|]. intros C. apply in_app_or in C as [C|[C|[]]]; [contradiction|discriminate].
    + right; left. exists ins, []. split; [reflexivity|]. split; [exact Hg|]. cbn [xs_signal] in Fs. destruct (raised ins); [discriminate Fs|discriminate].
    + right; right. cbn. assert (Rp := x_result_phase _ _ _ _ R). exact Rp.
  - right; left. exists a, (b ++ [i]). rewrite <- app_assoc. auto.
  - right; right. apply xstep_trans in E. inv E; cbn [xs_phase xs_signal xs_result] in *; try contradiction; auto; try congruence.
    + destruct ph as [| | |[| | |]|s1| | | |]; try exact IH; try contradiction.
      * destruct IH as [-> IH]. auto.
      * destruct IH as (s1 & -> & IH). eauto.
      * destruct IH as (s1 & -> & IH). eauto.
      * destruct IH as (s1 & -> & IH). eauto.
      * destruct IH as (s1 & -> & IH). eauto.
    + destruct H0 as [-> | ->]; exact IH.
    + apply x_end_ends in H0 as (_ & _ & _ & H1 & _). exists s. split; [reflexivity|]. destruct p; auto; contradiction.
    + split; [reflexivity|]. destruct p; auto; contradiction.
    + destruct IH as [-> ->]. apply x_end_ends in H as (_ & _ & _ & H1 & _). exists s. auto.
    + destruct IH as (s & -> & ->). apply x_end_ends in H as (_ & _ & _ & _ & H). exists s. split; [reflexivity|]. apply H. reflexivity.
Qed.
Lemma x_result_kept c ins x tr i x' o : xrun c ins x tr -> xstep c x i = Some (x', o) -> forall r, xs_result x = Some r -> xs_result x' = Some r.
Proof.
  intros R E r Hr. apply xstep_trans in E. inv E; cbn [xs_result] in *; auto;
    match goal with H : x_end _ _ = _ |- _ => apply x_end_ends in H as (_ & _ & _ & _ & H); apply H; exact Hr end.
Qed.

(** Progress. *)
Definition rank (p : xphase) : nat :=
  match p with XCheck => 11 | XMkdir => 10 | XWrite => 9 | XSelect CSpawn => 8 | XSelect CRead => 7 | XSelect CWait => 6 | XSelect (CDone _) => 5 | XKill _ => 4 | XRemove => 3 | XFinish => 2 | XAfter => 1 | XStop => 0 end.
Lemma xstep_rank c x i x' o : xstep c x i = Some (x', o) -> is_signal i = false -> is_line i = false -> rank (xs_phase x') < rank (xs_phase x).
Proof.
  destruct x as [ph sg res]. destruct i as [|ok|ci|s|]; cbn [xstep xs_phase xs_signal xs_result is_signal]; intros E Hs Hl; try discriminate Hs.
  - destruct ph; try discriminate E; try (destruct (x_end _ _)); injection E as <- <-; cbn; try lia. destruct sg; cbn; lia.
  - destruct ph; try discriminate E; destruct ok; injection E as <- <-; cbn; try lia. destruct (xc_host c); cbn; lia.
  - destruct ph as [| | |p| | | | |]; try discriminate E.
    destruct p as [| | |ok]; destruct ci as [sp|[]|[]|code|]; cbn in *; try discriminate; try destruct sp; try (destruct (x_end _ _)); injection E as <- <-; cbn; lia.
  - destruct ph as [| | |p| | | | |]; try discriminate E; destruct sg; try discriminate E. destruct (xc_host c); [destruct (x_end _ _)|]; injection E as <- <-; cbn; destruct p; lia.
Qed.
Lemma xstep_rank_le c x i x' o : xstep c x i = Some (x', o) -> rank (xs_phase x') <= rank (xs_phase x).
Proof.
  intros E. destruct (is_signal i) eqn:Es; [destruct i; try discriminate; injection E as <- <-; cbn; lia|].
  destruct (is_line i) eqn:El; [|assert (H := xstep_rank _ _ _ _ _ E Es El); lia].
  destruct x as [ph sg res]. destruct i as [| |[|[]|[]| |]| |]; try discriminate; cbn [xstep xs_phase xs_signal xs_result] in E; destruct ph as [| | |[]| | | | |]; try discriminate E; injection E as <- <-; cbn; lia.
Qed.
Lemma x_bounded c ins x tr : xrun c ins x tr -> length (filter (fun i => negb (is_signal i) && negb (is_line i)) ins) + rank (xs_phase x) <= 11.
Proof.
  induction 1 as [|ins x tr i x' o R IH E]; [cbn; lia|]. rewrite filter_app, app_length. cbn [filter].
  destruct (is_signal i) eqn:Es; destruct (is_line i) eqn:El; cbn [negb andb length]; try (assert (H := xstep_rank_le _ _ _ _ _ E); lia).
  assert (H := xstep_rank _ _ _ _ _ E Es El). lia.
Qed.

(** A command with an interpreter that has both executors find the raised signal: the runs in which the command is stopped. *)
Lemma x_stop_trace c ins x tr : xrun c ins x tr -> xs_phase x = XStop ->
  exists t r, tr = t ++ [EfAfterRun] /\ ~ In EfAfterRun t /\ ends t = [r] /\ xs_result x = Some r.
Proof.
  intros R H. assert (S := x_shape _ _ _ _ R). assert (P := x_result_phase _ _ _ _ R). assert (E := x_ends _ _ _ _ R). unfold shape in S. rewrite H in S, P.
  destruct S as (t & -> & S1 & _). destruct (xs_result x) as [r|]; [|contradiction]. exists t, r. rewrite ends_app in E. cbn in E. rewrite app_nil_r in E. auto.
Qed.
Lemma calm_left_behind (t : list xeff) p : Forall calm t -> ~ left_behind p t.
Proof. intros F (a & b & -> & _). apply Forall_app in F as [_ F]. inv F. assumption. Qed.
Lemma mkdir_unique d mid post : Forall calm mid -> Forall calm post -> forall p, ~ left_behind p (EfMkdir d :: mid ++ EfRmdir d :: post).
Proof.
  intros Hm Hp p (a & b & E & N). destruct a as [|e a]; injection E.
  - intros <- ->. apply N. apply in_or_app. right. left. reflexivity.
  - intros E' _. assert (C : In (EfMkdir p) (mid ++ EfRmdir d :: post)) by (rewrite E'; apply in_or_app; right; left; reflexivity).
    rewrite Forall_forall in Hm, Hp. apply in_app_or in C as [C|[C|C]]; [exact (Hm _ C)|discriminate|exact (Hp _ C)].
Qed.
Lemma x_clean c ins x tr : xrun c ins x tr -> xs_phase x = XStop -> ~ fs_failed ins -> forall p, ~ left_behind p tr.
Proof.
  intros R H NF p. assert (S := x_shape _ _ _ _ R). unfold shape in S. rewrite H in S. destruct S as (t & -> & S1 & S2 & [S3|[S3|(mid & post & -> & Hm & Hp)]]); [contradiction| |].
  - intros (a & b & E & _). apply app_eq_app in E as (l & [[-> E]|[-> E]]).
    + destruct l as [|e l]; [discriminate|]. injection E as <- _. apply Forall_app in S3 as [_ S3]. inv S3. assumption.
    + destruct l as [|e [|? l]]; discriminate.
  - cbn [app]. rewrite <- app_assoc. cbn [app].
    intros (a & b & E & N). destruct a as [|e a]; injection E.
    + intros <- <-. apply N. apply in_or_app. right. left. reflexivity.
    + intros E' _. assert (C : In (EfMkdir p) (mid ++ EfRmdir (xc_dir c) :: post ++ [EfAfterRun])) by (rewrite E'; apply in_or_app; right; left; reflexivity).
      rewrite Forall_forall in Hm, Hp. apply in_app_or in C as [C|[C|C]]; [exact (Hm _ C)|discriminate|]. apply in_app_or in C as [C|[C|[]]]; [exact (Hp _ C)|discriminate].
Qed.
Lemma x_dirs c ins x tr : xrun c ins x tr -> forall p, In (EfMkdir p) tr \/ In (EfRmdir p) tr -> p = xc_dir c.
Proof.
  intros R p. assert (S := x_shape _ _ _ _ R). unfold shape in S.
  assert (K : forall mid, Forall calm mid -> In (EfMkdir p) (EfMkdir (xc_dir c) :: entry_write c ++ mid) \/ In (EfRmdir p) (EfMkdir (xc_dir c) :: entry_write c ++ mid) -> p = xc_dir c).
  { intros mid F. assert (G : Forall calm (entry_write c ++ mid)) by (apply Forall_app; split; [apply entry_write_calm|exact F]). destruct (calm_not_after _ G) as [_ G2].
    intros [[C|C]|[C|C]]; try congruence; exfalso; apply (G2 p); auto. }
  destruct (xs_phase x) as [| | |[| | |]|s| | | |]; try (destruct S as (mid & -> & F); apply (K mid F)); try (apply (proj1 (proj2 S))).
  - rewrite S. intros [[]|[]].
  - rewrite S. intros [[]|[]].
  - destruct S as [-> _]. intros [[C|[]]|[C|[]]]; congruence.
  - rewrite S. rewrite <- (app_nil_r (entry_write c)). apply (K []). constructor.
  - destruct S as (t & -> & S1 & S2 & _). intros [C|C]; apply in_app_or in C as [C|[C|[]]]; try discriminate; apply S2; auto.
Qed.

Section PluginLemmas.
Variable Ctx : Type.
Lemma before_run_app ps qs (ctx : Ctx) : before_run Ctx (ps ++ qs) ctx = before_run Ctx qs (before_run Ctx ps ctx).
Proof. apply fold_left_app. Qed.
End PluginLemmas.

(** The verdict. *)
Definition sig_after (sig : option signal) (ins : list xinput) : option signal := match sig with Some _ => sig | None => hd_error (raised ins) end.
Definition go_in (ins : list xinput) : bool := existsb (fun i => match i with XIGo => true | _ => false end) ins.
Lemma verdict_snoc i : forall ins sig st, verdict sig st (ins ++ [i]) =
  match verdict sig st ins with Some r => Some r | None => verdict (sig_after sig ins) (st || go_in ins) [i] end.
Proof.
  induction ins as [|j ins IH]; intros sig st.
  - cbn [app verdict go_in existsb]. unfold sig_after, raised. cbn [flat_map hd_error]. rewrite orb_false_r. destruct sig; reflexivity.
  - assert (Hs : forall sig', sig_after sig (j :: ins) = sig_after sig' ins -> True) by auto. clear Hs.
    assert (N : match j with XISignal _ => False | _ => True end -> sig_after sig (j :: ins) = sig_after sig ins) by (destruct j; cbn; tauto).
    destruct j as [|[]|[[]|[]|[]|code|]|s|]; cbn [app verdict];
      try (rewrite IH; rewrite N by exact I; cbn [go_in existsb]; reflexivity); try reflexivity.
    + destruct st, sig; try reflexivity; rewrite IH; rewrite N by exact I; cbn [go_in existsb orb]; rewrite ?orb_true_r; reflexivity.
    + rewrite IH. cbn [go_in existsb orb]. replace (sig_after sig (XISignal s :: ins)) with (sig_after match sig with Some _ => sig | None => Some s end ins); [reflexivity|]. destruct sig; reflexivity.
    + destruct sig; [reflexivity|]. rewrite IH. rewrite N by exact I. reflexivity.
Qed.
Lemma x_started c ins x tr : xrun c ins x tr -> xs_phase x = XCheck <-> go_in ins = false.
Proof.
  induction 1 as [|ins x tr i x' o R IH E]; [split; reflexivity|]. unfold go_in in *. rewrite existsb_app. cbn [existsb]. apply xstep_trans in E.
  inv E; cbn [xs_phase] in *; rewrite ?orb_false_r, ?orb_true_r; try (split; [discriminate|intros C; try discriminate C; apply IH in C; discriminate]).
  - exact IH.
Qed.
Lemma x_verdict c ins x tr : xrun c ins x tr ->
  verdict None false ins = match xs_result x with Some r => Some r | None => match xs_phase x with XRemove | XFinish => Some (RFailed 1) | XKill s => Some (signal_result s) | _ => None end end.
Proof.
  induction 1 as [|ins x tr i x' o R IH E]; [reflexivity|]. rewrite verdict_snoc, IH. clear IH.
  assert (Fs := x_first_signal _ _ _ _ R). assert (St := x_started _ _ _ _ R). assert (Rp := x_result_phase _ _ _ _ R).
  unfold sig_after. rewrite <- Fs. cbn [orb]. clear Fs R.
  apply xstep_trans in E. inv E; cbn [xs_phase xs_result xs_signal] in *; try match type of Rp with ?r = None => is_var r; subst r end; try reflexivity.
  all: try match goal with H : x_end _ None = _ |- _ => cbn in H; injection H as <- <- end; try reflexivity.
  all: try match goal with H : x_end _ ?r = _ |- _ => destruct r; cbn in H; injection H as <- <- end; try reflexivity; try contradiction.
  all: try match goal with |- context[match ?r with Some _ => _ | None => _ end] => is_var r; destruct r; [reflexivity|] end; try contradiction; cbn [verdict]; try reflexivity.
  - destruct ph; try reflexivity.
  - replace (go_in ins) with false by (symmetry; apply St; reflexivity). reflexivity.
  - destruct (go_in ins); reflexivity.
  - destruct H0 as [-> | ->]; destruct H as [-> | ->]; destruct r; reflexivity.
Qed.

Lemma x_exited c ins x tr ok : xrun c ins x tr -> xs_phase x = XSelect (CDone ok) -> command_exited ins.
Proof.
  intros R S. remember (XSelect (CDone ok)) as ph eqn:Hp. revert ok ph Hp S. induction R as [|ins x tr i x' o R IH E]; intros ok ph -> S; [discriminate|].
  assert (K : (exists ok, xs_phase x = XSelect (CDone ok)) \/ exists code, i = XICmd (CIExit code)).
  { apply xstep_trans in E. inv E; cbn [xs_phase] in S; try discriminate S; eauto; try (destruct (xc_host c); discriminate S). destruct H0 as [-> | ->]; discriminate S. }
  destruct K as [[ok' K]|[code ->]]; [destruct (IH ok' _ eq_refl K) as [code C]|]; exists code; apply in_or_app; [left; exact C|right; left; reflexivity].
Qed.
