(** [Command] of the runner: its builder and [exec]: C98. *)
From Verif Require Import Base Types Runner_model Text_model Text_spec Text_proof.

(** The ways to build a command: [new], then [env] and [dir] calls, in any order. *)
Inductive call := Env (k v : string) | Dir (d : string).
Definition apply_call (c : rcommand) (x : call) : rcommand := match x with Env k v => rc_env k v c | Dir d => rc_set_dir d c end.
Definition build (cmd : string) (calls : list call) : rcommand := fold_left apply_call calls (rc_new cmd).
(** [x] is the last of its kind among the calls. *)
Definition last_env (calls : list call) (k v : string) : Prop := exists a b, calls = a ++ Env k v :: b /\ forall v', ~ In (Env k v') b.
Definition last_dir (calls : list call) (d : string) : Prop := exists a b, calls = a ++ Dir d :: b /\ forall d', ~ In (Dir d') b.

Definition envs_of (calls : list call) : list (string * string) := flat_map (fun c => match c with Env k v => [(k, v)] | Dir _ => [] end) calls.
Lemma build_snoc cmd calls x : build cmd (calls ++ [x]) = apply_call (build cmd calls) x.
Proof. unfold build. apply fold_left_app. Qed.
Lemma build_facts cmd calls : rc_command (build cmd calls) = cmd /\ rc_envs (build cmd calls) = envs_of calls /\ (forall d, rc_dir (build cmd calls) = Some d <-> last_dir calls d).
Proof.
  induction calls as [|x calls (I1 & I2 & I3)] using rev_ind; [repeat split; try discriminate; intros (a & b & E & _); destruct a; discriminate E|].
  rewrite build_snoc. unfold envs_of in *. rewrite flat_map_app. destruct x as [k v|d]; cbn; rewrite ?I2, ?app_nil_r; (split; [exact I1|split; [reflexivity|]]); intros d'.
  - rewrite I3. split.
    + intros (a & b & -> & N). exists a, (b ++ [Env k v]). rewrite <- app_assoc. split; [reflexivity|]. intros d1. rewrite in_app_iff. intros [C|[C|[]]]; [exact (N _ C)|discriminate C].
    + intros (a & b & E & N). destruct b as [|y b] using rev_ind; [apply app_inj_tail in E as [_ E]; discriminate E|]. clear IHb. change (a ++ Dir d' :: b ++ [y]) with (a ++ (Dir d' :: b) ++ [y]) in E. rewrite app_assoc in E. apply app_inj_tail in E as [E _].
      exists a, b. split; [exact E|]. intros d1 C. apply (N d1), in_app_iff. auto.
  - split.
    + intros E. injection E as <-. exists calls, []. auto.
    + intros (a & b & E & N). destruct b as [|y b] using rev_ind; [apply app_inj_tail in E as [_ E]; congruence|]. clear IHb. change (a ++ Dir d' :: b ++ [y]) with (a ++ (Dir d' :: b) ++ [y]) in E. rewrite app_assoc in E. apply app_inj_tail in E as [_ E]. subst y.
      destruct (N d). apply in_app_iff. right. left. reflexivity.
Qed.
Lemma env_fold l : forall m k v, lookup k (fold_left (fun m (kv : string * string) => insert (fst kv) (snd kv) m) l m) = Some v <->
  (exists a b, l = a ++ (k, v) :: b /\ ~ In k (map fst b)) \/ (~ In k (map fst l) /\ lookup k m = Some v).
Proof.
  induction l as [|[k1 v1] l IH]; intros m k v; cbn [fold_left fst snd].
  - split; [intros H; right; split; [intros []|exact H]|]. intros [(a & b & E & _)|[_ H]]; [destruct a; discriminate E|exact H].
  - rewrite IH. cbn [map fst]. split.
    + intros [(a & b & -> & N)|[N H]]; [left; exists ((k1, v1) :: a), b; auto|]. rewrite lookup_insert in H. destruct (eq_dec k k1) as [<-|Ne].
      * injection H as <-. left. exists [], l. auto.
      * right. split; [|exact H]. intros [C|C]; [congruence|exact (N C)].
    + intros [(a & b & E & N)|[N H]].
      * destruct a as [|z a]; cbn in E; inversion E; subst.
        -- right. split; [exact N|]. rewrite lookup_insert. destruct (eq_dec k k); congruence.
        -- left. eexists _, _. split; [reflexivity|exact N].
      * right. split; [intros C; apply N; right; exact C|]. rewrite lookup_insert. destruct (eq_dec k k1) as [<-|Ne]; [destruct N; left; reflexivity|exact H].
Qed.
Lemma last_env_iff calls k v : last_env calls k v <-> exists a b, envs_of calls = a ++ (k, v) :: b /\ ~ In k (map fst b).
Proof.
  split.
  - intros (a & b & -> & N). exists (envs_of a), (envs_of b). unfold envs_of. rewrite flat_map_app. split; [reflexivity|].
    rewrite in_map_iff. intros ((k1 & v1) & E & C). cbn in E. subst k1. apply in_flat_map in C as ([k2 v2|d] & C & X); [|destruct X]. destruct X as [X|[]]. injection X as -> ->. exact (N _ C).
  - revert k v. induction calls as [|[k1 v1|d] calls IH]; intros k v (a & b & E & N).
    + destruct a; discriminate E.
    + unfold envs_of in *. cbn in E. destruct a as [|z a]; cbn in E; inversion E; subst.
      * exists [], calls. split; [reflexivity|]. intros v' C. apply N. apply in_map_iff. exists (k, v'). split; [reflexivity|]. apply in_flat_map. exists (Env k v'). split; [exact C|left; reflexivity].
      * destruct (IH k v) as (a' & b' & -> & N'); [eexists a, b; split; [eassumption|exact N]|]. exists (Env k1 v1 :: a'), b'. auto.
    + unfold envs_of in *. cbn in E. destruct (IH k v) as (a' & b' & -> & N'); [exists a, b; auto|]. exists (Dir d :: a'), b'. auto.
Qed.

(** C98: what a command spawns: [sh -c] with exactly the given text; in the directory set last, or the parent's; with every
    variable set to the value given last for it, and no other variable set. *)
Theorem C98_spawned_process :
  forall cmd calls,
  let sp := build_command (build cmd calls) in
  sp_program sp = "sh" /\ sp_args sp = ["-c"; cmd] /\
  (forall d, sp_dir sp = Some d <-> last_dir calls d) /\
  (forall k v, lookup k (sp_env sp) = Some v <-> last_env calls k v).
Proof.
  intros cmd calls sp. destruct (build_facts cmd calls) as (E1 & E2 & E3). unfold sp, build_command. cbn [sp_program sp_args sp_dir sp_env]. rewrite E1, E2.
  split; [reflexivity|]. split; [reflexivity|]. split; [exact E3|]. intros k v. rewrite env_fold, last_env_iff. split; [intros [H|[_ H]]; [exact H|discriminate H]|auto].
Qed.
(** The same on Windows, with PowerShell. *)
Theorem C98_spawned_process_windows :
  forall cmd calls,
  let sp := build_command_windows (build cmd calls) in
  sp_program sp = "powershell.exe" /\ sp_args sp = ["-NoProfile"; "-NonInteractive"; "-Command"; cmd] /\
  (forall d, sp_dir sp = Some d <-> last_dir calls d) /\
  (forall k v, lookup k (sp_env sp) = Some v <-> last_env calls k v).
Proof.
  intros cmd calls sp. destruct (C98_spawned_process cmd calls) as (_ & _ & H3 & H4). destruct (build_facts cmd calls) as (E1 & _). unfold sp, build_command_windows. cbn [sp_program sp_args]. rewrite E1.
  split; [reflexivity|]. split; [reflexivity|]. split; [exact H3|exact H4].
Qed.
(** The result of [exec], for every answer of the operating system: the output without the whitespace around it if the command
    succeeded and printed UTF-8; an error with what it printed to stderr, or saying what went wrong, otherwise. *)
Theorem C98_exec_ok :
  forall utf8_error a r,
  exec utf8_error a = Ok r <->
  exists out err cs t, a = OsOutput (Some 0%Z) out err /\ utf8 out cs /\ trimmed cs t /\ utf8 r t.
Proof.
  intros ue a r. split.
  - destruct a as [m|code out err]; cbn [exec]; [discriminate|]. destruct code as [c|]; [destruct (Z.eqb_spec c 0) as [->|Ne]|].
    2,3: destruct (decode err); discriminate.
    destruct (decode out) as [cs|] eqn:D; [|discriminate]. intros E. injection E as <-. exists out, err, cs, (trim cs). split; [reflexivity|]. apply decode_spec in D. split; [exact D|].
    assert (T := trim_trimmed cs). split; [exact T|]. apply utf8_encode. split; [|reflexivity]. apply utf8_encode in D as [D _].
    destruct T as (l & r & E & _). rewrite E in D. apply Forall_app in D as [_ D]. apply Forall_app in D as [D _]. exact D.
  - intros (out & err & cs & t & -> & U & T & R). cbn [exec Z.eqb]. apply decode_spec in U. rewrite U. apply trim_spec in T. rewrite T. apply utf8_encode in R as [_ ->]. reflexivity.
Qed.
Theorem C98_exec_error :
  forall utf8_error a e,
  exec utf8_error a = Err e <->
  (exists m, a = OsNoSpawn m /\ e = InternalRuntimeError ("Failed to spawn child process: " +++ m)) \/
  (exists out err, a = OsOutput (Some 0%Z) out err /\ ~ (exists cs, utf8 out cs) /\ e = InternalRuntimeError ("Failed to parse stdout: " +++ utf8_error out)) \/
  (exists code out err, a = OsOutput code out err /\ ~ success code /\
     (((exists cs, utf8 err cs) /\ e = InternalRuntimeError err) \/
      (~ (exists cs, utf8 err cs) /\ e = InternalRuntimeError ("Failed to parse stderr: " +++ utf8_error err)))).
Proof.
  intros ue a e.
  assert (D : forall s, (exists cs, decode s = Some cs /\ exists cs, utf8 s cs) \/ (decode s = None /\ ~ exists cs, utf8 s cs)).
  { intros s. destruct (decode s) as [cs|] eqn:D; [left; exists cs; split; [reflexivity|]; exists cs; apply decode_spec, D|right; split; [reflexivity|]; intros (cs & U); apply decode_spec in U; congruence]. }
  destruct a as [m|code out err]; cbn [exec].
  - split; [intros E; injection E as <-; left; eauto|]. intros [(m' & E & ->)|[(o & er & E & _)|(c & o & er & E & _)]]; [injection E as <-; reflexivity|discriminate E..].
  - assert (S : (code = Some 0%Z /\ match code with Some c => (c =? 0)%Z | None => false end = true) \/ (~ success code /\ match code with Some c => (c =? 0)%Z | None => false end = false)).
    { unfold success. destruct code as [c|]; [|right; split; [discriminate|reflexivity]]. destruct (Z.eqb_spec c 0) as [->|Ne]; [left; auto|right; split; [congruence|reflexivity]]. }
    destruct S as [[-> ->]|[S ->]].
    + destruct (D out) as [(cs & -> & U)|[-> U]].
      * split; [discriminate|]. intros [(m & E & _)|[(o & er & E & N & _)|(c & o & er & E & N & _)]]; [discriminate E| |]; injection E; intros; subst; [destruct (N U)|destruct N; reflexivity].
      * split; [intros E; injection E as <-; right; left; eauto|]. intros [(m & E & _)|[(o & er & E & N & ->)|(c & o & er & E & N & _)]]; [discriminate E|injection E as <- <-; reflexivity|injection E as <- _ _; destruct N; reflexivity].
    + destruct (D err) as [(cs & -> & U)|[-> U]].
      * split; [intros E; injection E as <-; right; right; do 3 eexists; split; [reflexivity|]; auto|].
        intros [(m & E & _)|[(o & er & E & N & _)|(c & o & er & E & N & [[_ ->]|[N' _]])]]; [discriminate E|injection E as -> _ _; destruct S; reflexivity|injection E as _ _ <-; reflexivity|injection E as _ _ <-; destruct (N' U)].
      * split; [intros E; injection E as <-; right; right; do 3 eexists; split; [reflexivity|]; auto|].
        intros [(m & E & _)|[(o & er & E & N & _)|(c & o & er & E & N & [[U' _]|[_ ->]])]]; [discriminate E|injection E as -> _ _; destruct S; reflexivity|injection E as _ _ <-; destruct (U U')|injection E as _ _ <-; reflexivity].
Qed.

(** ** Concrete cases *)
Example ex_calls : let calls := [Env "A" "1"; Dir "/a"; Env "B" "2"; Env "A" "3"; Dir "/b"] in
  sp_dir (build_command (build "ls" calls)) = Some "/b" /\ lookup "A" (sp_env (build_command (build "ls" calls))) = Some "3" /\
  lookup "B" (sp_env (build_command (build "ls" calls))) = Some "2" /\ lookup "C" (sp_env (build_command (build "ls" calls))) = None.
Proof. repeat split; reflexivity. Qed.
(** A no-break space (C2 A0) is trimmed too. *)
Example ex_exec ue : exec ue (OsOutput (Some 0%Z) (" a b" +++ String (ascii_of_nat 194) (String (ascii_of_nat 160) (String (ascii_of_nat 10) ""))) "") = Ok "a b".
Proof. vm_compute. reflexivity. Qed.
Example ex_exec_fail ue : exec ue (OsOutput (Some 1%Z) "out" " err ") = Err (InternalRuntimeError " err ") /\ exec ue (OsOutput None "" "") = Err (InternalRuntimeError "").
Proof. split; vm_compute; reflexivity. Qed.

Print Assumptions C98_spawned_process.
Print Assumptions C98_spawned_process_windows.
Print Assumptions C98_exec_ok.
Print Assumptions C98_exec_error.
