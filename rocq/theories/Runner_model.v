(** Model of [Command::run] (crates/runner/src/command.rs), of the two executors (executors/docker.rs, executors/host.rs) and
    of the task that [AstroRunner::run] spawns (astro_runner.rs), as transition systems driven by everything that is not
    under their control: results of file system operations, what the child process prints and how it exits, when a signal is
    raised, and which ready branch [tokio::select!] takes. *)
From Verif Require Import Base Types Stream_model Paths_model Docker_model.

(** ** [Command::run] *)
(** One call of [next_line] on a pipe: command.rs:80-112. *)
Inductive read := RdLine (s : string) | RdEof | RdFail (msg : string).
Inductive cphase := CSpawn | CRead | CWait | CDone (ok : bool).
Inductive cinput :=
| CISpawn (ok : bool)             (* :61-67; the [take] of the pipes at :69-74 cannot fail, both are piped *)
| CIOut (r : read) | CIErr (r : read)
| CIExit (code : option Z)        (* :116; None: killed by a signal *)
| CIWaitErr.
(** What is done to the log stream. *)
Inductive seff := SeLog (l : log) | SeEnd (r : run_result).

(** command.rs:120-129 *)
Definition exit_result (code : option Z) : run_result :=
  match code with Some c => if (c =? 0)%Z then RSucceeded else RFailed c | None => RFailed 1 end.
(** command.rs:59-134. [select!] may take either ready branch: both reads are inputs at any time during the loop. *)
Definition cmd_step (p : cphase) (i : cinput) : option (cphase * list seff) :=
  match p, i with
  | CSpawn, CISpawn ok => Some (if ok then CRead else CDone false, [])
  | CRead, CIOut (RdLine s) => Some (CRead, [SeLog (log_log s)])
  | CRead, CIOut RdEof => Some (CWait, [])
  | CRead, CIOut (RdFail m) => Some (CWait, [SeLog (log_error m)])
  | CRead, CIErr (RdLine s) => Some (CRead, [SeLog (log_error s)])
  | CRead, CIErr RdEof => Some (CWait, [])
  | CRead, CIErr (RdFail m) => Some (CWait, [SeLog (log_error m)])
  | CWait, CIExit code => Some (CDone true, [SeEnd (exit_result code)])
  | CWait, CIWaitErr => Some (CDone false, [])
  | _, _ => None
  end.
Inductive cmd_run : list cinput -> cphase -> list seff -> Prop :=
| cmd_run_init : cmd_run [] CSpawn []
| cmd_run_step ins p tr i p' o : cmd_run ins p tr -> cmd_step p i = Some (p', o) -> cmd_run (ins ++ [i]) p' (tr ++ o).

(** ** The executors and the spawned task *)
Record xconf := XConf {
  xc_host : bool;             (* HostExecutor or DockerExecutor *)
  xc_meta : metadata; xc_script : string;
  xc_spawned : string }.      (* the text given to sh -c *)
(** The directory the executor creates and removes: host.rs:37,56, docker.rs:45,72. *)
Definition xc_dir (c : xconf) : string := if xc_host c then md_data_dir (xc_meta c) else md_step_dir (xc_meta c).
Inductive xphase :=
| XCheck                     (* before [is_completed] is read *)
| XMkdir | XWrite            (* file system operations *)
| XSelect (p : cphase)       (* in [select!]; [CDone true]: the command branch is disabled, [Ok] does not match [Err(err)] *)
| XKill (s : signal)         (* docker kill is running *)
| XRemove | XFinish | XAfter | XStop.
Record xstate := XState { xs_phase : xphase; xs_signal : option signal; xs_result : option run_result }.
Inductive xeff :=
| EfMkdir (p : string) | EfWrite (p content : string) | EfSpawn (cmd : string) | EfLog (l : log) | EfEnd (r : run_result)
| EfKill (name : string) | EfRmdir (p : string) | EfAfterRun.
Inductive xinput :=
| XIGo                       (* the task goes on *)
| XIFs (ok : bool)           (* a file system operation returns *)
| XICmd (i : cinput)
| XISignal (s : signal)      (* somebody raises the step's signal *)
| XITake.                    (* [select!] takes the signal branch *)

(** stream.rs:106-118 in a single task: [end] does nothing after the first time. *)
Definition x_end (r : run_result) (res : option run_result) : option run_result * list xeff :=
  match res with Some _ => (res, []) | None => (Some r, [EfEnd r]) end.
Definition x_stream (effs : list seff) (res : option run_result) : option run_result * list xeff :=
  fold_left (fun acc e => match e with
                          | SeLog l => (fst acc, snd acc ++ [EfLog l])
                          | SeEnd r => let '(res', o) := x_end r (fst acc) in (res', snd acc ++ o)
                          end) effs (res, []).
(** docker.rs:62-67, host.rs:46-51 *)
Definition signal_result (s : signal) : run_result := match s with SigCancel => cancelled_result | SigTimeout => timeout_result end.

(** astro_runner.rs:56-66 around executors/docker.rs:20-75 and executors/host.rs:13-63. *)
Definition xstep (c : xconf) (x : xstate) (i : xinput) : option (xstate * list xeff) :=
  let sg := xs_signal x in
  let res := xs_result x in
  match i with
  | XISignal s => Some (XState (xs_phase x) (match sg with Some _ => sg | None => Some s end) res, [])
  | XIGo =>
      match xs_phase x with
      | XCheck => Some (XState (match sg with Some _ => XFinish | None => XMkdir end) sg res, [])
      | XKill s => let '(res', o) := x_end (signal_result s) res in Some (XState XRemove sg res', EfKill (md_docker_name (xc_meta c)) :: o)
      | XFinish => let '(res', o) := x_end (RFailed 1) res in Some (XState XAfter sg res', o)
      | XAfter => Some (XState XStop sg res, [EfAfterRun])
      | _ => None
      end
  | XIFs ok =>
      match xs_phase x with
      | XMkdir => if ok then Some (XState (if xc_host c then XSelect CSpawn else XWrite) sg res, [EfMkdir (xc_dir c)]) else Some (XState XFinish sg res, [])
      | XWrite => if ok then Some (XState (XSelect CSpawn) sg res, [EfWrite (md_entrypoint (xc_meta c)) (entrypoint_content (xc_script c))]) else Some (XState XFinish sg res, [])
      | XRemove => Some (XState XFinish sg res, if ok then [EfRmdir (xc_dir c)] else [])
      | _ => None
      end
  | XICmd ci =>
      match xs_phase x with
      | XSelect p =>
          match cmd_step p ci with
          | Some (p', effs) =>
              let '(res', o) := x_stream effs res in
              Some (XState (match p' with CDone false => XRemove | _ => XSelect p' end) sg res',
                    (match p, p' with CSpawn, CRead => [EfSpawn (xc_spawned c)] | _, _ => [] end) ++ o)
          | None => None
          end
      | _ => None
      end
  | XITake =>
      match xs_phase x, sg with
      | XSelect _, Some s =>
          if xc_host c then let '(res', o) := x_end (signal_result s) res in Some (XState XRemove sg res', o)
          else Some (XState (XKill s) sg res, [])
      | _, _ => None
      end
  end.
Definition xinit : xstate := XState XCheck None None.
Inductive xrun (c : xconf) : list xinput -> xstate -> list xeff -> Prop :=
| xrun_init : xrun c [] xinit []
| xrun_step ins x tr i x' o : xrun c ins x tr -> xstep c x i = Some (x', o) -> xrun c (ins ++ [i]) x' (tr ++ o).

(** ** Plugins of the runner: plugin.rs:27-50. A hook is any function; cloning the context gives an equal one. *)
Section RunnerPlugins.
Variable Ctx : Type.
Record rplugin := RPlugin { rp_before : Ctx -> result Ctx; rp_after : Ctx -> result unit }.
Definition before_run (ps : list rplugin) (ctx : Ctx) : Ctx :=
  fold_left (fun c p => match rp_before p c with Ok c' => c' | Err _ => c end) ps ctx.
(** The calls made, in order, with the context each received. *)
Definition after_run_calls (ps : list rplugin) (ctx : Ctx) : list (rplugin * Ctx) := map (fun p => (p, ctx)) ps.
End RunnerPlugins.
