(** Theorems about the docker command line (C46), the choice of executor (C49) and the entrypoint file (C52). *)
From Verif Require Import Base Types Ids_model Ids_spec Paths_model Paths_proof Docker_model Docker_spec Docker_proof Sched_model Sched_spec.

(** C46. The shell reads the generated command as exactly the intended argument vector. *)
Theorem C46_docker_argv : forall d volumes,
  dk_volumes d = map (fun v => quoted_volume (fst v) (snd v)) volumes ->
  Forall (fun v => quotable (fst v) /\ quotable (snd v)) volumes ->
  Forall (fun e => plain (fst e) /\ quotable (snd e)) (dk_envs d) ->
  Forall plain_word (dk_security_opts d) ->
  (forall w, In (Some w) [dk_workdir d; dk_entrypoint d; dk_name d] -> plain_word w) -> plain_word (dk_image d) ->
  sh_words (generate_docker_command d) =
  Some (docker_argv (dk_auto_remove d) (dk_security_opts d) volumes (dk_envs d) (dk_workdir d) (dk_entrypoint d) (dk_name d) (dk_image d)).
Proof. intros d vs H1 H2 H3 H4 H5 H6. apply docker_words. constructor; auto; intros w E; apply H5; rewrite <- E; cbn; auto. Qed.

(** C156. Whatever calls of the builder were made, and in whatever order, the shell reads the command as the argument vector in which every single option has the value of the
    last call for it, and none if there was none; every variable has its last value; volumes and security options are all there, in the order of their calls. *)
Definition call_on (d : docker) (c : docker_call) : docker :=
  match c with CallName n => with_name n d | CallAutoRemove b => with_auto_remove b d | CallEnv k v => with_env k v d | CallWorkdir w => with_workdir w d
             | CallEntrypoint e => with_entrypoint e d | CallSecurity o => with_security_opt o d | CallVolume f t => with_volume f t d end.
Lemma said_more {A} (says : docker_call -> option A) calls r c : last_said says calls r -> last_said says (calls ++ [c]) (match says c with Some a => Some a | None => r end).
Proof.
  intros H. destruct (says c) as [a|] eqn:E; [exists calls, c, []; split; [reflexivity|]; split; [exact E|intros c' []]|].
  destruct r as [a|]; cbn in *.
  - destruct H as (b & c0 & t & -> & H1 & H2). exists b, c0, (t ++ [c]). rewrite <- app_assoc. split; [reflexivity|]. split; [exact H1|]. intros c' Hc. apply in_app_iff in Hc as [Hc|[<-|[]]]; auto.
  - intros c' Hc. apply in_app_iff in Hc as [Hc|[<-|[]]]; auto.
Qed.
Theorem C156_builder : forall image calls d, d = fold_left call_on calls (docker_new image) ->
  exists autos opts volumes envs workdir entry name,
    last_said (fun c => match c with CallAutoRemove b => Some b | _ => None end) calls autos /\
    last_said (fun c => match c with CallWorkdir w => Some w | _ => None end) calls workdir /\
    last_said (fun c => match c with CallEntrypoint e => Some e | _ => None end) calls entry /\
    last_said (fun c => match c with CallName n => Some n | _ => None end) calls name /\
    NoDup (keys envs) /\ (forall k, last_said (fun c => match c with CallEnv k' v => if eqb k' k then Some v else None | _ => None end) calls (lookup k envs)) /\
    opts = flat_map (fun c => match c with CallSecurity o => [o] | _ => [] end) calls /\
    volumes = flat_map (fun c => match c with CallVolume f t => [(f, t)] | _ => [] end) calls /\
    (Forall (fun v => quotable (fst v) /\ quotable (snd v)) volumes -> Forall (fun e => plain (fst e) /\ quotable (snd e)) envs -> Forall plain_word opts ->
     (forall w, In (Some w) [workdir; entry; name] -> plain_word w) -> plain_word image ->
     sh_words (generate_docker_command d) = Some (docker_argv (match autos with Some b => b | None => true end) opts volumes envs workdir entry name image)).
Proof.
  intros image calls d ->.
  enough (K : exists autos volumes, let d := fold_left call_on calls (docker_new image) in
    last_said (fun c => match c with CallAutoRemove b => Some b | _ => None end) calls autos /\ dk_auto_remove d = match autos with Some b => b | None => true end /\
    last_said (fun c => match c with CallWorkdir w => Some w | _ => None end) calls (dk_workdir d) /\
    last_said (fun c => match c with CallEntrypoint e => Some e | _ => None end) calls (dk_entrypoint d) /\
    last_said (fun c => match c with CallName n => Some n | _ => None end) calls (dk_name d) /\
    NoDup (keys (dk_envs d)) /\ (forall k, last_said (fun c => match c with CallEnv k' v => if eqb k' k then Some v else None | _ => None end) calls (lookup k (dk_envs d))) /\
    dk_security_opts d = flat_map (fun c => match c with CallSecurity o => [o] | _ => [] end) calls /\
    volumes = flat_map (fun c => match c with CallVolume f t => [(f, t)] | _ => [] end) calls /\
    dk_volumes d = map (fun v => quoted_volume (fst v) (snd v)) volumes /\ dk_image d = image).
  { destruct K as (autos & vs & K0). cbv zeta in K0. set (d := fold_left call_on calls (docker_new image)) in *. destruct K0 as (K1 & K1' & K2 & K3 & K4 & K5 & K6 & K7 & K8 & K9 & K10).
    exists autos, (dk_security_opts d), vs, (dk_envs d), (dk_workdir d), (dk_entrypoint d), (dk_name d). repeat (split; [assumption|]).
    intros H1 H2 H3 H4 H5. rewrite <- K1'. rewrite <- K10 at 1. apply C46_docker_argv; auto. rewrite K10. exact H5. }
  induction calls as [|c calls IH] using rev_ind.
  { exists None, []. cbn. repeat split; try (intros; contradiction). constructor. }
  destruct IH as (autos & vs & K0). cbv zeta in *. rewrite fold_left_app. cbn [fold_left]. set (d := fold_left call_on calls (docker_new image)) in *.
  destruct K0 as (K1 & K1' & K2 & K3 & K4 & K5 & K6 & K7 & K8 & K9 & K10).
  apply said_more with (c := c) in K1, K2, K3, K4. assert (K6' := fun k => said_more _ _ _ c (K6 k)). rewrite !flat_map_app, <- K7, <- K8.
  exists (match c with CallAutoRemove b => Some b | _ => autos end), (vs ++ match c with CallVolume f t => [(f, t)] | _ => [] end).
  assert (Ev : forall k, last_said (fun c0 => match c0 with CallEnv k' v => if eqb k' k then Some v else None | _ => None end) (calls ++ [c]) (lookup k (dk_envs (call_on d c)))).
  { intros k. specialize (K6' k). destruct c; try exact K6'. cbn [call_on with_env dk_envs]. rewrite lookup_insert. destruct (eq_dec k k0) as [->|N]; [rewrite eqb_refl in K6'; exact K6'|].
    destruct (eqb k0 k) eqn:E; [apply (proj1 (eqb_true _ _)) in E; congruence|exact K6']. }
  destruct c; cbn [call_on with_name with_auto_remove with_env with_workdir with_entrypoint with_security_opt with_volume dk_image dk_name dk_envs dk_workdir dk_entrypoint dk_volumes dk_auto_remove dk_security_opts flat_map app] in *;
    rewrite ?app_nil_r; repeat (split; [first [assumption|reflexivity|apply NoDup_keys_insert; assumption|rewrite map_app, K9; reflexivity]|]); try assumption.
Qed.
Print Assumptions C156_builder.
Example C156_nonvacuous : let d := fold_left call_on [CallVolume "/a" "/b"; CallName "x"; CallWorkdir "/w"; CallEnv "K" "1"; CallName "y"; CallEnv "K" "2"] (docker_new "ubuntu") in
  sh_words (generate_docker_command d) = Some ["docker"; "run"; "--tty"; "--rm"; "-v"; "/a:/b"; "-e"; "K=2"; "-w"; "/w"; "--name"; "y"; "ubuntu"].
Proof. vm_compute. reflexivity. Qed.

(** For a step: the arguments are the runner's three volumes, then the user's well-formed volumes, and so on. *)
Theorem C46_step_argv : forall show_f64 cmd m pairs envs,
  NoDup (keys (cmd_environments cmd)) -> env_texts show_f64 (cmd_environments cmd) envs ->
  kept_volumes (match cmd_container cmd with Some c => option_default [] (co_volumes c) | None => [] end) pairs ->
  Forall (fun v => quotable (fst v) /\ quotable (snd v)) pairs ->
  quotable (md_entrypoint m) -> quotable (md_data_dir m) -> quotable (md_cache_dir m) -> quotable (md_docker_workdir m) -> plain_word (md_docker_workdir m) -> plain_word (md_docker_name m) ->
  Forall (fun e => plain (fst e) /\ quotable (snd e)) envs ->
  Forall plain_word (match cmd_container cmd with Some c => option_default [] (co_security_opts c) | None => [] end) ->
  plain_word (match cmd_container cmd with Some c => co_name c | None => "ubuntu" end) ->
  sh_words (docker_command_line show_f64 cmd m) =
  Some (docker_argv true
    (match cmd_container cmd with Some c => option_default [] (co_security_opts c) | None => [] end)
    ((md_entrypoint m, "/home/work/runner/entrypoint") :: (md_data_dir m, md_docker_workdir m) :: (md_cache_dir m, "/home/work/caches") :: pairs)
    envs
    (Some (md_docker_workdir m)) (Some "/home/work/runner/entrypoint") (Some (md_docker_name m))
    (match cmd_container cmd with Some c => co_name c | None => "ubuntu" end)).
Proof.
  intros show cmd m pairs envs ND Ht Hk Hp He Hd Hc Hw Hw' Hn Hen Hs Hi. apply kept_volumes_iff in Hk. fold (cvolumes cmd) in Hk. fold (csecurity cmd). fold (csecurity cmd) in Hs. fold (cimage cmd). fold (cimage cmd) in Hi.
  unfold docker_command_line. rewrite docker_of_command_eq by exact ND. rewrite <- Hk. apply env_texts_iff in Ht. rewrite <- Ht.
  rewrite (C46_docker_argv _ ((md_entrypoint m, "/home/work/runner/entrypoint") :: (md_data_dir m, md_docker_workdir m) :: (md_cache_dir m, "/home/work/caches") :: pairs)); try assumption; try reflexivity.
  - repeat (constructor; [split; try assumption; reflexivity|]). exact Hp.
  - cbn. intros w [[= <-]|[[= <-]|[[= <-]|[]]]]; auto. split; [discriminate|reflexivity].
Qed.
Print Assumptions C46_docker_argv.
Print Assumptions C46_step_argv.

Definition sample_command : command :=
  Command (StepId "wf" "build" 2) None (Some (ContainerOptions "rust:1.70" (Some ["/src:/app"; "bad"; "a:b:c"]) (Some ["seccomp=unconfined"]))) "echo" false
    [("GREETING", EnvString "hello world; rm -rf 'x' | y"); ("CI", EnvBool true)] [] (Duration 60 0).
Example C46_nonvacuous : exists pairs, kept_volumes ["/src:/app"; "bad"; "a:b:c"] pairs /\
  sh_words (docker_command_line (fun _ => "") sample_command (step_metadata "/my dir" None (StepId "wf" "build" 2))) =
  Some ["docker"; "run"; "--tty"; "--rm"; "--security-opt"; "seccomp=unconfined"; "-v"; "/my dir/wf/build/2/entrypoint:/home/work/runner/entrypoint";
        "-v"; "/my dir/wf/build/data:/home/runner/work"; "-v"; "/my dir/caches:/home/work/caches"; "-v"; "/src:/app";
        "-e"; "GREETING=hello world; rm -rf 'x' | y"; "-e"; "CI=true"; "-w"; "/home/runner/work"; "--entrypoint"; "/home/work/runner/entrypoint"; "--name"; "wf-build-2"; "rust:1.70"].
Proof. exists [("/src", "/app")]. split; [apply kept_volumes_iff; reflexivity|vm_compute; reflexivity]. Qed.
(** The hypotheses are needed: a quote in an environment value adds arguments of the value's choice. *)
Example C46_quote_in_value :
  sh_words (generate_docker_command (with_env "K" "x"" -v ""/:/host" (docker_new "img"))) =
  Some ["docker"; "run"; "--tty"; "--rm"; "-e"; "K=x"; "-v"; "/:/host"; "img"].
Proof. vm_compute. reflexivity. Qed.

(** C49 *)
Theorem C49_host_or_docker : forall os arch container,
  uses_host os arch container = true <-> exists c, container = Some c /\ (co_name c = "host/" +++ os \/ co_name c = "host/" +++ os +++ "-" +++ arch).
Proof.
  intros os arch [c|]; cbn [uses_host].
  - rewrite orb_true_iff, !eqb_true. split; [intros H; exists c; tauto|intros (c' & [= <-] & H); tauto].
  - split; [discriminate|intros (c & C & _); discriminate].
Qed.
(** The image of a docker run is the container's name, "ubuntu" without a container; it is the last argument. *)
Theorem C49_image : forall show_f64 cmd m, NoDup (keys (cmd_environments cmd)) ->
  exists pieces, docker_pieces (docker_of_command show_f64 cmd m) = pieces ++ [match cmd_container cmd with Some c => co_name c | None => "ubuntu" end].
Proof. intros show cmd m ND. rewrite docker_of_command_eq by exact ND. unfold docker_pieces. cbn [dk_image]. eexists. rewrite !app_assoc. reflexivity. Qed.
(** A host step for which the scheduler freshly picked runner [r] runs on the host of a machine with [r]'s os and arch. *)
Theorem C49_scheduled_host_step : forall before now q r c, answer before now q (Some r) -> (forall x, In x (sq_runners q) -> ~ sticky before q x) -> host_step q ->
  sq_container q = Some (co_name c) -> uses_host (rm_os r) (rm_arch r) (Some c) = true.
Proof.
  intros before now q r c A Hn Hh Hc. apply C49_host_or_docker. exists c. split; [reflexivity|]. inv A.
  - match goal with F : first_such _ _ _ |- _ => destruct F as (b & a & E & S & _) end. exfalso. apply (Hn r); [rewrite E; apply in_or_app; right; left; reflexivity|exact S].
  - match goal with F : first_such _ _ _ |- _ => destruct F as (b & a & E & [_ (n & Hn' & Hp)] & _) end. rewrite Hc in Hn'. injection Hn' as <-. exact Hp.
  - contradiction.
Qed.
Print Assumptions C49_host_or_docker.
Print Assumptions C49_scheduled_host_step.
Example C49_nonvacuous : uses_host "linux" "x86_64" (Some (ContainerOptions "host/linux" None None)) = true /\
  uses_host "linux" "x86_64" (Some (ContainerOptions "host/linux-arm" None None)) = false /\ uses_host "linux" "x86_64" None = false.
Proof. vm_compute. auto. Qed.

(** C52 *)
Theorem C52_entrypoint : forall run,
  (exists rest, entrypoint_content run = "#!" +++ rest) /\
  ((exists rest, run = "#!" +++ rest) -> entrypoint_content run = run) /\
  (~ (exists rest, run = "#!" +++ rest) -> entrypoint_content run = "#!/bin/sh" +++ String "010" run).  (* 010: line feed *)
Proof.
  intros run. unfold entrypoint_content.
  assert (P : String.prefix "#!" run = true <-> exists rest, run = "#!" +++ rest).
  { destruct run as [|a [|b run]]; cbn [String.prefix].
    - split; [discriminate|intros [r C]; discriminate].
    - split; [destruct (ascii_dec _ _); discriminate|intros [r C]; discriminate].
    - destruct (ascii_dec "#" a) as [<-|Ha]; [|split; [discriminate|intros [r C]; injection C as C _; congruence]].
      destruct (ascii_dec "!" b) as [<-|Hb]; [|split; [discriminate|intros [r C]; injection C as C _; congruence]].
      split; [intros _; exists run; reflexivity|intros _; destruct run; reflexivity]. }
  destruct (String.prefix "#!" run).
  - assert (H := proj1 P eq_refl). split; [exact H|]. split; [reflexivity|]. intros C. contradiction.
  - split; [exists ("/bin/sh" +++ newline +++ run); reflexivity|]. split; [|reflexivity]. intros C. apply P in C. discriminate C.
Qed.
Print Assumptions C52_entrypoint.
Example C52_nonvacuous : entrypoint_content "#!/usr/bin/python" = "#!/usr/bin/python" /\ entrypoint_content "echo" = "#!/bin/sh" +++ String "010" "echo" /\ entrypoint_content "" = "#!/bin/sh" +++ String "010" "".
Proof. vm_compute. auto. Qed.
