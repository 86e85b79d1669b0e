From Verif Require Import Base Types Ids_model Ids_spec Ids_proof Paths_model Paths_proof Docker_model Docker_spec.

(** A piece of the command line and the word it is read as. *)
Definition reads (piece word : string) : Prop :=
  forall cur rest, sh_scan cur false (piece +++ rest) = sh_scan (Some (option_default "" cur +++ word)) false rest.

Lemma plain_not_special c : plain_char c = true -> Ascii.eqb c " " = false /\ Ascii.eqb c """" = false.
Proof.
  intros H. split; (destruct (Ascii.eqb c _) eqn:E; [|reflexivity]); apply Ascii.eqb_eq in E; subst c; discriminate H.
Qed.
Lemma quotable_not_quote c : quotable_char c = true -> Ascii.eqb c """" = false.
Proof. intros H. destruct (Ascii.eqb c _) eqn:E; [|reflexivity]. apply Ascii.eqb_eq in E; subst c; discriminate H. Qed.

Lemma scan_plain w : plain w -> forall cur rest, sh_scan cur false (w +++ rest) = match w with EmptyString => sh_scan cur false rest | _ => sh_scan (Some (option_default "" cur +++ w)) false rest end.
Proof.
  unfold plain. induction w as [|c w IH]; intros H cur rest; [reflexivity|]. cbn [all_chars] in H. apply andb_true_iff in H as [H1 H2].
  destruct (plain_not_special _ H1) as [E1 E2]. cbn [append sh_scan]. rewrite E1, E2, H1. rewrite (IH H2).
  destruct w as [|d w]; [reflexivity|]. cbn [option_default]. rewrite append_assoc_s. reflexivity.
Qed.
Lemma scan_quoted w : quotable w -> forall cur rest, sh_scan (Some cur) true (w +++ rest) = sh_scan (Some (cur +++ w)) true rest.
Proof.
  unfold quotable. induction w as [|c w IH]; intros H cur rest; [rewrite append_nil_r; reflexivity|]. cbn [all_chars] in H. apply andb_true_iff in H as [H1 H2].
  cbn [append sh_scan]. rewrite (quotable_not_quote _ H1), H1. cbn [option_default]. rewrite (IH H2), append_assoc_s. reflexivity.
Qed.
Lemma reads_plain w : plain_word w -> reads w w.
Proof. intros [H1 H2] cur rest. rewrite (scan_plain w H2). destruct w; [congruence|reflexivity]. Qed.
Lemma scan_open cur s : sh_scan cur false (String dquote s) = sh_scan (Some (option_default "" cur)) true s.
Proof. reflexivity. Qed.
Lemma scan_close cur s : sh_scan cur true (String dquote s) = sh_scan cur false s.
Proof. reflexivity. Qed.
Lemma reads_volume a b : quotable a -> quotable b -> reads (quoted_volume a b) (a +++ ":" +++ b).
Proof.
  intros Ha Hb cur rest. unfold quoted_volume.
  replace (String dquote (a +++ String colon b +++ String dquote "") +++ rest) with (String dquote (a +++ ":" +++ b +++ String dquote rest)).
  - rewrite scan_open, (scan_quoted a Ha), (scan_quoted ":" eq_refl), (scan_quoted b Hb), scan_close. rewrite !append_assoc_s. reflexivity.
  - cbn [append]. rewrite append_assoc_s. cbn [append]. rewrite append_assoc_s. reflexivity.
Qed.
Lemma reads_env k v : plain k -> quotable v -> reads (k +++ "=" +++ String dquote (v +++ String dquote "")) (k +++ "=" +++ v).
Proof.
  intros Hk Hv cur rest. assert (Ke : plain (k +++ "=")).
  { revert Hk. unfold plain. induction k as [|c k IH]; cbn [append all_chars]; [reflexivity|]. rewrite !andb_true_iff. tauto. }
  replace ((k +++ "=" +++ String dquote (v +++ String dquote "")) +++ rest) with ((k +++ "=") +++ String dquote (v +++ String dquote rest)).
  - rewrite (scan_plain _ Ke). destruct (k +++ "=") as [|c0 k0] eqn:E; [destruct k; discriminate|].
    rewrite <- E. rewrite scan_open, (scan_quoted v Hv), scan_close. cbn [option_default]. rewrite !append_assoc_s. reflexivity.
  - rewrite !append_assoc_s. cbn [append]. rewrite append_assoc_s. reflexivity.
Qed.

Lemma scan_words ps ws : Forall2 reads ps ws -> ps <> [] -> sh_words (String.concat " " ps) = Some ws.
Proof.
  unfold sh_words. induction 1 as [|p w ps ws R F IH]; intros Hne; [congruence|]. destruct ps as [|p' ps'].
  - inv F. cbn [String.concat]. rewrite <- (append_nil_r p), R. reflexivity.
  - cbn [String.concat]. rewrite R. specialize (IH ltac:(discriminate)).
    change (match sh_scan None false (String.concat " " (p' :: ps')) with Some ws0 => Some (("" +++ w) :: ws0) | None => None end = Some (w :: ws)).
    rewrite IH. reflexivity.
Qed.

Record well_formed (d : docker) (volumes : list (string * string)) : Prop := {
  wf_vol : dk_volumes d = map (fun v => quoted_volume (fst v) (snd v)) volumes;
  wf_volq : Forall (fun v => quotable (fst v) /\ quotable (snd v)) volumes;
  wf_sec : Forall plain_word (dk_security_opts d);
  wf_env : Forall (fun e => plain (fst e) /\ quotable (snd e)) (dk_envs d);
  wf_wd : forall w, dk_workdir d = Some w -> plain_word w;
  wf_ep : forall w, dk_entrypoint d = Some w -> plain_word w;
  wf_nm : forall w, dk_name d = Some w -> plain_word w;
  wf_im : plain_word (dk_image d) }.

Ltac pw := apply reads_plain; split; [discriminate|reflexivity].
Lemma docker_words d vs : well_formed d vs ->
  sh_words (generate_docker_command d) = Some (docker_argv (dk_auto_remove d) (dk_security_opts d) vs (dk_envs d) (dk_workdir d) (dk_entrypoint d) (dk_name d) (dk_image d)).
Proof.
  intros [H1 H2 H3 H4 H5 H6 H7 H8]. unfold generate_docker_command. apply scan_words; [|discriminate]. unfold docker_pieces, docker_argv. rewrite H1.
  repeat apply Forall2_app.
  - repeat (constructor; [pw|]). constructor.
  - destruct (dk_auto_remove d); repeat (constructor; [pw|]); constructor.
  - clear -H3. induction H3; cbn [flat_map app]; [constructor|]. constructor; [pw|]. constructor; [apply reads_plain; assumption|assumption].
  - clear -H2. induction H2 as [|[a b] l [Ha Hb] F IH]; cbn [flat_map map app fst snd]; [constructor|]. constructor; [pw|]. constructor; [apply reads_volume; assumption|exact IH].
  - clear -H4. induction H4 as [|[a b] l [Ha Hb] F IH]; cbn [flat_map app fst snd]; [constructor|]. constructor; [pw|]. constructor; [apply reads_env; assumption|exact IH].
  - destruct (dk_workdir d); constructor; [pw|]. constructor; [apply reads_plain, H5; reflexivity|constructor].
  - destruct (dk_entrypoint d); constructor; [pw|]. constructor; [apply reads_plain, H6; reflexivity|constructor].
  - destruct (dk_name d); constructor; [pw|]. constructor; [apply reads_plain, H7; reflexivity|constructor].
  - constructor; [apply reads_plain, H8|constructor].
Qed.

(** The configuration built from a command. *)
Lemma fold_env show (l : environments) : forall d, NoDup (keys (dk_envs d) ++ keys l) ->
  fold_left (fun d kv => with_env (fst kv) (show_env show (snd kv)) d) l d =
  Docker (dk_image d) (dk_name d) (dk_envs d ++ map (fun kv => (fst kv, show_env show (snd kv))) l) (dk_workdir d) (dk_entrypoint d) (dk_volumes d) (dk_auto_remove d) (dk_security_opts d).
Proof.
  induction l as [|[k v] l IH]; intros d ND; cbn [fold_left map fst snd]; [rewrite app_nil_r; destruct d; reflexivity|].
  assert (I : insert k (show_env show v) (dk_envs d) = dk_envs d ++ [(k, show_env show v)]).
  { assert (Hn : ~ In k (keys (dk_envs d))).
    { intros C. cbn [keys map fst] in ND. apply NoDup_remove_2 in ND. apply ND, in_or_app. left. exact C. }
    revert Hn. clear. generalize (dk_envs d). intros m. induction m as [|[k' v'] m IHm]; cbn [insert keys map fst app]; [reflexivity|].
    intros Hn. destruct (eq_dec k k') as [->|]; [exfalso; apply Hn; left; reflexivity|]. f_equal. apply IHm. intros C. apply Hn. right. exact C. }
  rewrite IH; [unfold with_env; cbn; rewrite I, <- app_assoc; reflexivity|].
  unfold with_env. cbn [dk_envs]. rewrite I. unfold keys in *. rewrite map_app, <- app_assoc. exact ND.
Qed.
Lemma fold_volumes l : forall d,
  fold_left (fun d v => match split colon v with [h; p] => with_volume h p d | _ => d end) l d =
  Docker (dk_image d) (dk_name d) (dk_envs d) (dk_workdir d) (dk_entrypoint d)
    (dk_volumes d ++ map (fun v => quoted_volume (fst v) (snd v)) (flat_map (fun v => match split colon v with [h; p] => [(h, p)] | _ => [] end) l)) (dk_auto_remove d) (dk_security_opts d).
Proof.
  induction l as [|v l IH]; intros d; cbn [fold_left flat_map map]; [rewrite app_nil_r; destruct d; reflexivity|].
  rewrite IH. destruct (split colon v) as [|h [|p [|? ?]]]; try reflexivity. cbn. rewrite <- app_assoc. reflexivity.
Qed.
Lemma fold_security l : forall d,
  fold_left (fun d o => with_security_opt o d) l d =
  Docker (dk_image d) (dk_name d) (dk_envs d) (dk_workdir d) (dk_entrypoint d) (dk_volumes d) (dk_auto_remove d) (dk_security_opts d ++ l).
Proof.
  induction l as [|v l IH]; intros d; cbn [fold_left]; [rewrite app_nil_r; destruct d; reflexivity|].
  rewrite IH. cbn. rewrite <- app_assoc. reflexivity.
Qed.

Definition cvolumes (cmd : command) : list string := match cmd_container cmd with Some c => option_default [] (co_volumes c) | None => [] end.
Definition csecurity (cmd : command) : list string := match cmd_container cmd with Some c => option_default [] (co_security_opts c) | None => [] end.
Definition cimage (cmd : command) : string := match cmd_container cmd with Some c => co_name c | None => "ubuntu" end.
Definition host_container_pairs (vs : list string) : list (string * string) := flat_map (fun v => match split colon v with [h; p] => [(h, p)] | _ => [] end) vs.
Lemma docker_of_command_eq show cmd m : NoDup (keys (cmd_environments cmd)) ->
  docker_of_command show cmd m =
  Docker (cimage cmd) (Some (md_docker_name m)) (map (fun kv => (fst kv, show_env show (snd kv))) (cmd_environments cmd)) (Some (md_docker_workdir m))
    (Some "/home/work/runner/entrypoint")
    (map (fun v => quoted_volume (fst v) (snd v))
      ([(md_entrypoint m, "/home/work/runner/entrypoint"); (md_data_dir m, md_docker_workdir m); (md_cache_dir m, "/home/work/caches")] ++ host_container_pairs (cvolumes cmd)))
    true (csecurity cmd).
Proof.
  intros ND. unfold docker_of_command. rewrite fold_env by exact ND. cbn [dk_envs with_auto_remove with_entrypoint with_volume with_workdir with_name docker_new app].
  unfold cvolumes, csecurity, cimage. destruct (cmd_container cmd) as [[n vs ss]|]; cbn [co_volumes co_security_opts co_name option_default].
  - destruct vs as [vs|], ss as [ss|]; rewrite ?fold_security, ?fold_volumes; reflexivity.
  - reflexivity.
Qed.

Lemma kept_volumes_iff vs : forall ps, kept_volumes vs ps <-> ps = host_container_pairs vs.
Proof.
  assert (S : forall v h p, one_colon v h p <-> split colon v = [h; p]) by (intros v h p; rewrite split_2; reflexivity).
  induction vs as [|v vs IH]; intros ps; cbn [host_container_pairs flat_map].
  - split; [intros H; inv H; reflexivity|intros ->; constructor].
  - split.
    + intros H. inv H.
      * match goal with H : one_colon _ _ _ |- _ => apply S in H; rewrite H end. cbn [app]. f_equal. apply IH. assumption.
      * assert (H := proj1 (IH ps) ltac:(assumption)). fold (host_container_pairs vs). rewrite <- H. destruct (split colon v) as [|h [|p [|? ?]]] eqn:E; try reflexivity.
        exfalso. apply S in E. match goal with H : forall h p, ~ _ |- _ => exact (H _ _ E) end.
    + intros ->. fold (host_container_pairs vs). destruct (split colon v) as [|h [|p [|? ?]]] eqn:E;
        try (apply kv_drop; [intros h0 p0 C; apply S in C; congruence|apply IH; reflexivity]).
      cbn [app]. apply kv_keep; [apply S, E|apply IH; reflexivity].
Qed.

Lemma env_text_iff show v t : env_text show v t <-> t = show_env show v.
Proof. split; [intros []; reflexivity|intros ->; destruct v as [| |[]]; constructor]. Qed.
Lemma env_texts_iff show envs texts : env_texts show envs texts <-> texts = map (fun e => (fst e, show_env show (snd e))) envs.
Proof.
  unfold env_texts. split.
  - induction 1 as [|e t es ts [H1 H2] _ IH]; [reflexivity|]. cbn [map]. apply env_text_iff in H2. destruct t as [k v]; cbn [fst snd] in *. subst. reflexivity.
  - intros ->. induction envs as [|e es IH]; cbn [map]; constructor; [|exact IH]. split; [reflexivity|]. apply env_text_iff. reflexivity.
Qed.
