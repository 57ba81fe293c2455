(** Proofs for C117. *)
From Coq Require Import List Bool Ascii String ZArith Lia.
From Verif Require Import PyBase PyFacts M_Utils M_Kernel M_Build M_Text M_Command M_Pipe S_Text S_Build S_Command S_Pipe L_Text L_Text3 L_Build L_Build2.
Import ListNotations.
Open Scope Z_scope.
Open Scope list_scope.

(** ** Line ends *)

Lemma newlines_translated t : translated t (newlines t).
Proof.
  remember (List.length t) as n eqn:N. assert (List.length t <= n)%nat as L by lia. clear N. revert t L.
  induction n as [|n IH]; intros [|c t] L; try (cbn in L; lia); try constructor. cbn [newlines]. cbn in L.
  destruct (Z.eqb_spec c 13) as [->|N]; [|constructor; [assumption|apply IH; lia]].
  destruct t as [|d t]; [apply (tl_cr [] []); [discriminate|constructor]|].
  destruct (Z.eqb_spec d 10) as [->|N]; [constructor; apply IH; cbn in L; lia|].
  apply tl_cr; [intros t' E; injection E as E _; congruence|apply IH; lia].
Qed.
Lemma translated_newlines t u : translated t u -> newlines t = u.
Proof.
  induction 1 as [|c t u N _ IH|t u _ IH|t u N _ IH]; [reflexivity|..]; cbn [newlines].
  - destruct (Z.eqb_spec c 13); [contradiction|]. now rewrite IH.
  - cbn. now rewrite IH.
  - cbn [Z.eqb Pos.eqb]. destruct t as [|d t]; [cbn in IH; now subst u|].
    destruct (Z.eqb_spec d 10) as [->|M]; [now destruct (N t)|]. now rewrite IH.
Qed.
Lemma translated_same t : ~ In 13 t -> newlines t = t.
Proof.
  induction t as [|c t IH]; intros N; [reflexivity|]. cbn [newlines]. cbn in N.
  destruct (Z.eqb_spec c 13) as [E|E]; [tauto|]. f_equal. tauto.
Qed.
Lemma translated_clean t u : translated t u -> ~ In 13 u.
Proof. induction 1; cbn; [tauto|intros [E|E]; congruence|intros [E|E]; [discriminate|tauto]..]. Qed.
Lemma translated_scalar t u : translated t u -> Forall scalar t -> Forall scalar u.
Proof.
  induction 1 as [|c t u N _ IH|t u _ IH|t u N _ IH]; intros F; [constructor|..]; inversion F as [|? ? S F']; subst.
  - constructor; auto.
  - inversion F' as [|? ? S' F'']; subst. constructor; auto.
  - constructor; [unfold scalar; lia|auto].
Qed.

Lemma read_text_iff b u : read_text b = Ok u <-> reads_as b u.
Proof.
  unfold read_text, reads_as. split.
  - destruct (decode b) as [t| | |] eqn:D; try discriminate. cbn [bind]. intros E. injection E as <-. exists t.
    split; [now apply decode_written|apply newlines_translated].
  - intros (t & W & T). apply decode_written in W. rewrite W. cbn [bind]. now rewrite (translated_newlines _ _ T).
Qed.
Lemma read_text_raises b : not_text b -> read_text b = Raise UnicodeDecodeError.
Proof. intros N. unfold read_text. now rewrite (decode_raises b N). Qed.
Lemma text_or_not b : (exists t, written b t) \/ not_text b.
Proof.
  pose proof (decode_written b) as W. destruct (decode b) as [t| | |].
  - left. exists t. now apply W.
  - right. intros u H. apply W in H. discriminate H.
  - right. intros u H. apply W in H. discriminate H.
  - right. intros u H. apply W in H. discriminate H.
Qed.
Lemma read_or_not b : (exists u, reads_as b u) \/ not_text b.
Proof. destruct (text_or_not b) as [(t & W)|N]; [left|now right]. exists (newlines t), t. split; [exact W|apply newlines_translated]. Qed.

(** ** What is written *)

Lemma encode_bytes z : scalar z -> Forall (fun x => 0 <= x < 256) (encode z).
Proof.
  intros S. unfold encode, scalar in *.
  destruct (Z.ltb_spec z 128); [|destruct (Z.ltb_spec z 2048); [|destruct (Z.ltb_spec z 65536)]];
    repeat apply Forall_cons; try apply Forall_nil; Z.div_mod_to_equations; lia.
Qed.
Lemma codes_chars l : Forall (fun x => 0 <= x < 256) l -> map code (map chr l) = l.
Proof. induction 1 as [|x l R _ IH]; [reflexivity|]. cbn. now rewrite code_chr, IH. Qed.
Lemma save_written t : Forall scalar t -> written (save t) t.
Proof.
  intros F. split; [exact F|]. unfold save. rewrite flat_map_concat_map. change utf8_char with encode. apply codes_chars.
  induction F as [|z t S _ IH]; [constructor|]. cbn. apply Forall_app. split; [now apply encode_bytes|exact IH].
Qed.
Lemma written_save b t : written b t -> save t = b.
Proof.
  intros (_ & E). unfold save. rewrite flat_map_concat_map. change utf8_char with encode. rewrite <- E, map_map.
  rewrite <- (map_id b) at 2. apply map_ext. exact chr_code.
Qed.
Lemma read_save t : Forall scalar t -> ~ In 13 t -> read_text (save t) = Ok t.
Proof.
  intros F N. apply read_text_iff. exists t. split; [now apply save_written|].
  rewrite <- (translated_same t N) at 2. apply newlines_translated.
Qed.
Lemma latin_scalar s : Forall scalar (map code s).
Proof. induction s as [|c s IH]; constructor; [|exact IH]. pose proof (code_range c). unfold scalar. lia. Qed.

(** ** Output of programs *)

Lemma popen_starts w c cwd : S_Command.starts w c cwd -> snd (do_popen w c cwd) = Ok (Some (sys_run w c cwd)).
Proof.
  intros (F & D). unfold do_popen, popen_. rewrite F. destruct (sys_run w c cwd) as [[st out] err].
  destruct cwd as [d|]; [now rewrite (D d eq_refl)|reflexivity].
Qed.
Lemma ensure_starts w c cwd capture console st out err : S_Command.starts w c cwd -> sys_run w c cwd = (st, out, err) ->
  capture && console = false ->
  ensure_bytes w c cwd capture console =
    (out <- (if capture then t <- read_text out ;; Ok (Some t) else Ok None) ;;
     _ <- (if console then Ok [] else read_text err) ;; if negb (st =? 0) then Exit 1 else Ok out).
Proof.
  intros S R N. unfold ensure_bytes. rewrite (popen_starts _ _ _ S), R.
  replace (negb (negb console || negb capture)) with false by (destruct console, capture; cbn in *; congruence). reflexivity.
Qed.
Lemma output_bad w c cwd capture console st out err : S_Command.starts w c cwd -> sys_run w c cwd = (st, out, err) ->
  capture && console = false -> console = false -> capture = true /\ not_text out \/ not_text err ->
  ensure_bytes w c cwd capture console = Raise UnicodeDecodeError.
Proof.
  intros S R N C B. rewrite (ensure_starts _ _ _ _ _ _ _ _ S R N). subst console.
  destruct B as [(-> & B)|B]; [now rewrite (read_text_raises _ B)|].
  destruct capture; cbn [bind]; [|now rewrite (read_text_raises _ B)].
  destruct (read_or_not out) as [(u & U)|U]; [|now rewrite (read_text_raises _ U)].
  apply read_text_iff in U. rewrite U. cbn [bind]. now rewrite (read_text_raises _ B).
Qed.
Lemma output_good w c cwd capture console st out err : S_Command.starts w c cwd -> sys_run w c cwd = (st, out, err) ->
  capture && console = false -> ~ (console = false /\ (capture = true /\ not_text out \/ not_text err)) ->
  ensure_bytes w c cwd capture console = Exit 1 /\ st <> 0 \/
  (st = 0 /\ (capture = false /\ ensure_bytes w c cwd capture console = Ok None \/
   capture = true /\ exists u, reads_as out u /\ ensure_bytes w c cwd capture console = Ok (Some u))).
Proof.
  intros S R N G. rewrite (ensure_starts _ _ _ _ _ _ _ _ S R N).
  assert (exists x, (if console then Ok [] else read_text err) = Ok x) as (x & X).
  { destruct console; [eauto|]. destruct (read_or_not err) as [(u & U)|U]; [exists u; now apply read_text_iff|]. destruct G. auto. }
  destruct capture; cbn [bind].
  - destruct console; [discriminate N|]. destruct (read_or_not out) as [(u & U)|U]; [|destruct G; auto].
    pose proof (proj2 (read_text_iff _ _) U) as E. rewrite E. cbn [bind]. rewrite X. cbn [bind].
    destruct (Z.eqb_spec st 0); cbn [negb]; [right|now left]. split; [assumption|]. right. split; [reflexivity|]. now exists u.
  - rewrite X. cbn [bind]. destruct (Z.eqb_spec st 0); cbn [negb]; [right|now left]. auto.
Qed.

Lemma ensure_model wb w c cwd capture console : sys_entry wb = sys_entry w -> sys_found wb = sys_found w ->
  (forall st out err, sys_run w c cwd = (st, out, err) -> exists bo be, sys_run wb c cwd = (st, bo, be) /\ reads_latin bo out /\ reads_latin be err) ->
  ensure_bytes wb c cwd capture console = (o <- snd (ensure_command w c cwd capture console) ;; Ok (option_map (map code) o)).
Proof.
  intros E F R. unfold ensure_bytes, ensure_command. destruct (negb (negb console || negb capture)); [reflexivity|].
  destruct (sys_run w c cwd) as [[st out] err] eqn:W. destruct (R _ _ _ eq_refl) as (bo & be & WB & O & X).
  apply read_text_iff in O, X.
  unfold do_popen, popen_. rewrite E, F, W, WB.
  assert (forall b, (if b : bool then Ok [] else read_text be) = Ok (if b then [] else map code err)) as Y by (intros []; [reflexivity|exact X]).
  assert ((if capture then t <- read_text bo ;; Ok (Some t) else Ok None) = Ok (if capture then Some (map code out) else None)) as Q
    by (destruct capture; [now rewrite O|reflexivity]).
  destruct cwd as [d|].
  - destruct (sys_entry w d); [reflexivity..|]. destruct (sys_found w (Some d) (program c)).
    + cbn [snd bind]. rewrite Q. cbn [bind]. rewrite Y. cbn [bind]. destruct (negb (st =? 0)); [reflexivity|]. cbn. now destruct capture.
    + destruct (match c with Shell l => split_ws l | Argv a => a end); reflexivity.
  - destruct (sys_found w None (program c)); [|reflexivity].
    cbn [snd bind]. rewrite Q. cbn [bind]. rewrite Y. cbn [bind]. destruct (negb (st =? 0)); [reflexivity|]. cbn. now destruct capture.
Qed.

(** ** The banner *)

Lemma text_eqb_eq a : forall b, text_eqb a b = true <-> a = b.
Proof.
  induction a as [|x a IH]; intros [|y b]; cbn; try (split; congruence). rewrite andb_true_iff, IH, Z.eqb_eq.
  split; [intros (-> & ->); reflexivity|intros E; injection E as -> ->; auto].
Qed.
Lemma banner_bad f b : not_text b -> banner_bytes f b = Raise UnicodeDecodeError.
Proof. intros N. unfold banner_bytes. now rewrite (decode_raises b N). Qed.
Lemma banner_good f b t : written b t ->
  (forall u, t = map code $"Linux version " ++ u -> banner_bytes f b = Ok (f u)) /\
  ((forall u, t <> map code $"Linux version " ++ u) -> banner_bytes f b = Ok None).
Proof.
  intros W. apply decode_written in W. unfold banner_bytes. rewrite W. cbn [bind]. split.
  - intros u ->. replace (firstn 14 (map code $"Linux version " ++ u)) with (map code $"Linux version ") by reflexivity.
    rewrite (proj2 (text_eqb_eq _ _) eq_refl). reflexivity.
  - intros N. destruct (text_eqb (firstn 14 t) (map code $"Linux version ")) eqn:E; [|reflexivity].
    apply text_eqb_eq in E. destruct (N (skipn 14 t)). rewrite <- E. symmetry. apply firstn_skipn.
Qed.
Lemma codes_inj a : forall b, map code a = map code b -> a = b.
Proof.
  induction a as [|x a IH]; intros [|y b] E; cbn in E; try discriminate; [reflexivity|]. injection E as E F.
  rewrite <- (chr_code x), <- (chr_code y), E. f_equal. now apply IH.
Qed.
Lemma banner_model f b s : (forall s, f (map code s) = version_from_str s) -> written b (map code s) ->
  banner_bytes f b = Ok (version_from_banner s).
Proof.
  intros F W. destruct (banner_good f b _ W) as (Y & N). unfold version_from_banner.
  destruct (startswith s $"Linux version ") eqn:E; cbn [negb].
  - apply startswith_iff in E as (u & ->). rewrite (Y (map code u)) by apply map_app. rewrite F. reflexivity.
  - apply N. intros u X. apply map_app_inv in X as (p & q & -> & P & _). apply codes_inj in P as ->.
    assert (startswith ($"Linux version " ++ q) $"Linux version " = true) as T by (apply startswith_iff; eauto). congruence.
Qed.

(** ** The configuration *)

Lemma config_bad parse b : not_text b -> config_bytes parse b = Raise UnicodeDecodeError.
Proof. intros N. unfold config_bytes. now rewrite (read_text_raises b N). Qed.
Lemma config_good parse b u : reads_as b u -> config_bytes parse b = parse u.
Proof. intros R. apply read_text_iff in R. unfold config_bytes. now rewrite R. Qed.

(** ** The Makefile *)

Lemma build_bad set make b : not_text b -> build_bytes set make true b = Built b [] (Raise UnicodeDecodeError).
Proof. intros N. unfold build_bytes. now rewrite (read_text_raises b N). Qed.
Lemma restored_save u m : u <> [] -> restored m u = save u.
Proof. now destruct u. Qed.
Lemma build_good set make b u : reads_as b u -> u <> [] -> 
  (set u 0 = None -> build_bytes set make true b = Built b [b] (last_build (make 0%nat))) /\
  (set u 0 <> None -> bd_file (build_bytes set make true b) = save u).
Proof.
  intros R NE. pose proof (proj2 (read_text_iff _ _) R) as E. destruct R as (t & (F & _) & T).
  assert (read_text (save u) = Ok u) as E' by (apply read_save; [now apply (translated_scalar t)|now apply (translated_clean t)]).
  unfold build_bytes. rewrite E. split; [now intros ->|]. destruct (set u 0) as [t0|]; [|congruence]. intros _.
  rewrite restored_save by assumption. destruct (M_Utils.run_command (make 0%nat) =? 0); [reflexivity|]. rewrite E'.
  rewrite restored_save by assumption. now destruct (M_Utils.run_command (make 1%nat) =? 0).
Qed.
Lemma build_exact set make o b t : written b t -> t <> [] -> ~ In 13 t -> bd_file (build_bytes set make o b) = b.
Proof.
  intros W NE C. destruct o; [|reflexivity]. assert (reads_as b t) as R.
  { exists t. split; [exact W|]. rewrite <- (translated_same t C) at 2. apply newlines_translated. }
  destruct (build_good set make b t R NE) as (N & Y). destruct (set t 0) eqn:E.
  - rewrite Y by discriminate. now apply written_save.
  - now rewrite N.
Qed.

Lemma build_model set make o s b : (forall s level, set (map code s) level = option_map (map code) (set_level s level)) ->
  written b (map code s) ->
  let r := run_build make o s None in
  build_bytes set make o b = Built (save (map code (b_file (r_state r)))) (map (fun x => save (map code x)) (r_makes r)) (bd_end (build_bytes set make o b)) /\
  r_end r = Some (bd_end (build_bytes set make o b)).
Proof.
  intros F W. pose proof (written_save _ _ W) as SB. cbv zeta. destruct o.
  2: { unfold build_bytes, run_build, build, normal_build. cbn -[save]. now rewrite SB. }
  assert (reads_as b (map code (universal s))) as R.
  { exists (map code s). split; [exact W|]. rewrite <- newlines_narrow. apply newlines_translated. }
  pose proof (proj2 (read_text_iff _ _) R) as E.
  assert (read_text (save (map code (universal s))) = Ok (map code (universal s))) as E'.
  { apply read_save; [apply latin_scalar|]. destruct R as (t & _ & T). now apply (translated_clean t). }
  unfold build_bytes. rewrite E, F. destruct (set_level (universal s) 0) as [p0|] eqn:H0; cbn [option_map].
  - pose proof (proj1 (level_iff _ _ _) H0) as P0. destruct P0 as (pre & w1 & w2 & post & FA & _).
    assert (has_flag (universal s)) as HF by (exists pre, w1, w2, post; exact FA).
    destruct (has_flag_level _ 1 HF) as [p1 H1].
    rewrite (build_opt_any make s _ p0 p1 eq_refl H0 H1).
    assert (map code (universal s) <> []) as NE.
    { destruct (mk_cons (universal s) p0 p1) as (c & t & X); [apply universal_no_cr|exact H0|exact H1|]. rewrite X. discriminate. }
    rewrite !restored_save by exact NE. rewrite E', F, H1. cbn [option_map]. rewrite !restored_save by exact NE.
    destruct (M_Utils.run_command (make 0%nat) =? 0); [split; reflexivity|].
    destruct (M_Utils.run_command (make 1%nat) =? 0); split; reflexivity.
  - unfold run_build, build, try_set_level. cbn -[set_level universal]. rewrite H0. cbn -[save]. rewrite SB. split; reflexivity.
Qed.
