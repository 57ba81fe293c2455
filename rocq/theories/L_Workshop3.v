(** Lemmas about preparing sources (C108): building. *)
From Coq Require Import List Bool Ascii String ZArith Lia.
From Verif Require Import PyBase PyFacts M_Utils M_Elf M_Syscall M_Arch M_Kernel M_Kconfig M_Build M_Config M_Command M_Search M_Main M_Program M_Workshop
  S_Utils S_Output S_Arch S_Config S_Main L_Utils L_Config L_Config2 L_Config4 L_Arch L_Arch3 L_Main S_Workshop L_Workshop L_Workshop2.
From Verif Require S_Build L_Build.
Import ListNotations.
Open Scope Z_scope.
Open Scope list_scope.

(** ** Text *)

Lemma universal_no_cr s : ~ In CR (universal s).
Proof.
  remember (List.length s) as n eqn:N. revert s N. induction n as [n IH] using (well_founded_induction Wf_nat.lt_wf). intros s ->. destruct s as [|c s]; [intros []|].
  cbn [universal]. destruct (Ascii.eqb c CR) eqn:E.
  - destruct s as [|d s]; [intros [X|[]]; discriminate X|]. destruct (Ascii.eqb d NL); (intros [X|I]; [discriminate X|]); eapply IH; try exact I; try reflexivity; cbn; lia.
  - intros [->|I]; [apply Ascii.eqb_neq in E; congruence|]. eapply IH; try exact I; try reflexivity; cbn; lia.
Qed.
Lemma universal_twice s : universal (universal s) = universal s.
Proof. apply L_Build.universal_plain. apply universal_no_cr. Qed.
Lemma reads_universal s : reads s (universal s).
Proof.
  remember (List.length s) as n eqn:N. revert s N. induction n as [n IH] using (well_founded_induction Wf_nat.lt_wf). intros s ->. destruct s as [|c s]; [constructor|].
  cbn [universal]. destruct (Ascii.eqb c CR) eqn:E.
  - apply ascii_eqb_eq in E as ->. destruct s as [|d s]; [apply re_cr; [discriminate|constructor]|]. destruct (Ascii.eqb d NL) eqn:F.
    + apply ascii_eqb_eq in F as ->. apply re_crnl. eapply IH; [|reflexivity]. cbn; lia.
    + apply re_cr; [intros s' [= -> _]; now rewrite Ascii.eqb_refl in F|]. eapply IH; [|reflexivity]. cbn; lia.
  - apply re_char; [now apply Ascii.eqb_neq|]. eapply IH; [|reflexivity]. cbn; lia.
Qed.
Lemma reads_unique s t : reads s t -> t = universal s.
Proof.
  induction 1 as [|c s t N H IH|s t H IH|s t N H IH]; cbn [universal].
  - reflexivity.
  - rewrite (proj2 (Ascii.eqb_neq _ _) N). now f_equal.
  - rewrite !Ascii.eqb_refl. now f_equal.
  - rewrite Ascii.eqb_refl. destruct s as [|d s]; [subst; reflexivity|]. destruct (Ascii.eqb d NL) eqn:F; [apply ascii_eqb_eq in F as ->; now destruct (N s)|]. now f_equal.
Qed.

Section Building.
  Context (w : workshop) (g : args) (k : path) (a : arch) (K : path_arg (g_kdir g) = Some k).
  Let kern := kern_of w g a [].
  Let c := Command (make_argv kern $"vmlinux") k None.
  Let F := makefile k.

  Definition status_at (D : list doing) : option Z := option_map fst (started w D (make_argv (kern_of w g a []) $"vmlinux") k).
  Lemma status_well D : status_at D = Some 0 <-> went_well w D c.
  Proof.
    unfold status_at. fold kern. change (make_argv kern $"vmlinux") with (c_argv c). change k with (c_cwd c). split.
    - destruct (started w D (c_argv c) (c_cwd c)) as [[rc out]|] eqn:S; [|discriminate]. cbn [option_map fst]. intros [= ->].
      apply started_well in S; [exact S|discriminate].
    - intros W. apply well_started in W as [out ->]. reflexivity.
  Qed.
  Lemma work_make f b D : work w kern (PMake f) b D = work w kern (f (status_at D)) b (D ++ [Prep (Ran c)]).
  Proof. cbn [work]. unfold status_at, c, kern. now rewrite (kern_kdir w g k a K). Qed.
  Lemma work_write t p b D : work w kern (PWrite t p) b D = work w kern p b (D ++ [Wrote F t]).
  Proof. cbn [work]. unfold kern. now rewrite (kern_kdir w g k a K). Qed.
  Lemma work_read f b D : work w kern (PRead f) b D =
    match content_of (ws_look w D F) with None => (D, Raise FileNotFoundError) | Some s => work w kern (f (universal s)) b D end.
  Proof. cbn [work]. unfold kern. now rewrite (kern_kdir w g k a K). Qed.
  Lemma work_backup t p b D : work w kern (PBackup t p) b D = work w kern p (Some t) D.
  Proof. reflexivity. Qed.
  Lemma work_register p b D : work w kern (PRegister p) b D = work w kern p b D.
  Proof. reflexivity. Qed.
  Lemma work_restore x s p D : work w kern (restore p) (Some (x :: s)) D = work w kern p (Some (x :: s)) (D ++ [Wrote F []; Wrote F (x :: s)]).
  Proof.
    unfold restore. cbn [work]. unfold kern. rewrite (kern_kdir w g k a K). fold F. change (seen_from k) with (path_join k). rewrite <- app_assoc. reflexivity.
  Qed.
  Lemma work_normal b D : exists r, work w kern normal_build b D = (D ++ [Prep (Ran c)], r) /\
    ((r = Ok tt /\ went_well w D c) \/ (~ went_well w D c /\ exists n, r = Exit n /\ n <> 0)).
  Proof.
    unfold normal_build. rewrite work_make. cbn [work]. eexists. split; [reflexivity|]. rewrite <- status_well.
    destruct (status_at D) as [[|p|p]|]; cbn; [left; auto|right..]; (split; [discriminate|]); eexists; split; try reflexivity; discriminate.
  Qed.
  Lemma good_run D : (M_Utils.run_command (status_at D) =? 0) = true <-> went_well w D c.
  Proof. rewrite <- status_well, L_Build.rc0. destruct (status_at D) as [[|p|p]|]; split; congruence. Qed.
  Lemma bad_run D : (M_Utils.run_command (status_at D) =? 0) = false <-> ~ went_well w D c.
  Proof. rewrite <- good_run. destruct (M_Utils.run_command (status_at D) =? 0); split; congruence. Qed.
  Lemma vmlinux_makes : makes w g k a $"vmlinux" c.
  Proof. unfold c, kern. now apply make_makes. Qed.

  (** With the Makefile changed by systrack only *)
  Lemma work_build D : lasting w k -> exists D' r, work w kern (build (g_disable_opt g)) None D = (D', r) /\
    (r = Ok tt -> exists B, D' = D ++ B /\ built w g k a D B) /\
    (content_of (ws_look w D' F) = content_of (ws_look w D F) \/
     exists s t, content_of (ws_look w D F) = Some s /\ reads s t /\ S_Build.has_flag t /\ g_disable_opt g = true /\
       content_of (ws_look w D' F) = Some t) /\
    (forall e, r = Raise e -> e = FileNotFoundError /\ g_disable_opt g = true /\ content_of (ws_look w D F) = None) /\
    r <> Diverge /\ forall n, r = Exit n -> n <> 0.
  Proof.
    intros L. assert (forall D0 x, content_of (ws_look w (D0 ++ [Prep x]) F) = content_of (ws_look w D0 F)) as KP.
    { intros D0 x. apply (la_kept _ _ L); discriminate. }
    assert (forall D0 t, content_of (ws_look w (D0 ++ [Wrote F t]) F) = Some t) as WR by (intros; apply (la_wrote _ _ L)).
    assert (forall D0 mk p, content_of (ws_look w (D0 ++ trial k mk p c) F) = Some mk) as TR.
    { intros D0 mk p. change (trial k mk p c) with ([Wrote F p; Prep (Ran c); Wrote F []] ++ [Wrote F mk]). rewrite app_assoc. apply WR. }
    unfold build. destruct (g_disable_opt g) eqn:O.
    - unfold try_set_level at 1. rewrite work_read. destruct (content_of (ws_look w D F)) as [s|] eqn:C.
      2:{ exists D, (Raise FileNotFoundError). split; [reflexivity|]. split; [discriminate|]. split; [left; exact C|]. split; [intros e [= <-]; auto|]. split; discriminate. }
      rewrite work_backup. set (mk := universal s). assert (has_text w D F mk) as HT by (exists s; split; [exact C|apply reads_universal]).
      destruct (set_level mk 0) as [p0|] eqn:S0.
      2:{ destruct (work_normal (Some mk) D) as (r & -> & R). exists (D ++ [Prep (Ran c)]), r. split; [reflexivity|].
          split; [|split; [left; rewrite KP; exact C|]].
          - intros ->. eexists. split; [reflexivity|]. destruct R as [[_ W]|[_ (n & X & _)]]; [|discriminate X].
            apply (bu_none w g k a D mk c O HT); [now apply L_Build.level_none in S0|apply vmlinux_makes|exact W].
          - destruct R as [[-> _]|[_ (n & -> & N)]]; repeat split; try discriminate. now intros n' [= <-]. }
      destruct (L_Build.has_flag_level mk 1) as [p1 S1].
      { apply L_Build.level_iff in S0. destruct S0 as (pre & w1 & w2 & post & H & _). exists pre, w1, w2, post. exact H. }
      assert (S_Build.has_flag mk) as HF by (apply L_Build.level_iff in S0; destruct S0 as (pre & w1 & w2 & post & H & _); exists pre, w1, w2, post; exact H).
      apply L_Build.level_iff in S0. rewrite work_write, work_register, work_make.
      destruct mk as [|x mk'] eqn:MK; [apply L_Build.level_iff in S0; discriminate S0|]. rewrite <- MK in *. 
      assert (forall p D0, work w kern (restore p) (Some mk) D0 = work w kern p (Some mk) (D0 ++ [Wrote F []; Wrote F mk])) as RS.
      { intros p D0. rewrite MK. apply work_restore. }
      rewrite RS. rewrite <- !app_assoc. change (D ++ [Wrote F p0] ++ [Prep (Ran c)] ++ [Wrote F []; Wrote F mk]) with (D ++ trial k mk p0 c).
      destruct (M_Utils.run_command (status_at (D ++ [Wrote F p0])) =? 0) eqn:R0.
      { apply good_run in R0. exists (D ++ trial k mk p0 c), (Ok tt). split; [reflexivity|]. split; [|split; [|repeat split; discriminate]].
        - intros _. eexists. split; [reflexivity|]. apply (bu_first w g k a D mk p0 c O HT S0 vmlinux_makes R0).
        - right. exists s, mk. split; [reflexivity|]. split; [apply reads_universal|]. split; [exact HF|]. split; [reflexivity|]. apply TR. }
      apply bad_run in R0. unfold try_set_level. rewrite work_read, TR, work_backup.
      assert (universal mk = mk) as U by apply universal_twice. rewrite U, S1, work_write, work_make, RS. apply L_Build.level_iff in S1.
      rewrite <- !app_assoc.
      change (D ++ trial k mk p0 c ++ [Wrote F p1] ++ [Prep (Ran c)] ++ [Wrote F []; Wrote F mk]) with (D ++ trial k mk p0 c ++ trial k mk p1 c).
      destruct (M_Utils.run_command (status_at (D ++ trial k mk p0 c ++ [Wrote F p1])) =? 0) eqn:R1.
      { apply good_run in R1. exists (D ++ trial k mk p0 c ++ trial k mk p1 c), (Ok tt). split; [reflexivity|]. split; [|split; [|repeat split; discriminate]].
        - intros _. eexists. split; [reflexivity|]. apply (bu_second w g k a D mk p0 p1 c O HT S0 S1 vmlinux_makes R0 R1).
        - right. exists s, mk. split; [reflexivity|]. split; [apply reads_universal|]. split; [exact HF|]. split; [reflexivity|]. rewrite app_assoc. apply TR. }
      apply bad_run in R1. destruct (work_normal (Some mk) (D ++ trial k mk p0 c ++ trial k mk p1 c)) as (r & -> & R).
      eexists _, r. split; [reflexivity|]. split; [|split].
      + intros ->. destruct R as [[_ W]|[_ (n & X & _)]]; [|discriminate X]. eexists. split; [rewrite <- !app_assoc; reflexivity|].
        apply (bu_third w g k a D mk p0 p1 c O HT S0 S1 vmlinux_makes R0 R1 W).
      + right. exists s, mk. split; [reflexivity|]. split; [apply reads_universal|]. split; [exact HF|]. split; [reflexivity|].
        rewrite KP, app_assoc. apply TR.
      + destruct R as [[-> _]|[_ (n & -> & N)]]; repeat split; try discriminate. now intros n' [= <-].
    - destruct (work_normal None D) as (r & -> & R). exists (D ++ [Prep (Ran c)]), r. split; [reflexivity|].
      split; [|split; [left; apply KP|]].
      + intros ->. eexists. split; [reflexivity|]. destruct R as [[_ W]|[_ (n & X & _)]]; [|discriminate X].
        apply (bu_plain w g k a D c O vmlinux_makes W).
      + destruct R as [[-> _]|[_ (n & -> & N)]]; repeat split; try discriminate. now intros n' [= <-].
  Qed.
End Building.
