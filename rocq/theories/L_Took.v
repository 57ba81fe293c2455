(** How long a build took (C108), over M_Workshop. *)
From Coq Require Import List Bool Ascii String ZArith Lia.
From Verif Require Import PyBase PyFacts M_Utils M_Elf M_Syscall M_Arch M_Kernel M_Kconfig M_Build M_Config M_Command M_Search M_Main M_Program M_Workshop
  S_Utils S_Output S_Arch S_Config S_Main L_Main S_Workshop L_Workshop L_Workshop5 L_Workshop6 L_Workshop7.
From Verif Require L_Utils.
Import ListNotations.
Open Scope Z_scope.
Open Scope list_scope.

Lemma eprint_loud s h h' u : eprint false s h = (h', Ok u) -> h' = h ++ [Said s].
Proof. unfold eprint. now intros [= <- _]. Qed.
Lemma prepare_took m g an kd h0 h : g_build g = true -> prepare m g false an kd h0 = (h, Ok 0) ->
  exists h1 a t, h = ((h1 ++ [Said $"Building kernel (might take a while)"]) ++ [Built kd a (g_disable_opt g)]) ++ [Said ($"Build took " ++ format_duration (fst t) (snd t))] /\
    mc_build m (h1 ++ [Said $"Building kernel (might take a while)"]) a (g_disable_opt g) = Ok t.
Proof.
  intros B E. unfold prepare in E. cbv zeta in E. rewrite B in E.
  apply mbind_Ok in E as (h1 & ok & _ & E). destruct ok; [|discriminate E]. cbn [negb] in E.
  apply mbind_Ok in E as (h2 & gcc & _ & E). destruct gcc; [|discriminate E]. cbn [negb] in E.
  apply mbind_Ok in E as (h3 & ? & _ & E). apply mbind_Ok in E as (h4 & a & _ & E).
  apply mbind_Ok in E as (h5 & ? & _ & E). apply mbind_Ok in E as (h6 & ? & _ & E).
  apply mbind_Ok in E as (h7 & ? & S & E). apply eprint_loud in S as ->.
  apply mbind_Ok in E as (h8 & t & A & E). unfold act in A. injection A as <- A.
  apply mbind_Ok in E as (h9 & ? & S & E). apply eprint_loud in S as ->. injection E as <-.
  exists h6, a, t. split; [reflexivity|exact A].
Qed.
Lemma build_extends w g a o D D' r : build_at w g a o D = (D', r) -> exists B, D' = D ++ B.
Proof.
  unfold build_at. enough (forall p b E, exists B, fst (work w (kern_of w g a []) p b E) = E ++ B) as H.
  { destruct (H (build o) None D) as [B HB]. destruct (work w _ (build o) None D) as [D2 r2]. cbn [fst] in HB. intros [= <- _]. eauto. }
  induction p; intros b E; cbn [work fst].
  all: try (now exists []; rewrite app_nil_r).
  all: try (match goal with H : _ |- _ => now apply H end).
  - destruct (content_of _); [apply H|exists []; cbn [fst]; now rewrite app_nil_r].
  - match goal with |- exists B, fst (work _ _ _ _ (_ ++ [?e])) = _ => destruct (IHp b (E ++ [e])) as [B ->] end. rewrite <- app_assoc. eauto.
  - match goal with |- exists B, fst (work _ _ (?f ?x) _ (_ ++ [?e])) = _ => destruct (H x b (E ++ [e])) as [B ->] end. rewrite <- app_assoc. eauto.
Qed.
Lemma run_took w g D : preparing g -> (forall n, g_arch g = Some n -> ~ asks_help n) -> g_build g = true -> ~ (0 < g_quiet g /\ g_verbose g <= 0) ->
  run_in w g = (D, Ok 0) ->
  exists D0 B t, let D1 := D0 ++ [Main (Said $"Building kernel (might take a while)")] in
    D = (D1 ++ B) ++ [Main (Said ($"Build took " ++ t))] /\
    let '(n, d) := ws_elapsed w D1 (D1 ++ B) in 0 < d -> 0 <= n -> exists z, nearest_even n d z /\ read_duration t = Some z.
Proof.
  intros P NH GB NQ E. apply run_doings in E as (h & R & _ & ->). remember (Ok 0) as r eqn:RR.
  destruct R as [n GA AH|n| |h r AF NM DE AL NO|h0 h r AF NM DE AL _ R|h0 h r AF NM DE AL NP R]; try discriminate RR.
  - now destruct (NH n GA).
  - now destruct (NO 0).
  - subst r. assert (silence g = false) as S.
    { unfold silence. destruct (lc_silent _) eqn:L; [|reflexivity]. apply silent_iff in L. tauto. }
    rewrite S in R. apply prepare_took in R as (h1 & a & t & -> & T); [|exact GB].
    cbn [M_Program.machine_of mc_build computer_of pc_build] in T.
    destruct (build_at w g a (g_disable_opt g) (doings w g (h1 ++ [Said $"Building kernel (might take a while)"]))) as [D2 r2] eqn:EB. cbn [snd] in T. subst r2.
    destruct (build_extends _ _ _ _ _ _ _ EB) as [B ->].
    assert (t = ws_elapsed w (doings w g (h1 ++ [Said $"Building kernel (might take a while)"])) (doings w g (h1 ++ [Said $"Building kernel (might take a while)"]) ++ B)) as ET.
    { clear - EB. unfold build_at in EB. destruct (work _ _ _ _ _) as [D3 r3]. injection EB as -> EB. destruct r3; [|discriminate EB..]. cbn [bind] in EB. now injection EB as <-. }
    set (D1 := doings w g (h1 ++ [Said $"Building kernel (might take a while)"])) in *.
    exists (doings w g h1), B, (format_duration (fst t) (snd t)). cbv zeta. replace (doings w g h1 ++ [Main (Said $"Building kernel (might take a while)")]) with D1
      by (unfold D1; rewrite doings_app; reflexivity).
    split.
    + rewrite doings_app, doings_app. fold D1. cbn [fold_left perform]. now rewrite EB.
    + rewrite <- ET. destruct t as [n d]. cbn [fst snd]. intros. now apply L_Utils.duration_read_back.
  - now destruct (NP P).
Qed.
