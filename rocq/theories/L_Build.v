(** Lemmas about the model of build() and of the version (C65-C68). *)
From Coq Require Import List Bool Ascii String ZArith Lia.
From Verif Require Import PyBase PyFacts Regex RegexFacts M_Utils M_Kernel M_Build S_Build.
Import ListNotations.
Open Scope Z_scope.
Open Scope list_scope.

(** * Search finds the first place *)

Lemma search_from_first r p rs i x : search_from r p rs i = Some x ->
  exists a b, rs = a ++ b /\ re_match_at r (adv (St p rs i) a) = Some x /\
    forall a1 a2, a = a1 ++ a2 -> a2 <> [] -> ~ can r (adv (St p rs i) a1).
Proof.
  revert p i; induction rs as [|c rs IH]; intros p i H; cbn [search_from] in H.
  - destruct (re_match_at r (St p [] i)) as [y|] eqn:E; [|discriminate]. injection H as ->.
    exists [], []. split; [reflexivity|]. split; [exact E|]. intros a1 a2 Ea Hne. symmetry in Ea. apply app_eq_nil in Ea as [_ ->]. congruence.
  - destruct (re_match_at r (St p (c :: rs) i)) as [y|] eqn:E.
    + injection H as ->. exists [], (c :: rs). split; [reflexivity|]. split; [exact E|].
      intros a1 a2 Ea Hne. symmetry in Ea. apply app_eq_nil in Ea as [_ ->]. congruence.
    + apply IH in H as (a & b & -> & E1 & E2). exists (c :: a), b. split; [reflexivity|]. split; [exact E1|].
      intros a1 a2 Ea Hne. destruct a1 as [|c' a1].
      * cbn [adv]. intros Hc. apply re_match_at_can in Hc. congruence.
      * cbn in Ea. injection Ea as <- Ea. cbn [adv rest prev pos]. apply (E2 a1 a2 Ea Hne).
Qed.

Lemma at_mbol_iff s a : at_mbol (adv (start s) a) = true <-> line_start a.
Proof.
  unfold at_mbol, line_start. destruct a as [|c a]; [cbn; tauto|].
  destruct (exists_last (l := c :: a)) as (a' & d & E); [discriminate|]. rewrite E, adv_prev.
  rewrite ascii_eqb_eq. split.
  - intros <-. right. now exists a'.
  - intros [H|[p H]]; [destruct a'; discriminate H|]. apply app_inj_tail in H as [_ ->]. reflexivity.
Qed.

Lemma start_rest s a b : s = a ++ b -> rest (adv (start s) a) = b.
Proof. intros ->. now apply adv_rest. Qed.

Ltac rmc_seq H :=
  cbn [RSeq] in H;
  repeat lazymatch type of H with
  | rmc (RCat _ _) _ _ _ _ => let s := fresh "s" in let cs := fresh "cs" in let H1 := fresh "Hm" in
      apply rmc_cat_inv in H as (s & cs & H1 & H)
  end.

(** What a match tells. *)
Lemma opt_sound s a b s' cs : s = a ++ b -> rmc opt_re (adv (start s) a) [] s' cs ->
  exists w1 w2 post, flag_after s a w1 w2 post /\ cap 1 cs = Some (len a + 13 + len w1 + 2 + len w2 + 2, ["2"%char]).
Proof.
  intros E H. pose proof (start_rest s a b E) as R. pose proof (adv_pos (start s) a) as Hpos.
  pose proof (proj1 (at_mbol_iff s a)) as Hl. cbn [pos start] in Hpos.
  set (s0 := adv (start s) a) in *. clearbody s0.
  unfold opt_re in H. rmc_seq H.
  apply rmc_mbol_inv in Hm as (-> & -> & Hb). apply Hl in Hb.
  apply rmc_lit_inv in Hm0 as (r1 & E1 & -> & ->). rewrite R in E1. 
  pose proof (adv_rest s0 _ r1 (eq_trans R E1)) as R1.
  apply rmc_star_inv in Hm1 as (w1 & r2 & E2 & F1 & -> & ->). rewrite R1 in E2.
  pose proof (adv_rest _ _ r2 (eq_trans R1 E2)) as R2.
  apply rmc_lit_inv in Hm2 as (r3 & E3 & -> & ->). rewrite R2 in E3.
  pose proof (adv_rest _ _ r3 (eq_trans R2 E3)) as R3.
  apply rmc_star_inv in Hm3 as (w2 & r4 & E4 & F2 & -> & ->). rewrite R3 in E4.
  pose proof (adv_rest _ _ r4 (eq_trans R3 E4)) as R4.
  apply rmc_lit_inv in Hm4 as (r5 & E5 & -> & ->). rewrite R4 in E5.
  pose proof (adv_rest _ _ r5 (eq_trans R4 E5)) as R5.
  apply rmc_grp_inv in Hm5 as (cs1 & t & r6 & Hg & E6 & -> & ->). rewrite R5 in E6.
  apply rmc_chr_inv in Hg as (r7 & E7 & Ea & ->). rewrite R5 in E7.
  assert (t = ["2"%char]) as -> by (eapply adv_inj; [rewrite R5; exact E6|rewrite R5; exact E7|exact Ea]).
  pose proof (adv_rest _ ["2"%char] r6 (eq_trans R5 E6)) as R6.
  apply rmc_chr_inv in Hm6 as (r8 & E8 & -> & ->). rewrite R6 in E8.
  apply rmc_eps_inv in H as [-> ->].
  exists w1, w2, r8. split.
  - split; [|split; [exact Hb|split; [exact F1|exact F2]]].
    rewrite E, E1, E2, E3, E4, E5, E6, E8. reflexivity.
  - cbn [cap Nat.eqb]. rewrite !adv_pos, Hpos.
    change (len $"KBUILD_CFLAGS") with 13. change (len $"+=") with 2. change (len $"-O") with 2. f_equal; f_equal; lia.
Qed.

Lemma opt_complete s a b w1 w2 post : s = a ++ b -> flag_after s a w1 w2 post -> can opt_re (adv (start s) a).
Proof.
  intros E (F & Hl & B1 & B2). pose proof (start_rest s a b E) as R. apply (at_mbol_iff s a) in Hl.
  assert (b = $"KBUILD_CFLAGS" ++ w1 ++ $"+=" ++ w2 ++ $"-O" ++ "2"%char :: NL :: post) as Eb.
  { rewrite E in F. apply app_inv_head in F. exact F. }
  unfold opt_re. cbn [RSeq].
  assert (can (RCat (RLit $"KBUILD_CFLAGS") (RCat (RStar c_s) (RCat (RLit $"+=") (RCat (RStar c_s) (RCat (RLit $"-O")
    (RCat (RGrp 1 (RChr "2"%char)) (RCat (RChr NL) REps))))))) (adv (start s) a)) as [s' H].
  { eapply can_lit; [rewrite R; exact Eb|intros R1].
    eapply can_star; [exact R1|exact B1|intros R2].
    eapply can_lit; [exact R2|intros R3].
    eapply can_star; [exact R3|exact B2|intros R4].
    eapply can_lit; [exact R4|intros R5].
    destruct (can_cls (Ascii.eqb "2") (RCat (RChr NL) REps) _ "2"%char _ R5) as [s' H].
    - reflexivity.
    - intros R6. eapply can_cls; [exact R6|reflexivity|intros R7]. apply can_eps.
    - exists s'. apply rm_cat_inv in H as (s1 & H1 & H2). apply rm_cat_inv. exists s1. split; [|exact H2].
      apply rm_grp_inv. exact H1. }
  exists s'. apply rm_cat_inv. exists (adv (start s) a). split; [apply rm_mbol_inv; auto|exact H].
Qed.

(** Two readings of one place agree. *)
Lemma blank_split w1 w1' c c' t t' : blank w1 -> blank w1' -> is_space c = false -> is_space c' = false ->
  w1 ++ c :: t = w1' ++ c' :: t' -> w1 = w1' /\ c :: t = c' :: t'.
Proof.
  unfold blank. revert w1'; induction w1 as [|x w IH]; intros [|y w'] B B' Hc Hc' E; cbn in *.
  - auto.
  - injection E as <- _. rewrite Hc in B'. discriminate.
  - injection E as -> _. rewrite Hc' in B. discriminate.
  - injection E as <- E. apply andb_true_iff in B as [_ B]. apply andb_true_iff in B' as [_ B'].
    destruct (IH w' B B' Hc Hc' E) as [-> E2]. auto.
Qed.
Lemma flag_unique s a w1 w2 post w1' w2' post' :
  flag_after s a w1 w2 post -> flag_after s a w1' w2' post' -> w1 = w1' /\ w2 = w2' /\ post = post'.
Proof.
  intros (E & _ & B1 & B2) (E' & _ & B1' & B2'). rewrite E in E'. apply app_inv_head in E'. apply app_inv_head in E'.
  apply blank_split in E' as [-> E']; auto. split; [reflexivity|].
  apply (app_inv_head $"+=") in E'.
  apply blank_split in E' as [-> E']; auto. split; [reflexivity|]. now injection E'.
Qed.

(** * C66 *)

Lemma level_patched data lvl new : set_level data lvl = Some new -> patched data lvl new.
Proof.
  unfold set_level. destruct (re_search opt_re data) as [x|] eqn:E; [|discriminate].
  unfold re_search in E. apply search_from_first in E as (a & b & Ed & Em & Hf).
  change (St None data 0) with (start data) in *.
  apply re_match_at_sound in Em as (s' & cs & Hr & ->).
  destruct (opt_sound data a b s' cs Ed Hr) as (w1 & w2 & post & F & C).
  unfold span. cbn [snd]. rewrite C. intros H. injection H as <-.
  exists a, w1, w2, post. split; [exact F|]. split.
  - intros pre' w1' w2' post' F'. destruct (Z.le_gt_cases (len a) (len pre')) as [L|L]; [exact L|]. exfalso.
    assert (exists a2, a = pre' ++ a2 /\ a2 <> []) as (a2 & Ea & Hne).
    { destruct F' as (F' & _). rewrite Ed in F'.
      exists (skipn (List.length pre') a). split.
      - rewrite <- (firstn_skipn (List.length pre') a) at 1. f_equal.
        apply (f_equal (firstn (List.length pre'))) in F'. rewrite firstn_app in F'.
        unfold len in L. replace (List.length pre' - List.length a)%nat with O in F' by lia. cbn [firstn] in F'.
        rewrite app_nil_r in F'. rewrite F'. rewrite <- (Nat.add_0_r (List.length pre')), firstn_app_2. cbn. apply app_nil_r.
      - intros X. apply (f_equal (@List.length ascii)) in X. rewrite skipn_length in X. cbn in X. unfold len in L. lia. }
    apply (Hf pre' a2 Ea Hne). eapply (opt_complete data pre' (a2 ++ b)); [rewrite Ed, Ea; now rewrite app_assoc|exact F'].
  - destruct F as (F & _). rewrite F.
    set (p := a ++ $"KBUILD_CFLAGS" ++ w1 ++ $"+=" ++ w2 ++ $"-O").
    assert (len p = len a + 13 + len w1 + 2 + len w2 + 2) as Lp.
    { unfold p. rewrite !len_app. change (len $"KBUILD_CFLAGS") with 13. change (len $"+=") with 2. change (len $"-O") with 2. lia. }
    assert (a ++ $"KBUILD_CFLAGS" ++ w1 ++ $"+=" ++ w2 ++ $"-O2" ++ NL :: post = p ++ "2"%char :: NL :: post) as ->.
    { unfold p. rewrite <- !app_assoc. reflexivity. }
    rewrite <- Lp. rewrite slice_to_app.
    assert (slice_from (p ++ "2"%char :: NL :: post) (len p + len ["2"%char]) = NL :: post) as ->.
    { rewrite <- len_app. change (p ++ "2"%char :: NL :: post) with (p ++ ["2"%char] ++ NL :: post). rewrite app_assoc. apply slice_from_app. }
    unfold p. rewrite <- !app_assoc. reflexivity.
Qed.

Lemma patched_unique data lvl new new' : patched data lvl new -> patched data lvl new' -> new = new'.
Proof.
  intros (pre & w1 & w2 & post & F & M & ->) (pre' & w1' & w2' & post' & F' & M' & ->).
  assert (pre = pre') as <-.
  { pose proof (M _ _ _ _ F'). pose proof (M' _ _ _ _ F). destruct F as (E & _), F' as (E' & _). rewrite E in E'.
    apply app_len_inj in E' as [E' _]; [exact E'|lia]. }
  destruct (flag_unique _ _ _ _ _ _ _ _ F F') as (-> & -> & ->). reflexivity.
Qed.

Lemma level_none data lvl : set_level data lvl = None <-> ~ has_flag data.
Proof.
  assert (re_search opt_re data = None <-> ~ has_flag data) as G.
  { rewrite re_search_None. split.
    - intros H (pre & w1 & w2 & post & F). destruct F as (E & F'). apply (H pre _ E).
      eapply opt_complete; [exact E|split; [exact E|exact F']].
    - intros H a b E C. apply H. apply re_match_at_can in C. destruct (re_match_at opt_re (adv (start data) a)) as [x|] eqn:Ex; [|congruence].
      apply re_match_at_sound in Ex as (s' & cs & Hr & _). destruct (opt_sound data a b s' cs E Hr) as (w1 & w2 & post & F & _).
      exists a, w1, w2, post. exact F. }
  rewrite <- G. unfold set_level. destruct (re_search opt_re data) as [x|] eqn:E; [|tauto].
  split; [|discriminate]. intros H. exfalso.
  unfold re_search in E. apply search_from_sound in E as (a & b & Ed & Em). change (St None data 0) with (start data) in *.
  apply re_match_at_sound in Em as (s' & cs & Hr & ->). destruct (opt_sound data a b s' cs Ed Hr) as (w1 & w2 & post & F & C).
  unfold span in H. cbn [snd] in H. rewrite C in H. discriminate.
Qed.

Lemma level_iff data lvl new : set_level data lvl = Some new <-> patched data lvl new.
Proof.
  split; [apply level_patched|]. intros P. destruct (set_level data lvl) as [new'|] eqn:E.
  - f_equal. apply (patched_unique data lvl); [now apply level_patched|exact P].
  - apply level_none in E. exfalso. apply E. destruct P as (pre & w1 & w2 & post & F & _). exists pre, w1, w2, post. exact F.
Qed.

Lemma has_flag_level data lvl : has_flag data -> exists new, set_level data lvl = Some new.
Proof.
  intros H. destruct (set_level data lvl) as [new|] eqn:E; [eauto|]. apply level_none in E. contradiction.
Qed.

Lemma universal_plain s : plain_text s -> universal s = s.
Proof.
  unfold plain_text. induction s as [|c s IH]; intros H; [reflexivity|]. cbn [universal]. cbn [In] in H.
  destruct (Ascii.eqb c CR) eqn:E; [apply ascii_eqb_eq in E; subst; exfalso; apply H; auto|]. f_equal. apply IH. tauto.
Qed.

(** The levels 0 and 1 change the file. *)
Lemma patched_differs data lvl new : patched data lvl new -> lvl = 0 \/ lvl = 1 -> new <> data /\ new <> [].
Proof.
  intros (pre & w1 & w2 & post & (E & _) & _ & ->) Hl. split.
  - rewrite E. intros X. do 1 apply app_inv_head in X. apply (app_inv_head $"KBUILD_CFLAGS") in X. apply app_inv_head in X.
    apply (app_inv_head $"+=") in X. apply app_inv_head in X. destruct Hl as [-> | ->]; discriminate X.
  - destruct pre; discriminate.
Qed.

(** * C65, C67 *)

Section Build.
  Context (make : nat -> option Z).

  Lemma build_plain mk : run_build make false mk None =
    Result (BState mk None false) [mk] (Some (bind (ensure_command (match make O with Some z => Some (z, []) | None => None end)) (fun _ => Ok tt))).
  Proof. reflexivity. Qed.

  Context (mk p0 p1 : str).
  Hypothesis Hp : plain_text mk.
  Hypothesis H0 : set_level mk 0 = Some p0.
  Hypothesis H1 : set_level mk 1 = Some p1.

  Lemma mk_cons : exists c t, mk = c :: t.
  Proof.
    apply level_patched in H0. destruct H0 as (pre & w1 & w2 & post & (E & _) & _). destruct mk as [|c t]; [|eauto].
    destruct pre; discriminate E.
  Qed.
  Lemma d0 : p0 <> mk.
  Proof. apply level_patched in H0. exact (proj1 (patched_differs _ _ _ H0 (or_introl eq_refl))). Qed.
  Lemma d1 : p1 <> mk.
  Proof. apply level_patched in H1. exact (proj1 (patched_differs _ _ _ H1 (or_intror eq_refl))). Qed.

  Lemma build_opt :
    run_build make true mk None =
      (if run_command (make 0%nat) =? 0 then Result (BState mk (Some mk) false) [p0] (Some (Ok tt))
       else if run_command (make 1%nat) =? 0 then Result (BState mk (Some mk) false) [p0; p1] (Some (Ok tt))
       else Result (BState mk (Some mk) false) [p0; p1; mk]
              (Some (bind (ensure_command (match make 2%nat with Some z => Some (z, []) | None => None end)) (fun _ => Ok tt)))).
  Proof.
    destruct mk_cons as (c & t & E). unfold run_build, build, try_set_level. cbn -[set_level universal run_command Z.eqb].
    rewrite (universal_plain mk Hp), H0. cbn -[set_level universal run_command Z.eqb]. rewrite E at 1.
    destruct (run_command (make 0%nat) =? 0); cbn -[set_level universal run_command Z.eqb]; [now rewrite E|].
    rewrite <- E, (universal_plain mk Hp), H1. cbn -[set_level universal run_command Z.eqb]. rewrite E at 1.
    destruct (run_command (make 1%nat) =? 0); cbn -[set_level universal run_command Z.eqb]; now rewrite E.
  Qed.
End Build.

Ltac bstep := cbn -[set_level universal run_command Z.eqb].

(** Interrupted before step [n]. *)
Lemma build_interrupted make mk p0 p1 n : plain_text mk -> set_level mk 0 = Some p0 -> set_level mk 1 = Some p1 ->
  (after_exit (r_state (run_build make true mk (Some n))) = mk <->
   ~ (n = 3%nat \/ (run_command (make 0%nat) <> 0 /\ (12 <= n <= 15)%nat))).
Proof.
  intros Hp H0 H1. assert (exists c t, mk = c :: t) as (c & t & E) by (eapply mk_cons; eassumption). assert (p0 <> mk) as D0 by (eapply d0; eassumption). assert (p1 <> mk) as D1 by (eapply d1; eassumption).
  assert (universal mk = mk) as U by now apply universal_plain.
  assert (forall x : str, (x = mk <-> ~ (n = 3%nat \/ (run_command (make 0%nat) <> 0 /\ (12 <= n <= 15)%nat))) ->
    after_exit (r_state (run_build make true mk (Some n))) = x ->
    after_exit (r_state (run_build make true mk (Some n))) = mk <->
    ~ (n = 3%nat \/ (run_command (make 0%nat) <> 0 /\ (12 <= n <= 15)%nat))) as G by (intros x G ->; exact G).
  assert (forall k, ~ (k = 3%nat \/ (run_command (make 0%nat) <> 0 /\ (12 <= k <= 15)%nat)) ->
    n = k -> (mk = mk <-> ~ (n = 3%nat \/ (run_command (make 0%nat) <> 0 /\ (12 <= n <= 15)%nat)))) as Good by (intros; subst; tauto).
  assert (forall k x, (k = 3%nat \/ (run_command (make 0%nat) <> 0 /\ (12 <= k <= 15)%nat)) -> x <> mk ->
    n = k -> (x = mk <-> ~ (n = 3%nat \/ (run_command (make 0%nat) <> 0 /\ (12 <= n <= 15)%nat)))) as Bad by (intros; subst; tauto).
  subst mk.
  Ltac run U H0 := unfold run_build, build, try_set_level, after_exit; bstep; rewrite ?U, ?H0; bstep.
  do 2 (destruct n as [|n]; [eapply G; [eapply Good; [|reflexivity]; lia|reflexivity]|]).
  destruct n as [|n]; [eapply G; [eapply Good; [|reflexivity]; lia|run U H0; reflexivity]|].
  destruct n as [|n]; [eapply G; [eapply Bad; [|exact D0|reflexivity]; lia|run U H0; reflexivity]|].
  do 5 (destruct n as [|n]; [eapply G; [eapply Good; [|reflexivity]; lia|run U H0; reflexivity]|]).
  destruct (Z.eqb_spec (run_command (make 0%nat)) 0) as [R0|R0].
  - eapply G; [eapply Good; [|reflexivity]; lia|]. run U H0. apply Z.eqb_eq in R0. rewrite R0.
    destruct n; reflexivity.
  - assert ((run_command (make 0%nat) =? 0) = false) as Rb by now apply Z.eqb_neq.
    Ltac run2 U H0 H1 Rb := run U H0; rewrite Rb; bstep; rewrite ?U, ?H1; bstep.
    do 3 (destruct n as [|n]; [eapply G; [eapply Good; [|reflexivity]; lia|run2 U H0 H1 Rb; reflexivity]|]).
    do 3 (destruct n as [|n]; [eapply G; [eapply Bad; [|exact D1|reflexivity]; lia|run2 U H0 H1 Rb; reflexivity]|]).
    destruct n as [|n]; [eapply G; [eapply (Bad _ []); [|discriminate|reflexivity]; lia|run2 U H0 H1 Rb; reflexivity]|].
    eapply G; [eapply Good; [|reflexivity]; lia|]. run2 U H0 H1 Rb.
    destruct n as [|n]; [reflexivity|]. bstep.
    destruct (run_command (make 1%nat) =? 0); [destruct n; reflexivity|].
    destruct n as [|n]; [reflexivity|]. destruct n; reflexivity.
Qed.

(** A Makefile without the flag is left alone. *)
Lemma build_no_flag make mk : ~ has_flag (universal mk) -> forall o n,
  after_exit (r_state (run_build make o mk n)) = mk /\
  (n = None -> run_build make o mk n = Result (if o then BState mk (Some (universal mk)) false else BState mk None false) [mk]
     (Some (bind (ensure_command (match make O with Some z => Some (z, []) | None => None end)) (fun _ => Ok tt)))).
Proof.
  intros H o n. apply (level_none _ 0) in H. unfold run_build, build, try_set_level, after_exit.
  destruct o; cbn -[set_level universal].
  - destruct n as [n|].
    + split; [|discriminate]. destruct n as [|[|n]]; [reflexivity|reflexivity|]. rewrite H. 
      destruct n as [|[|n]]; reflexivity.
    + rewrite H. split; reflexivity.
  - destruct n as [[|[|n]]|]; split; try discriminate; reflexivity.
Qed.

(** Carriage returns are lost. *)
Lemma build_newlines make mk : has_flag (universal mk) ->
  b_file (r_state (run_build make true mk None)) = universal mk.
Proof.
  intros H. destruct (has_flag_level _ 0 H) as [p0 H0]. destruct (has_flag_level _ 1 H) as [p1 H1].
  assert (plain_text (universal mk)) as P.
  { unfold plain_text. clear. assert (forall n s, (List.length s <= n)%nat -> ~ In CR (universal s)) as G; [|exact (G _ mk (le_n _))].
    induction n as [|n IH]; intros [|c s] L; cbn [List.length] in L; try lia; try (intros []).
    cbn [universal]. destruct (Ascii.eqb c CR) eqn:E.
    - destruct s as [|d s]; [intros [X|[]]; discriminate X|]. cbn [List.length] in L.
      destruct (Ascii.eqb d NL); (intros [X|X]; [discriminate X|]).
      + apply (IH s); [lia|exact X].
      + apply (IH (d :: s)); [cbn; lia|exact X].
    - intros [X|X]; [subst c; discriminate E|]. apply (IH s); [lia|exact X]. }
  assert (exists c t, universal mk = c :: t) as (c & t & E) by (eapply mk_cons; eassumption).
  assert (universal (universal mk) = universal mk) as U by now apply universal_plain.
  unfold run_build, build, try_set_level. cbn -[set_level universal run_command Z.eqb].
  rewrite H0. cbn -[set_level universal run_command Z.eqb]. rewrite E at 1.
  destruct (run_command (make 0%nat) =? 0); cbn -[set_level universal run_command Z.eqb]; [now rewrite E|].
  rewrite <- E, U, H1. cbn -[set_level universal run_command Z.eqb]. rewrite E at 1.
  destruct (run_command (make 1%nat) =? 0); cbn -[set_level universal run_command Z.eqb]; now rewrite E.
Qed.

(** * C68 *)

Lemma first_success_app vm l m : first_success vm (l ++ [m]) =
  match first_success vm l with Some v => Some v | None => match fresh vm m with Ok v => Some v | _ => None end end.
Proof.
  induction l as [|x l IH]; cbn; [destruct (fresh vm m); reflexivity|]. destruct (fresh vm x); auto.
Qed.

Lemma get_fresh vm m s : vs_version s = None ->
  fst (get_version vm m s) = fresh vm m /\
  vs_version (snd (get_version vm m s)) = match fresh vm m with Ok v => Some v | _ => None end.
Proof.
  intros E. unfold get_version, fresh. rewrite E.
  destruct vm as [[[v|]| | |]|]; try (split; cbn; congruence); destruct m as [[[v|]| | |]|]; split; cbn; congruence.
Qed.
Lemma get_stored vm m s v : vs_version s = Some v -> get_version vm m s = (Ok v, s).
Proof. intros E. unfold get_version. now rewrite E. Qed.

Lemma stored_version vm h : vs_version (vops_run vm h) = first_success vm (reads_since (rev h)).
Proof.
  unfold vops_run. rewrite <- (rev_involutive h) at 1. induction (rev h) as [|[o m] l IH]; [reflexivity|].
  cbn [rev]. rewrite fold_left_app. cbn [fold_left]. unfold vop_step. cbn [fst snd].
  set (s := fold_left _ _ _) in *. destruct o; cbn [reads_since].
  - rewrite first_success_app, <- IH. destruct (vs_version s) as [v|] eqn:E.
    + now rewrite (get_stored vm m s v E).
    + exact (proj2 (get_fresh vm m s E)).
  - reflexivity.
  - cbn [first_success]. rewrite (proj2 (get_fresh vm m (reset s) eq_refl)). destruct (fresh vm m); reflexivity.
  - reflexivity.
Qed.

Lemma version_read vm h m : fst (get_version vm m (vops_run vm h)) =
  match first_success vm (reads_since (rev h)) with Some v => Ok v | None => fresh vm m end.
Proof.
  rewrite <- stored_version. destruct (vs_version (vops_run vm h)) as [v|] eqn:E.
  - now rewrite (get_stored vm m _ v E).
  - exact (proj1 (get_fresh vm m _ E)).
Qed.

Lemma version_after_reset vm h o m m' : o = VClean \/ o = VBuild ->
  fst (get_version vm m (vops_run vm (h ++ [(o, m')]))) = fresh vm m.
Proof.
  intros Ho. rewrite version_read, rev_app_distr. cbn [rev app]. destruct Ho as [-> | ->]; reflexivity.
Qed.

Lemma version_vmlinux r h h' m m' : map fst h = map fst h' ->
  fst (get_version (Some r) m (vops_run (Some r) h)) = fst (get_version (Some r) m' (vops_run (Some r) h')).
Proof.
  intros E. assert (forall x, fresh (Some r) x = fresh (Some r) None) as F by (intros; reflexivity).
  rewrite !version_read. rewrite (F m), (F m').
  assert (forall l, first_success (Some r) l = match l with [] => None | _ => match fresh (Some r) None with Ok v => Some v | _ => None end end) as G.
  { induction l as [|x l IH]; [reflexivity|]. cbn [first_success]. rewrite (F x), IH. destruct (fresh (Some r) None), l; reflexivity. }
  rewrite !G. assert (reads_since (rev h) = [] <-> reads_since (rev h') = []) as R.
  { assert (map fst (rev h) = map fst (rev h')) as E' by (rewrite !map_rev; congruence). clear -E'. revert E'. generalize (rev h') as q.
    induction (rev h) as [|[o x] p IH]; intros [|[o' x'] q] E; try discriminate; [tauto|]. cbn in E. injection E as <- E.
    destruct o; cbn; try tauto; split; intros X; try discriminate; apply app_eq_nil in X as [_ X]; discriminate. }
  destruct (reads_since (rev h)), (reads_since (rev h')); try reflexivity; exfalso; destruct R as [R1 R2].
  - discriminate (R1 eq_refl).
  - discriminate (R2 eq_refl).
Qed.

(** * C67 *)

Lemma rc0 r : (run_command r =? 0) = match r with Some 0 => true | _ => false end.
Proof. destruct r as [[|p|p]|]; reflexivity. Qed.

Lemma build_attempts make mk p0 p1 : plain_text mk -> patched mk 0 p0 -> patched mk 1 p1 ->
  let r := run_build make true mk None in
  r_makes r = attempts make 0 [p0; p1; mk] /\ b_file (r_state r) = mk /\
  (r_end r = Some (Ok tt) /\ last_ok make (List.length (r_makes r)) \/
   (exists c, r_end r = Some (Exit c) /\ c <> 0) /\ ~ last_ok make (List.length (r_makes r))).
Proof.
  intros Hp H0 H1. apply level_iff in H0. apply level_iff in H1. cbv zeta.
  rewrite (build_opt make mk p0 p1 Hp H0 H1), !rc0. unfold last_ok.
  destruct (make 0%nat) as [[|a|a]|] eqn:E0; cbn; rewrite ?E0;
    [repeat split; now left|..];
  (destruct (make 1%nat) as [[|b|b]|] eqn:E1; cbn; rewrite ?E1;
    [repeat split; now left|..]);
  (destruct (make 2%nat) as [[|d|d]|] eqn:E2; cbn; rewrite ?E2; repeat split;
    first [now left|right; split; [eexists; split; [reflexivity|discriminate]|discriminate]]).
Qed.

Lemma build_once make mk o : o = false \/ ~ has_flag (universal mk) ->
  let r := run_build make o mk None in
  r_makes r = [mk] /\ b_file (r_state r) = mk /\
  (r_end r = Some (Ok tt) /\ last_ok make 1 \/ (exists c, r_end r = Some (Exit c) /\ c <> 0) /\ ~ last_ok make 1).
Proof.
  intros H. assert (exists s, run_build make o mk None = Result s [mk]
     (Some (bind (ensure_command (match make O with Some z => Some (z, []) | None => None end)) (fun _ => Ok tt))) /\ b_file s = mk) as (s & E & F).
  { destruct H as [-> |H]; [eexists; split; reflexivity|]. destruct (build_no_flag make mk H o None) as [_ X].
    specialize (X eq_refl). eexists. split; [exact X|]. destruct o; reflexivity. }
  cbv zeta. rewrite E. cbn [r_makes r_state r_end]. repeat split; [exact F|]. unfold last_ok. cbn [Nat.pred].
  destruct (make 0%nat) as [[|a|a]|]; cbn; first [now left|right; split; [eexists; split; [reflexivity|discriminate]|discriminate]].
Qed.

Lemma build_restored make mk : plain_text mk -> forall o, b_file (r_state (run_build make o mk None)) = mk.
Proof.
  intros Hp o. destruct o; [|reflexivity].
  assert (has_flag mk \/ ~ has_flag mk) as [H|H].
  { destruct (set_level mk 0) as [p|] eqn:E.
    - left. apply level_iff in E. destruct E as (a & b & c & d & X & _). now exists a, b, c, d.
    - right. now apply (level_none mk 0). }
  - rewrite build_newlines; rewrite universal_plain by assumption; auto.
  - pose proof (build_once make mk true) as X. rewrite universal_plain in X by assumption. exact (proj1 (proj2 (X (or_intror H)))).
Qed.
Lemma build_interrupted' make mk n : plain_text mk ->
  (after_exit (r_state (run_build make true mk (Some n))) = mk <->
   ~ (has_flag mk /\ (n = 3%nat \/ (make 0%nat <> Some 0 /\ (12 <= n <= 15)%nat)))).
Proof.
  intros Hp. destruct (set_level mk 0) as [p0|] eqn:E.
  - assert (has_flag mk) as F. { pose proof (proj1 (level_iff _ _ _) E) as (a & b & c & d & X & _). now exists a, b, c, d. }
    destruct (has_flag_level mk 1 F) as [p1 E1]. rewrite (build_interrupted make mk p0 p1 n Hp E E1).
    assert (run_command (make 0%nat) <> 0 <-> make 0%nat <> Some 0) as -> ; [|tauto].
    destruct (make 0%nat) as [z|]; cbn; [|split; discriminate]. split; intros X; congruence.
  - apply (level_none mk 0) in E. pose proof (build_no_flag make mk) as X. rewrite universal_plain in X by assumption.
    pose proof (proj1 (X E true (Some n))). tauto.
Qed.
Lemma build_interrupted_plain make mk n : after_exit (r_state (run_build make false mk (Some n))) = mk.
Proof. destruct n as [|[|n]]; reflexivity. Qed.
Lemma no_flag_build make mk : ~ has_flag (universal mk) ->
  (forall n, after_exit (r_state (run_build make true mk n)) = mk) /\
  r_makes (run_build make true mk None) = r_makes (run_build make false mk None) /\
  r_end (run_build make true mk None) = r_end (run_build make false mk None).
Proof.
  intros H. split; [intros n; exact (proj1 (build_no_flag make mk H true n))|].
  rewrite (proj2 (build_no_flag make mk H true None) eq_refl). split; reflexivity.
Qed.
Lemma flag_levels mk : has_flag mk -> exists p0 p1, patched mk 0 p0 /\ patched mk 1 p1.
Proof.
  intros H. destruct (has_flag_level mk 0 H) as [p0 H0]. destruct (has_flag_level mk 1 H) as [p1 H1].
  exists p0, p1. split; now apply level_iff.
Qed.
Lemma version_configure vm h m m' v : fresh vm m' = Ok v ->
  fst (get_version vm m (vops_run vm (h ++ [(VConfigure, m')]))) = Ok v.
Proof. intros H. rewrite version_read, rev_app_distr. cbn [rev app reads_since first_success]. now rewrite H. Qed.
