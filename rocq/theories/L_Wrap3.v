(** Lemmas about breaking lines: whole texts. *)
From Coq Require Import List Bool Ascii String ZArith Lia.
From Verif Require Import PyBase PyFacts S_Elf L_ElfText M_Wrap S_Wrap L_Wrap L_Wrap2.
Import ListNotations.
Open Scope Z_scope.
Open Scope list_scope.

Lemma row_not (l : str) c z : row l -> In c l -> In z [10; 11; 12; 13; 28; 29; 30; 133] -> code c <> z.
Proof. unfold row. rewrite Forall_forall. intros R I Z E. apply (R c I). unfold ends_row. now rewrite E. Qed.
Lemma code_tab c : code c = 9 -> c = chr 9.
Proof. destruct c as [[] [] [] [] [] [] [] []]; vm_compute; intros H; congruence. Qed.
Lemma expand_untabbed s : forall col, row s -> untabbed col s (expandtabs col s).
Proof.
  induction s as [|c s IH]; intros col R; [constructor|]. cbn [expandtabs]. pose proof (fun z => row_not (c :: s) c z R (or_introl eq_refl)) as N.
  assert (row s) as Rs by (inversion R; assumption). destruct (Z.eqb_spec (code c) 9) as [E|E].
  - rewrite (code_tab c E). pose proof (Z.mod_pos_bound col 8 ltac:(lia)). pose proof (Z.div_mod col 8 ltac:(lia)). constructor; [lia| |now apply IH]. exists (col / 8 + 1). lia.
  - pose proof (N 10 ltac:(cbn; tauto)) as N1. pose proof (N 13 ltac:(cbn; tauto)) as N2. apply Z.eqb_neq in N1 as N1', N2 as N2'. rewrite N1', N2'. cbn [orb]. constructor; auto.
Qed.
Lemma ink_app x y : ink (x ++ y) = ink x ++ ink y.
Proof. apply filter_app. Qed.
Lemma ink_blank x : all_blank x <-> ink x = [].
Proof.
  unfold all_blank, ink. induction x as [|c x IH]; cbn; [tauto|]. destruct (is_space c); cbn; [exact IH|]. split; discriminate.
Qed.
Lemma ink_expand s : forall col, ink (expandtabs col s) = ink s.
Proof.
  induction s as [|c s IH]; intros col; [reflexivity|]. cbn [expandtabs]. destruct (Z.eqb_spec (code c) 9) as [E|E].
  - rewrite ink_app, IH. assert (ink (repeat " "%char (Z.to_nat (8 - col mod 8))) = []) as -> by (induction (Z.to_nat _); [reflexivity|exact IHn]).
    rewrite (code_tab c E). reflexivity.
  - unfold ink in *. cbn [filter]. now rewrite IH.
Qed.
Lemma ink_laid u s ls : laid_out u s ls -> ink s = List.concat (map ink ls).
Proof.
  induction 1 as [u g B|u g l r ls B N K W G L IH]; cbn [map List.concat]; [now apply ink_blank|]. rewrite !ink_app, IH. apply ink_blank in B. now rewrite B.
Qed.
Lemma wrap_spec s : laid_out [] (expandtabs 0 s) (wrap s).
Proof.
  unfold wrap. destruct (chunks_ok (expandtabs 0 s)) as [C E]. rewrite <- E at 1. change (List.concat (chunks (expandtabs 0 s))) with ([] ++ List.concat (chunks (expandtabs 0 s))).
  apply wrap_laid; [lia|exact C|reflexivity|]. now left.
Qed.
Lemma splitlines_rows n : forall s, (List.length s <= n)%nat -> rows s (splitlines s).
Proof.
  induction n as [|n IH]; intros s L; (destruct s as [|c s]; [constructor|]); [cbn in L; lia|]. cbn in L. cbn [splitlines]. destruct (is_break c) eqn:B.
  - apply is_break_iff in B. destruct s as [|d s].
    + apply (rw_end [] c [] []); [constructor|exact B|discriminate|constructor].
    + destruct (Ascii.eqb c CR && Ascii.eqb d NL) eqn:E.
      * apply andb_prop in E as [E1 E2]. apply ascii_eqb_eq in E1, E2. subst. apply (rw_crnl [] s); [constructor|]. apply IH. cbn in L. lia.
      * apply (rw_end [] c (d :: s)); [constructor|exact B| |apply IH; lia]. intros -> [= ->]. discriminate.
  - assert (rows s (splitlines s)) as R by (apply IH; lia). assert (~ ends_row c) as Nc by (intros X; apply is_break_iff in X; congruence). clear IH L.
    inversion R as [E1 E2|l Nl Rl E1 E2|l e t ls Rl Ee Hc Rt E1 E2|l t ls Rl Rt E1 E2].
    + apply rw_last; [discriminate|]. constructor; [exact Nc|constructor].
    + apply rw_last; [discriminate|]. now constructor.
    + change (c :: l ++ e :: t) with ((c :: l) ++ e :: t). apply rw_end; auto. now constructor.
    + change (c :: l ++ CR :: NL :: t) with ((c :: l) ++ CR :: NL :: t). apply rw_crnl; auto. now constructor.
Qed.
Lemma rows_rows s ls : rows s ls -> Forall row ls.
Proof. induction 1; auto. Qed.
Lemma ink_rows s ls : rows s ls -> ink s = List.concat (map ink ls).
Proof.
  assert (forall c, ends_row c -> is_space c = true) as B.
  { intros c H. apply is_break_iff in H. revert H. destruct c as [[] [] [] [] [] [] [] []]; vm_compute; congruence. }
  induction 1 as [|l N R|l c t ls R E H Rt IH|l t ls R Rt IH]; cbn [map List.concat]; [reflexivity|now rewrite app_nil_r| |].
  - rewrite ink_app. f_equal. rewrite <- IH. unfold ink. cbn [filter]. now rewrite (B c E).
  - rewrite ink_app. f_equal. rewrite <- IH. reflexivity.
Qed.
Lemma strip_blank l : negb (str_eqb (strip l) []) = not_blank l.
Proof.
  unfold not_blank. f_equal. apply eq_true_iff_eq. exact (blank_iff l).
Qed.
Lemma join_join (lss : list (list str)) : Forall (fun ls => ls <> []) lss -> join [NL] (map (join [NL]) lss) = join [NL] (List.concat lss).
Proof.
  assert (forall a b, b <> [] -> a <> [] -> join [NL] (a ++ b) = join [NL] a ++ [NL] ++ join [NL] b) as J.
  { induction a as [|x a IH]; intros b Nb Na; [congruence|]. cbn [app]. destruct a as [|y a]; [cbn; destruct b; [congruence|reflexivity]|].
    change (join [NL] (x :: (y :: a) ++ b)) with (x ++ [NL] ++ join [NL] ((y :: a) ++ b)). rewrite IH by (auto || discriminate). change (join [NL] (x :: y :: a)) with (x ++ [NL] ++ join [NL] (y :: a)). now rewrite <- !app_assoc. }
  induction 1 as [|ls lss N F IH]; [reflexivity|]. cbn [map List.concat]. destruct lss as [|m lss]; [cbn; now rewrite app_nil_r|].
  rewrite J; [|inversion F; subst; cbn; destruct m; [congruence|discriminate]|exact N].
  change (join [NL] (join [NL] ls :: map (join [NL]) (m :: lss))) with (join [NL] ls ++ [NL] ++ join [NL] (map (join [NL]) (m :: lss))). now rewrite IH.
Qed.
Lemma wrap_ne s : not_blank s = true -> wrap s <> [].
Proof.
  intros H E. pose proof (ink_laid _ _ _ (wrap_spec s)) as L. rewrite E, ink_expand in L. apply ink_blank in L. unfold not_blank in H. rewrite L in H. discriminate.
Qed.
Lemma wrap_help_lines body : exists rs, rows body rs /\ wrap_help body = join [NL] (List.concat (map wrap (filter not_blank rs))).
Proof.
  exists (splitlines body). split; [now apply (splitlines_rows (List.length body))|]. unfold wrap_help.
  rewrite (filter_ext _ not_blank strip_blank). rewrite <- join_join.
  - now rewrite map_map.
  - apply Forall_map, Forall_forall. intros l I. apply filter_In in I as [_ I]. now apply wrap_ne.
Qed.
Lemma help_lines body : exists rs lss, rows body rs /\ Forall2 lines_for (filter not_blank rs) lss /\ Forall (fun ls => ls <> []) lss /\ wrap_help body = join [NL] (List.concat lss).
Proof.
  destruct (wrap_help_lines body) as (rs & R & E). exists rs, (map wrap (filter not_blank rs)). split; [exact R|]. apply rows_rows in R. split; [|split; [|exact E]].
  - assert (forall l, In l (filter not_blank rs) -> row l) as F by (intros l I; apply filter_In in I as [I _]; rewrite Forall_forall in R; auto).
    revert F. generalize (filter not_blank rs) as ls. induction ls as [|l ls IH]; intros F; constructor.
    + exists (expandtabs 0 l). split; [apply expand_untabbed, F; now left|apply wrap_spec].
    + apply IH. intros x I. apply F. now right.
  - apply Forall_map, Forall_forall. intros l I. apply filter_In in I as [_ I]. now apply wrap_ne.
Qed.
Lemma ink_join ls : ink (join [NL] ls) = List.concat (map ink ls).
Proof.
  induction ls as [|l ls IH]; [reflexivity|]. cbn [map List.concat]. destruct ls as [|m ls]; [cbn; now rewrite app_nil_r|].
  change (join [NL] (l :: m :: ls)) with (l ++ [NL] ++ join [NL] (m :: ls)). rewrite !ink_app, IH. reflexivity.
Qed.
Lemma help_kept body : ink (wrap_help body) = ink body.
Proof.
  destruct (wrap_help_lines body) as (rs & R & ->). rewrite ink_join, (ink_rows _ _ R). clear R. induction rs as [|l rs IH]; [reflexivity|]. cbn [filter map List.concat]. rewrite <- IH.
  destruct (not_blank l) eqn:B.
  - cbn [map List.concat]. rewrite map_app, concat_app. f_equal. rewrite <- (ink_laid _ _ _ (wrap_spec l)). apply ink_expand.
  - unfold not_blank in B. apply negb_false_iff in B. apply ink_blank in B. now rewrite B.
Qed.
Lemma laid_width u s ls : laid_out u s ls -> Forall (fun l => len l <= columns \/ forall x c y, l = x ++ c :: y -> x <> [] -> ~ ascii_blank c) ls.
Proof.
  induction 1 as [u g B|u g l r ls B N K W G L IH]; constructor; [|exact IH]. destruct W as [W|W]; [now left|]. right. intros x c y E X A. apply (W x (c :: y) E X ltac:(discriminate)). right. left. exists c, (y ++ r). auto.
Qed.
Lemma help_width body : exists ls, wrap_help body = join [NL] ls /\ Forall (fun l => len l <= columns \/ forall x c y, l = x ++ c :: y -> x <> [] -> ~ ascii_blank c) ls.
Proof.
  destruct (wrap_help_lines body) as (rs & R & E). eexists. split; [exact E|]. clear. induction (filter not_blank rs) as [|l ls IH]; [constructor|]. cbn [map List.concat]. apply Forall_app. split; [|exact IH].
  apply (laid_width _ _ _ (wrap_spec l)).
Qed.
