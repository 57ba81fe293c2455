(** What a regexp accepts, in terms of the text alone (previous character and rest). *)
From Coq Require Import List Bool Ascii String ZArith Lia.
From Verif Require Import PyBase PyFacts Regex RegexFacts.
Import ListNotations.
Open Scope Z_scope.
Open Scope list_scope.

Definition lastp (p : option ascii) (w : str) : option ascii := match rev w with c :: _ => Some c | [] => p end.
Definition isw (w : ascii -> bool) (o : option ascii) : bool := match o with Some c => w c | None => false end.
Definition hd_opt (t : str) : option ascii := match t with c :: _ => Some c | [] => None end.
Definition cont := option ascii -> str -> Prop.
Fixpoint den (r : re) (K : cont) : cont :=
  match r with
  | REps => K
  | RCls f => fun p t => exists c t', t = c :: t' /\ f c = true /\ K (Some c) t'
  | RCat a b => den a (den b K)
  | RAlt a b => fun p t => den a K p t \/ den b K p t
  | ROpt a => fun p t => K p t \/ den a K p t
  | RStar f => fun p t => exists w t', t = w ++ t' /\ forallb f w = true /\ K (lastp p w) t'
  | RGrp _ a => den a K
  | RBol => fun p t => p = None /\ K p t
  | RMBol => fun p t => (p = None \/ p = Some NL) /\ K p t
  | REol => fun p t => (t = [] \/ t = [NL]) /\ K p t
  | RWordB w => fun p t => xorb (isw w p) (isw w (hd_opt t)) = true /\ K p t
  end.

Lemma lastp_app p a b : lastp p (a ++ b) = lastp (lastp p a) b.
Proof. unfold lastp. rewrite rev_app_distr. destruct (rev b); reflexivity. Qed.
Lemma lastp_one p c : lastp p [c] = Some c.
Proof. reflexivity. Qed.
Lemma lastp_cons p c w : lastp p (c :: w) = lastp (Some c) w.
Proof. change (c :: w) with ([c] ++ w). now rewrite lastp_app. Qed.
Lemma adv_prev_lastp s a : prev (adv s a) = lastp (prev s) a.
Proof. revert s. induction a as [|c a IH]; intros s; [reflexivity|]. cbn [adv]. rewrite IH, lastp_cons. reflexivity. Qed.

Lemma den_mono r : forall (K L : cont) p t, (forall p t, K p t -> L p t) -> den r K p t -> den r L p t.
Proof.
  induction r; intros K L p t H D; cbn [den] in *; auto.
  - destruct D as (c & t' & E & F & X). exists c, t'. auto.
  - eapply IHr1; [|exact D]. intros p' t'. now apply IHr2.
  - destruct D; [left; eapply IHr1; eauto|right; eapply IHr2; eauto].
  - destruct D; [left; eauto|right; eapply IHr; eauto].
  - destruct D as (w & t' & E & F & X). exists w, t'. auto.
  - eapply IHr; eauto.
  - now destruct D; split; auto.
  - now destruct D; split; auto.
  - now destruct D; split; auto.
  - now destruct D; split; auto.
Qed.
Lemma den_rm r : forall (K : cont) s, den r K (prev s) (rest s) <-> exists s', rm r s s' /\ K (prev s') (rest s').
Proof.
  induction r; intros K s; cbn [den].
  - split; [intros H; exists s; split; [constructor|exact H]|]. intros (s' & H & X). apply rm_eps_inv in H. now subst.
  - split.
    + intros (c & t' & E & F & X). exists (adv s [c]). split; [apply rm_cls_inv; eauto|]. cbn. now rewrite E.
    + intros (s' & H & X). apply rm_cls_inv in H as (c & rs & E & F & ->). exists c, rs. cbn in X. rewrite E in X. auto.
  - split.
    + intros H. apply IHr1 in H as (s1 & H1 & H). apply IHr2 in H as (s2 & H2 & H). exists s2. split; [|exact H]. apply rm_cat_inv. eauto.
    + intros (s' & H & X). apply rm_cat_inv in H as (s1 & H1 & H2). apply IHr1. exists s1. split; [exact H1|]. apply IHr2. eauto.
  - rewrite IHr1, IHr2. split.
    + intros [(s' & H & X)|(s' & H & X)]; exists s'; (split; [apply rm_alt_inv; auto|exact X]).
    + intros (s' & H & X). apply rm_alt_inv in H as [H|H]; [left|right]; eauto.
  - rewrite IHr. split.
    + intros [H|(s' & H & X)]; [exists s|exists s']; (split; [apply rm_opt_inv; auto|assumption]).
    + intros (s' & H & X). apply rm_opt_inv in H as [->|H]; [left; exact X|right; eauto].
  - split.
    + intros (w & t' & E & F & X). exists (adv s w). split; [apply rm_star_inv; eauto|]. now rewrite adv_prev_lastp, (adv_rest s w t' E).
    + intros (s' & H & X). apply rm_star_inv in H as (a & b & E & F & ->). exists a, b. rewrite adv_prev_lastp, (adv_rest s a b E) in X. auto.
  - rewrite IHr. split; intros (s' & H & X); exists s'; (split; [|exact X]); [now apply rm_grp_inv|now apply rm_grp_inv in H].
  - split.
    + intros [E X]. exists s. split; [apply rm_bol_inv; split; [reflexivity|]; unfold at_bol; now rewrite E|exact X].
    + intros (s' & H & X). apply rm_bol_inv in H as [-> H]. split; [|exact X]. unfold at_bol in H. now destruct (prev s).
  - split.
    + intros [E X]. exists s. split; [apply rm_mbol_inv; split; [reflexivity|]|exact X]. unfold at_mbol. destruct E as [->| ->]; reflexivity.
    + intros (s' & H & X). apply rm_mbol_inv in H as [-> H]. split; [|exact X]. unfold at_mbol in H. destruct (prev s); [|auto].
      apply Ascii.eqb_eq in H. subst. auto.
  - split.
    + intros [E X]. exists s. split; [apply rm_eol_inv; split; [reflexivity|]|exact X]. unfold at_eol. destruct E as [->| ->]; reflexivity.
    + intros (s' & H & X). apply rm_eol_inv in H as [-> H]. split; [|exact X]. unfold at_eol in H. destruct (rest s) as [|c [|d r]]; [auto| |discriminate].
      apply Ascii.eqb_eq in H. subst. auto.
  - split.
    + intros [E X]. exists s. split; [apply rm_wordb_inv; split; [reflexivity|]|exact X]. unfold at_wordb. unfold isw, hd_opt in E. destruct (rest s); exact E.
    + intros (s' & H & X). apply rm_wordb_inv in H as [-> H]. split; [|exact X]. unfold at_wordb in H. unfold isw, hd_opt. destruct (rest s); exact H.
Qed.
Definition ktrue : cont := fun _ _ => True.
Lemma re_match_den r s : re_match r s <> None <-> den r ktrue None s.
Proof.
  rewrite re_match_iff. change (@None ascii) with (prev (start s)). change (den r ktrue (prev (start s)) s) with (den r ktrue (prev (start s)) (rest (start s))). rewrite den_rm. split; intros (s' & H); exists s'; [split; [exact H|exact I]|apply H].
Qed.
Lemma re_search_den r s : re_search r s <> None <-> exists a b, s = a ++ b /\ den r ktrue (lastp None a) b.
Proof.
  rewrite re_search_iff. split.
  - intros (a & b & s' & E & H). exists a, b. split; [exact E|].
    assert (rest (start s) = a ++ b) as R by exact E. rewrite <- (adv_rest (start s) a b R) at 1.
    change (@None ascii) with (prev (start s)). rewrite <- adv_prev_lastp, den_rm. exists s'. split; [exact H|exact I].
  - intros (a & b & E & H). assert (rest (start s) = a ++ b) as R by exact E. rewrite <- (adv_rest (start s) a b R) in H.
    change (@None ascii) with (prev (start s)) in H. rewrite <- adv_prev_lastp, den_rm in H. destruct H as (s' & H & _). exists a, b, s'. auto.
Qed.

Lemma den_lit l : forall (K : cont) p t, den (RLit l) K p t <-> exists t', t = l ++ t' /\ K (lastp p l) t'.
Proof.
  induction l as [|c l IH]; intros K p t; cbn [RLit den].
  - split; [intros H; exists t; auto|]. intros (t' & -> & H). exact H.
  - unfold RChr. cbn [den]. split.
    + intros (d & t' & -> & E & H). apply Ascii.eqb_eq in E. subst d. apply IH in H as (t2 & -> & H). exists t2. rewrite lastp_cons. auto.
    + intros (t' & -> & H). exists c, (l ++ t'). rewrite Ascii.eqb_refl. split; [reflexivity|]. split; [reflexivity|]. apply IH. exists t'.
      rewrite lastp_cons in H. auto.
Qed.
Lemma den_plus f (K : cont) p t : den (RPlus f) K p t <-> exists w t', t = w ++ t' /\ w <> [] /\ forallb f w = true /\ K (lastp p w) t'.
Proof.
  unfold RPlus. cbn [den]. split.
  - intros (c & t1 & -> & Fc & w & t' & -> & Fw & H). exists (c :: w), t'. split; [reflexivity|]. split; [discriminate|].
    split; [cbn; now rewrite Fc, Fw|]. now rewrite lastp_cons.
  - intros (w & t' & -> & N & F & H). destruct w as [|c w]; [contradiction|]. cbn in F. apply andb_true_iff in F as [Fc Fw].
    exists c, (w ++ t'). split; [reflexivity|]. split; [exact Fc|]. exists w, t'. rewrite lastp_cons in H. auto.
Qed.
Lemma den_seq_nil (K : cont) p t : den (RSeq []) K p t <-> K p t.
Proof. reflexivity. Qed.
Lemma den_seq_cons r l (K : cont) p t : den (RSeq (r :: l)) K p t <-> den r (den (RSeq l) K) p t.
Proof. reflexivity. Qed.
Lemma den_seq_app l m (K : cont) p t : den (RSeq (l ++ m)) K p t <-> den (RSeq l) (den (RSeq m) K) p t.
Proof.
  revert p t. induction l as [|r l IH]; intros p t; [reflexivity|]. cbn [app]. rewrite !den_seq_cons.
  split; apply den_mono; intros p' t'; apply IH.
Qed.
Lemma den_opt_lit l (K : cont) p t : den (ROpt (RLit l)) K p t <-> exists x t', (x = [] \/ x = l) /\ t = x ++ t' /\ K (lastp p x) t'.
Proof.
  cbn [den]. rewrite den_lit. split.
  - intros [H|(t' & -> & H)]; [exists [], t|exists l, t']; auto.
  - intros (x & t' & [->| ->] & -> & H); [left; exact H|right; eauto].
Qed.
