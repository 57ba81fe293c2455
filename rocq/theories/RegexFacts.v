(** Lemmas about the matcher of [Regex]: a declarative semantics (which spans can
    a pattern match), soundness and completeness of the matcher with respect to
    it, and rules to compute greedy matches. *)
From Coq Require Import List Bool Ascii String ZArith Lia.
From Verif Require Import PyBase PyFacts Regex.
Import ListNotations.
Open Scope Z_scope.
Open Scope list_scope.

(** Advance a state over a string. *)
Fixpoint adv (s : st) (a : str) : st :=
  match a with
  | [] => s
  | c :: a' => adv (St (Some c) (match rest s with _ :: r => r | [] => [] end) (pos s + 1)) a'
  end.

(** Declarative semantics: [r] can go from [s] to [s']. *)
Inductive rm : re -> st -> st -> Prop :=
| rm_eps s : rm REps s s
| rm_cls f c rs s : rest s = c :: rs -> f c = true ->
    rm (RCls f) s (St (Some c) rs (pos s + 1))
| rm_cat a b s s1 s2 : rm a s s1 -> rm b s1 s2 -> rm (RCat a b) s s2
| rm_alt_l a b s s' : rm a s s' -> rm (RAlt a b) s s'
| rm_alt_r a b s s' : rm b s s' -> rm (RAlt a b) s s'
| rm_opt_some a s s' : rm a s s' -> rm (ROpt a) s s'
| rm_opt_none a s : rm (ROpt a) s s
| rm_star_nil f s : rm (RStar f) s s
| rm_star_cons f c rs s s' : rest s = c :: rs -> f c = true ->
    rm (RStar f) (St (Some c) rs (pos s + 1)) s' -> rm (RStar f) s s'
| rm_grp n a s s' : rm a s s' -> rm (RGrp n a) s s'
| rm_bol s : at_bol s = true -> rm RBol s s
| rm_mbol s : at_mbol s = true -> rm RMBol s s
| rm_eol s : at_eol s = true -> rm REol s s
| rm_wordb w s : at_wordb w s = true -> rm (RWordB w) s s.

Lemma st_eta s : St (prev s) (rest s) (pos s) = s.
Proof. destruct s; reflexivity. Qed.

Lemma m_star_sound {R} f r p i (k : st -> option R) x :
  m_star f r p i k = Some x -> exists s', rm (RStar f) (St p r i) s' /\ k s' = Some x.
Proof.
  revert p i; induction r as [|c r IH]; intros p i H; cbn in H.
  - eexists. split; [apply rm_star_nil|exact H].
  - destruct (f c) eqn:E.
    + destruct (m_star f r (Some c) (i + 1) k) eqn:E2.
      * injection H as ->. apply IH in E2 as (s' & H1 & H2).
        exists s'. split; [|exact H2]. eapply rm_star_cons; [reflexivity|exact E|exact H1].
      * eexists. split; [apply rm_star_nil|exact H].
    + eexists. split; [apply rm_star_nil|exact H].
Qed.

Lemma m_sound {R} r : forall s cs (k : st -> caps -> option R) x,
  m r s cs k = Some x -> exists s' cs', rm r s s' /\ k s' cs' = Some x.
Proof.
  induction r; intros s cs k x H; cbn in H.
  - exists s, cs. split; [constructor|exact H].
  - destruct (rest s) as [|c rs] eqn:E; [congruence|].
    destruct (f c) eqn:Ef; [|congruence].
    eexists _, cs. split; [|exact H]. now constructor.
  - apply IHr1 in H as (s1 & cs1 & H1 & H2). apply IHr2 in H2 as (s2 & cs2 & H3 & H4).
    exists s2, cs2. split; [econstructor; eassumption|exact H4].
  - destruct (m r1 s cs k) eqn:E.
    + injection H as ->. apply IHr1 in E as (s1 & cs1 & H1 & H2).
      exists s1, cs1. split; [now apply rm_alt_l|exact H2].
    + apply IHr2 in H as (s1 & cs1 & H1 & H2). exists s1, cs1. split; [now apply rm_alt_r|exact H2].
  - destruct (m r s cs k) eqn:E.
    + injection H as ->. apply IHr in E as (s1 & cs1 & H1 & H2).
      exists s1, cs1. split; [now apply rm_opt_some|exact H2].
    + exists s, cs. split; [apply rm_opt_none|exact H].
  - apply m_star_sound in H as (s' & H1 & H2). rewrite st_eta in H1. exists s', cs. auto.
  - apply IHr in H as (s1 & cs1 & H1 & H2). eexists s1, _. split; [now constructor|exact H2].
  - destruct (at_bol s) eqn:E; [|congruence]. exists s, cs. split; [now constructor|exact H].
  - destruct (at_mbol s) eqn:E; [|congruence]. exists s, cs. split; [now constructor|exact H].
  - destruct (at_eol s) eqn:E; [|congruence]. exists s, cs. split; [now constructor|exact H].
  - destruct (at_wordb w s) eqn:E; [|congruence]. exists s, cs. split; [now constructor|exact H].
Qed.

Lemma m_star_complete {R} f r p i (k : st -> option R) s' :
  rm (RStar f) (St p r i) s' -> k s' <> None -> m_star f r p i k <> None.
Proof.
  revert p i; induction r as [|c r IH]; intros p i H Hk; cbn.
  - inversion H; subst; [exact Hk|]. discriminate.
  - inversion H as [| | | | | | |? ?|? c' rs ? ? Hr Hf H'| | | | |]; subst.
    + destruct (f c); [|exact Hk]. destruct (m_star f r (Some c) (i + 1) k); [congruence|exact Hk].
    + cbn in Hr. injection Hr as <- <-. rewrite Hf. cbn in H'.
      specialize (IH _ _ H' Hk). destruct (m_star f r (Some c) (i + 1) k); congruence.
Qed.

Lemma m_complete {R} r : forall s cs (k : st -> caps -> option R) s',
  rm r s s' -> (forall cs', k s' cs' <> None) -> m r s cs k <> None.
Proof.
  induction r; intros s cs k s' H Hk; cbn.
  - inversion H; subst. apply Hk.
  - inversion H as [|? c rs ? Hr Hf| | | | | | | | | | | |]; subst. rewrite Hr, Hf. apply Hk.
  - inversion H as [| |? ? ? s1 ? Ha Hb| | | | | | | | | | |]; subst.
    eapply IHr1; [exact Ha|]. intros cs'. eapply IHr2; [exact Hb|exact Hk].
  - inversion H as [| | |? ? ? ? Ha|? ? ? ? Hb| | | | | | | | |]; subst.
    + specialize (IHr1 s cs k s' Ha Hk). destruct (m r1 s cs k); congruence.
    + specialize (IHr2 s cs k s' Hb Hk). destruct (m r1 s cs k); congruence.
  - inversion H as [| | | | |? ? ? Ha|? ?| | | | | | |]; subst.
    + specialize (IHr s cs k s' Ha Hk). destruct (m r s cs k); congruence.
    + destruct (m r s' cs k); [congruence|apply Hk].
  - eapply m_star_complete; [rewrite st_eta; exact H|apply Hk].
  - inversion H; subst. eapply IHr; [eassumption|]. intros cs'. apply Hk.
  - inversion H as [| | | | | | | | | |? Hb| | |]; subst. rewrite Hb. apply Hk.
  - inversion H as [| | | | | | | | | | |? Hb| |]; subst. rewrite Hb. apply Hk.
  - inversion H as [| | | | | | | | | | | |? Hb|]; subst. rewrite Hb. apply Hk.
  - inversion H as [| | | | | | | | | | | | |? ? Hb]; subst. rewrite Hb. apply Hk.
Qed.

(** [re.match] succeeds exactly when the declarative semantics allows a match. *)
Lemma re_match_iff r s : re_match r s <> None <-> exists s', rm r (start s) s'.
Proof.
  unfold re_match. split.
  - intros H. destruct (re_match_at r (start s)) eqn:E; [|congruence].
    unfold re_match_at in E. apply m_sound in E as (s' & cs & H1 & _). eauto.
  - intros [s' H]. unfold re_match_at. eapply m_complete; [exact H|]. congruence.
Qed.

Lemma re_match_None r s : re_match r s = None <-> forall s', ~ rm r (start s) s'.
Proof.
  split.
  - intros H s' Hs. assert (re_match r s <> None) by (apply re_match_iff; eauto). congruence.
  - intros H. destruct (re_match r s) eqn:E; [|reflexivity].
    assert (re_match r s <> None) as Hn by congruence.
    apply re_match_iff in Hn as [s' Hs]. now apply H in Hs.
Qed.

Lemma re_match_Some_rm r s x : re_match r s = Some x -> rm r (start s) (snd (fst x)).
Proof.
  unfold re_match, re_match_at. intros H.
  apply m_sound in H as (s' & cs & H1 & H2). injection H2 as <-. exact H1.
Qed.

(** [re.search] succeeds exactly when some suffix position allows a match. *)
Lemma search_from_iff r p rs i :
  search_from r p rs i <> None <->
  exists a b s', rs = a ++ b /\ rm r (adv (St p rs i) a) s'.
Proof.
  revert p i; induction rs as [|c rs IH]; intros p i.
  - cbn [search_from]. split.
    + intros H. destruct (re_match_at r (St p [] i)) eqn:E; [|congruence].
      unfold re_match_at in E. apply m_sound in E as (s' & cs & H1 & _). exists [], [], s'. auto.
    + intros (a & b & s' & H1 & H2). destruct a; [|discriminate]. destruct b; [|discriminate].
      cbn in H2.
      destruct (re_match_at r (St p [] i)) eqn:E; [congruence|]. exfalso. revert E.
      unfold re_match_at. eapply m_complete; [exact H2|]. congruence.
  - cbn [search_from]. split.
    + destruct (re_match_at r (St p (c :: rs) i)) eqn:E.
      * intros _. unfold re_match_at in E. apply m_sound in E as (s' & cs & H1 & _).
        exists [], (c :: rs), s'. auto.
      * intros H. apply IH in H as (a & b & s' & -> & H2). exists (c :: a), b, s'. auto.
    + intros (a & b & s' & H1 & H2). destruct (re_match_at r (St p (c :: rs) i)) eqn:E; [congruence|].
      destruct a as [|c' a].
      * exfalso. unfold re_match_at in E. revert E. eapply m_complete; [exact H2|]. congruence.
      * injection H1 as -> ->. apply IH. exists a, b, s'. auto.
Qed.

Lemma re_search_iff r s :
  re_search r s <> None <-> exists a b s', s = a ++ b /\ rm r (adv (start s) a) s'.
Proof. apply search_from_iff. Qed.

(** Computing greedy repetition: if the run of class characters is maximal and the
    continuation succeeds after it, that is the result. *)
Lemma adv_rest s a b : rest s = a ++ b -> rest (adv s a) = b.
Proof.
  revert s; induction a as [|c a IH]; intros s H; cbn; [exact H|].
  rewrite H. cbn. now apply IH.
Qed.

Lemma adv_pos s a : pos (adv s a) = pos s + len a.
Proof.
  revert s; induction a as [|c a IH]; intros s; cbn [adv]; [rewrite len_nil; lia|].
  rewrite IH, len_cons. cbn [pos]. lia.
Qed.

Lemma adv_app s a b : adv s (a ++ b) = adv (adv s a) b.
Proof. revert s; induction a; intros s; cbn; auto. Qed.

Lemma adv_prev s a c : prev (adv s (a ++ [c])) = Some c.
Proof. rewrite adv_app. reflexivity. Qed.

Lemma m_star_greedy {R} f a b p i (k : st -> option R) x :
  forallb f a = true ->
  match b with c :: _ => f c = false | [] => True end ->
  k (adv (St p (a ++ b) i) a) = Some x ->
  m_star f (a ++ b) p i k = Some x.
Proof.
  revert p i; induction a as [|c a IH]; intros p i Ha Hb Hk; cbn [app].
  - destruct b as [|c b]; cbn; [exact Hk|]. rewrite Hb. exact Hk.
  - cbn in Ha. apply andb_prop in Ha as [Hc Ha]. cbn [m_star]. rewrite Hc.
    rewrite (IH (Some c) (i + 1)); auto.
Qed.

(** Every match of a pattern consumes a prefix of the rest. *)
Lemma rm_consumes r s s' : rm r s s' -> exists a b, rest s = a ++ b /\ s' = adv s a.
Proof.
  induction 1.
  - exists [], (rest s). auto.
  - exists [c], rs. cbn. rewrite H. auto.
  - destruct IHrm1 as (a1 & b1 & E1 & ->). destruct IHrm2 as (a2 & b2 & E2 & ->).
    rewrite (adv_rest _ _ _ E1) in E2. subst b1. exists (a1 ++ a2), b2.
    split; [now rewrite <- app_assoc|]. now rewrite adv_app.
  - assumption.
  - assumption.
  - assumption.
  - exists [], (rest s). auto.
  - exists [], (rest s). auto.
  - destruct IHrm as (a & b & E & ->). cbn in E. subst. exists (c :: a), b.
    split; [assumption|]. cbn. rewrite H. reflexivity.
  - assumption.
  - exists [], (rest s). auto.
  - exists [], (rest s). auto.
  - exists [], (rest s). auto.
  - exists [], (rest s). auto.
Qed.

Lemma rm_star_all f s s' : rm (RStar f) s s' ->
  exists a b, rest s = a ++ b /\ s' = adv s a /\ forallb f a = true.
Proof.
  intros H. remember (RStar f) as r eqn:Er. induction H; try discriminate.
  - exists [], (rest s). auto.
  - injection Er as ->. destruct (IHrm eq_refl) as (a & b & E & -> & Ha). cbn in E. subst.
    exists (c :: a), b. split; [assumption|]. split; [cbn; now rewrite H|]. cbn. now rewrite H0, Ha.
Qed.

Lemma rm_star_intro f s a b : rest s = a ++ b -> forallb f a = true -> rm (RStar f) s (adv s a).
Proof.
  revert s; induction a as [|c a IH]; intros s E Ha; cbn.
  - constructor.
  - cbn in Ha. apply andb_prop in Ha as [Hc Ha]. rewrite E. cbn.
    eapply rm_star_cons; [exact E|exact Hc|]. apply IH; auto.
Qed.

(** Inversion principles. *)
Lemma rm_cat_inv a b s s' : rm (RCat a b) s s' <-> exists s1, rm a s s1 /\ rm b s1 s'.
Proof. split; [intros H; inversion H; subst; eauto|intros (s1 & ? & ?); econstructor; eauto]. Qed.

Lemma rm_alt_inv a b s s' : rm (RAlt a b) s s' <-> rm a s s' \/ rm b s s'.
Proof. split; [intros H; inversion H; subst; auto|intros [?|?]; [now apply rm_alt_l|now apply rm_alt_r]]. Qed.

Lemma rm_opt_inv a s s' : rm (ROpt a) s s' <-> s' = s \/ rm a s s'.
Proof. split; [intros H; inversion H; subst; auto|intros [->|?]; [apply rm_opt_none|now apply rm_opt_some]]. Qed.

Lemma rm_grp_inv n a s s' : rm (RGrp n a) s s' <-> rm a s s'.
Proof. split; [intros H; inversion H; subst; auto|now constructor]. Qed.

Lemma rm_eps_inv s s' : rm REps s s' <-> s' = s.
Proof. split; [intros H; inversion H; auto|intros ->; constructor]. Qed.

Lemma rm_cls_inv f s s' :
  rm (RCls f) s s' <-> exists c rs, rest s = c :: rs /\ f c = true /\ s' = adv s [c].
Proof.
  split.
  - intros H; inversion H; subst. exists c, rs. cbn. rewrite H1. auto.
  - intros (c & rs & E & Hc & ->). cbn. rewrite E. now constructor.
Qed.

Lemma rm_chr_inv c s s' : rm (RChr c) s s' <-> exists rs, rest s = c :: rs /\ s' = adv s [c].
Proof.
  unfold RChr. rewrite rm_cls_inv. split.
  - intros (c' & rs & E & Hc & ->). apply ascii_eqb_eq in Hc. subst. eauto.
  - intros (rs & E & ->). exists c, rs. rewrite ascii_eqb_refl. auto.
Qed.

Lemma rm_lit_inv l s s' : rm (RLit l) s s' <-> exists rs, rest s = l ++ rs /\ s' = adv s l.
Proof.
  revert s; induction l as [|c l IH]; intros s; cbn [RLit].
  - rewrite rm_eps_inv. cbn. split; [intros ->; eauto|intros (? & _ & ->); auto].
  - rewrite rm_cat_inv. split.
    + intros (s1 & H1 & H2). apply rm_chr_inv in H1 as (rs & E & ->).
      apply IH in H2 as (rs2 & E2 & ->). rewrite (adv_rest s [c] rs E) in E2. subst rs.
      exists rs2. split; [exact E|]. now rewrite <- adv_app.
    + intros (rs & E & ->). exists (adv s [c]). split.
      * apply rm_chr_inv. exists (l ++ rs). auto.
      * apply IH. exists rs. rewrite (adv_rest s [c] (l ++ rs) E). split; [reflexivity|].
        now rewrite <- adv_app.
Qed.

Lemma rm_star_inv f s s' :
  rm (RStar f) s s' <-> exists a b, rest s = a ++ b /\ forallb f a = true /\ s' = adv s a.
Proof.
  split.
  - intros H. apply rm_star_all in H as (a & b & ? & ? & ?). eauto 6.
  - intros (a & b & E & Ha & ->). now apply rm_star_intro with b.
Qed.

Lemma rm_plus_inv f s s' :
  rm (RPlus f) s s' <-> exists a b, rest s = a ++ b /\ a <> [] /\ forallb f a = true /\ s' = adv s a.
Proof.
  unfold RPlus. rewrite rm_cat_inv. split.
  - intros (s1 & H1 & H2). apply rm_cls_inv in H1 as (c & rs & E & Hc & ->).
    apply rm_star_inv in H2 as (a & b & E2 & Ha & ->).
    rewrite (adv_rest s [c] rs E) in E2. subst rs. exists (c :: a), b.
    split; [exact E|]. split; [congruence|]. split; [cbn; now rewrite Hc|]. now rewrite <- adv_app.
  - intros (a & b & E & Hne & Ha & ->). destruct a as [|c a]; [congruence|].
    cbn in Ha. apply andb_prop in Ha as [Hc Ha].
    exists (adv s [c]). split.
    + apply rm_cls_inv. exists c, (a ++ b). auto.
    + apply rm_star_inv. exists a, b. rewrite (adv_rest s [c] (a ++ b) E).
      split; [reflexivity|]. split; [assumption|]. now rewrite <- adv_app.
Qed.

Lemma rm_bol_inv s s' : rm RBol s s' <-> s' = s /\ at_bol s = true.
Proof. split; [intros H; inversion H; auto|intros [-> ?]; now constructor]. Qed.
Lemma rm_mbol_inv s s' : rm RMBol s s' <-> s' = s /\ at_mbol s = true.
Proof. split; [intros H; inversion H; auto|intros [-> ?]; now constructor]. Qed.
Lemma rm_eol_inv s s' : rm REol s s' <-> s' = s /\ at_eol s = true.
Proof. split; [intros H; inversion H; auto|intros [-> ?]; now constructor]. Qed.
Lemma rm_wordb_inv w s s' : rm (RWordB w) s s' <-> s' = s /\ at_wordb w s = true.
Proof. split; [intros H; inversion H; auto|intros [-> ?]; now constructor]. Qed.

(** Forward rules for the matcher (used to compute which groups are captured). *)
Lemma m_lit {R} l s rs cs (k : st -> caps -> option R) :
  rest s = l ++ rs -> m (RLit l) s cs k = k (adv s l) cs.
Proof.
  revert s cs k; induction l as [|c l IH]; intros s cs k E; cbn [RLit m].
  - reflexivity.
  - unfold RChr. cbn [m]. rewrite E. cbn [app]. rewrite ascii_eqb_refl.
    rewrite IH; [|reflexivity]. cbn [adv]. now rewrite E.
Qed.

Lemma m_lit_fail {R} l s cs (k : st -> caps -> option R) :
  startswith (rest s) l = false -> m (RLit l) s cs k = None.
Proof.
  intros H. destruct (m (RLit l) s cs k) eqn:E; [|reflexivity].
  apply m_sound in E as (s' & cs' & H1 & _). apply rm_lit_inv in H1 as (rs & E & _).
  assert (startswith (rest s) l = true) by (apply startswith_iff; eauto). congruence.
Qed.

Lemma m_chr {R} c s rs cs (k : st -> caps -> option R) :
  rest s = c :: rs -> m (RChr c) s cs k = k (adv s [c]) cs.
Proof. intros E. unfold RChr. cbn. rewrite E, ascii_eqb_refl. reflexivity. Qed.

Lemma m_cls {R} f c s rs cs (k : st -> caps -> option R) :
  rest s = c :: rs -> f c = true -> m (RCls f) s cs k = k (adv s [c]) cs.
Proof. intros E Hc. cbn. rewrite E, Hc. reflexivity. Qed.

Lemma m_star_ok {R} f s a b cs (k : st -> caps -> option R) x :
  rest s = a ++ b -> forallb f a = true ->
  match b with c :: _ => f c = false | [] => True end ->
  k (adv s a) cs = Some x -> m (RStar f) s cs k = Some x.
Proof.
  intros E Ha Hb Hk. cbn [m]. rewrite E. apply m_star_greedy; [assumption|assumption|].
  rewrite <- E, st_eta. exact Hk.
Qed.

Lemma m_plus_ok {R} f s a b cs (k : st -> caps -> option R) x :
  rest s = a ++ b -> a <> [] -> forallb f a = true ->
  match b with c :: _ => f c = false | [] => True end ->
  k (adv s a) cs = Some x -> m (RPlus f) s cs k = Some x.
Proof.
  intros E Hne Ha Hb Hk. destruct a as [|c a]; [congruence|].
  cbn [forallb] in Ha. apply andb_prop in Ha as [Hc Ha].
  unfold RPlus. change (m (RCat (RCls f) (RStar f)) s cs k)
    with (m (RCls f) s cs (fun s' cs' => m (RStar f) s' cs' k)).
  cbn [m]. rewrite E. cbn [app]. rewrite Hc.
  apply m_star_greedy; [assumption|assumption|]. cbn [adv] in Hk. rewrite E in Hk. exact Hk.
Qed.

Lemma m_grp_unfold {R} n r s cs (k : st -> caps -> option R) :
  m (RGrp n r) s cs k =
  m r s cs (fun s' cs' => k s' ((n, (pos s, firstn (Z.to_nat (pos s' - pos s)) (rest s))) :: cs')).
Proof. reflexivity. Qed.

Lemma grp_text s a b : rest s = a ++ b ->
  firstn (Z.to_nat (pos (adv s a) - pos s)) (rest s) = a.
Proof.
  intros E. rewrite adv_pos, E. replace (pos s + len a - pos s) with (len a) by lia.
  unfold len. rewrite Nat2Z.id. apply firstn_app_exact.
Qed.

(** A greedy plus inside a group. *)
Lemma m_grp_plus_ok {R} n f s a b cs (k : st -> caps -> option R) x :
  rest s = a ++ b -> a <> [] -> forallb f a = true ->
  match b with c :: _ => f c = false | [] => True end ->
  k (adv s a) ((n, (pos s, a)) :: cs) = Some x ->
  m (RGrp n (RPlus f)) s cs k = Some x.
Proof.
  intros E Hne Ha Hb Hk. rewrite m_grp_unfold.
  apply (m_plus_ok _ _ a b); auto. rewrite (grp_text _ _ _ E). exact Hk.
Qed.

Lemma m_cat {R} a b s cs (k : st -> caps -> option R) :
  m (RCat a b) s cs k = m a s cs (fun s' cs' => m b s' cs' k).
Proof. reflexivity. Qed.

Lemma m_alt {R} a b s cs (k : st -> caps -> option R) :
  m (RAlt a b) s cs k = match m a s cs k with Some x => Some x | None => m b s cs k end.
Proof. reflexivity. Qed.

(** The matcher fails when the declarative semantics has no match. *)
Lemma m_none {R} r s cs (k : st -> caps -> option R) :
  (forall s', ~ rm r s s') -> m r s cs k = None.
Proof.
  intros H. destruct (m r s cs k) eqn:E; [|reflexivity].
  apply m_sound in E as (s' & cs' & H1 & _). now apply H in H1.
Qed.

Lemma re_match_at_none r s : (forall s', ~ rm r s s') -> re_match_at r s = None.
Proof. apply m_none. Qed.

(** Search skips a prefix at none of whose positions the pattern can match. *)
Lemma search_from_skip r a b p i :
  (forall a1 a2, a = a1 ++ a2 -> a2 <> [] ->
     forall s', ~ rm r (adv (St p (a ++ b) i) a1) s') ->
  search_from r p (a ++ b) i =
  search_from r (prev (adv (St p (a ++ b) i) a)) b (i + len a).
Proof.
  revert p i; induction a as [|c a IH]; intros p i H; cbn [app adv].
  - rewrite len_nil, Z.add_0_r. reflexivity.
  - cbn [search_from]. rewrite re_match_at_none.
    + rewrite IH.
      * cbn. rewrite len_cons. f_equal. lia.
      * intros a1 a2 -> Hne s' Hs. apply (H (c :: a1) a2 eq_refl Hne s'). exact Hs.
    + intros s'. apply (H [] (c :: a) eq_refl). congruence.
Qed.

Lemma search_from_here r p rs i x :
  re_match_at r (St p rs i) = Some x -> search_from r p rs i = Some x.
Proof. intros H. destruct rs; cbn [search_from]; now rewrite H. Qed.

(** Declarative semantics with captures. *)
Inductive rmc : re -> st -> caps -> st -> caps -> Prop :=
| rmc_eps s cs : rmc REps s cs s cs
| rmc_cls f s cs s' : rm (RCls f) s s' -> rmc (RCls f) s cs s' cs
| rmc_cat a b s cs s1 cs1 s2 cs2 :
    rmc a s cs s1 cs1 -> rmc b s1 cs1 s2 cs2 -> rmc (RCat a b) s cs s2 cs2
| rmc_alt_l a b s cs s' cs' : rmc a s cs s' cs' -> rmc (RAlt a b) s cs s' cs'
| rmc_alt_r a b s cs s' cs' : rmc b s cs s' cs' -> rmc (RAlt a b) s cs s' cs'
| rmc_opt_some a s cs s' cs' : rmc a s cs s' cs' -> rmc (ROpt a) s cs s' cs'
| rmc_opt_none a s cs : rmc (ROpt a) s cs s cs
| rmc_star f s cs s' : rm (RStar f) s s' -> rmc (RStar f) s cs s' cs
| rmc_grp n a s cs s' cs' t b : rmc a s cs s' cs' -> rest s = t ++ b -> s' = adv s t ->
    rmc (RGrp n a) s cs s' ((n, (pos s, t)) :: cs')
| rmc_bol s cs : at_bol s = true -> rmc RBol s cs s cs
| rmc_mbol s cs : at_mbol s = true -> rmc RMBol s cs s cs
| rmc_eol s cs : at_eol s = true -> rmc REol s cs s cs
| rmc_wordb w s cs : at_wordb w s = true -> rmc (RWordB w) s cs s cs.

Lemma rmc_rm r s cs s' cs' : rmc r s cs s' cs' -> rm r s s'.
Proof. induction 1; try (econstructor; eassumption); assumption. Qed.

Lemma m_sound_c {R} r : forall s cs (k : st -> caps -> option R) x,
  m r s cs k = Some x -> exists s' cs', rmc r s cs s' cs' /\ k s' cs' = Some x.
Proof.
  induction r; intros s cs k x H; cbn [m] in H.
  - exists s, cs. split; [constructor|exact H].
  - destruct (rest s) as [|c rs] eqn:E; [congruence|].
    destruct (f c) eqn:Ef; [|congruence].
    eexists _, cs. split; [|exact H]. constructor. now constructor.
  - apply IHr1 in H as (s1 & cs1 & H1 & H2). apply IHr2 in H2 as (s2 & cs2 & H3 & H4).
    exists s2, cs2. split; [econstructor; eassumption|exact H4].
  - destruct (m r1 s cs k) eqn:E.
    + injection H as ->. apply IHr1 in E as (s1 & cs1 & H1 & H2).
      exists s1, cs1. split; [now apply rmc_alt_l|exact H2].
    + apply IHr2 in H as (s1 & cs1 & H1 & H2). exists s1, cs1. split; [now apply rmc_alt_r|exact H2].
  - destruct (m r s cs k) eqn:E.
    + injection H as ->. apply IHr in E as (s1 & cs1 & H1 & H2).
      exists s1, cs1. split; [now apply rmc_opt_some|exact H2].
    + exists s, cs. split; [apply rmc_opt_none|exact H].
  - apply m_star_sound in H as (s' & H1 & H2). rewrite st_eta in H1. exists s', cs.
    split; [now constructor|assumption].
  - apply IHr in H as (s1 & cs1 & H1 & H2).
    destruct (rm_consumes _ _ _ (rmc_rm _ _ _ _ _ H1)) as (a & b & E & ->).
    rewrite (grp_text _ _ _ E) in H2. eexists _, _. split; [|exact H2].
    econstructor; [exact H1|exact E|reflexivity].
  - destruct (at_bol s) eqn:E; [|congruence]. exists s, cs. split; [now constructor|exact H].
  - destruct (at_mbol s) eqn:E; [|congruence]. exists s, cs. split; [now constructor|exact H].
  - destruct (at_eol s) eqn:E; [|congruence]. exists s, cs. split; [now constructor|exact H].
  - destruct (at_wordb w s) eqn:E; [|congruence]. exists s, cs. split; [now constructor|exact H].
Qed.

Lemma rmc_cat_inv a b s cs s' cs' :
  rmc (RCat a b) s cs s' cs' -> exists s1 cs1, rmc a s cs s1 cs1 /\ rmc b s1 cs1 s' cs'.
Proof. intros H; inversion H; subst; eauto. Qed.
Lemma rmc_eps_inv s cs s' cs' : rmc REps s cs s' cs' -> s' = s /\ cs' = cs.
Proof. intros H; inversion H; auto. Qed.
Lemma rmc_alt_inv a b s cs s' cs' :
  rmc (RAlt a b) s cs s' cs' -> rmc a s cs s' cs' \/ rmc b s cs s' cs'.
Proof. intros H; inversion H; subst; auto. Qed.
Lemma rmc_opt_inv a s cs s' cs' :
  rmc (ROpt a) s cs s' cs' -> (s' = s /\ cs' = cs) \/ rmc a s cs s' cs'.
Proof. intros H; inversion H; subst; auto. Qed.
Lemma rmc_eol_inv s cs s' cs' : rmc REol s cs s' cs' -> s' = s /\ cs' = cs /\ at_eol s = true.
Proof. intros H; inversion H; auto. Qed.
Lemma rmc_bol_inv s cs s' cs' : rmc RBol s cs s' cs' -> s' = s /\ cs' = cs /\ at_bol s = true.
Proof. intros H; inversion H; auto. Qed.
Lemma rmc_mbol_inv s cs s' cs' : rmc RMBol s cs s' cs' -> s' = s /\ cs' = cs /\ at_mbol s = true.
Proof. intros H; inversion H; auto. Qed.
Lemma rmc_wordb_inv w s cs s' cs' :
  rmc (RWordB w) s cs s' cs' -> s' = s /\ cs' = cs /\ at_wordb w s = true.
Proof. intros H; inversion H; auto. Qed.
Lemma rmc_cls_inv f s cs s' cs' : rmc (RCls f) s cs s' cs' ->
  exists c b, rest s = c :: b /\ f c = true /\ s' = adv s [c] /\ cs' = cs.
Proof.
  intros H; inversion H; subst.
  match goal with X : rm _ _ _ |- _ => apply rm_cls_inv in X as (c & rs & ? & ? & ?) end. eauto 6.
Qed.
Lemma rmc_chr_inv c s cs s' cs' : rmc (RChr c) s cs s' cs' ->
  exists b, rest s = c :: b /\ s' = adv s [c] /\ cs' = cs.
Proof.
  intros H. apply rmc_cls_inv in H as (c' & b & E & Hc & -> & ->).
  apply ascii_eqb_eq in Hc. subst. eauto.
Qed.
Lemma rmc_star_inv f s cs s' cs' : rmc (RStar f) s cs s' cs' ->
  exists a b, rest s = a ++ b /\ forallb f a = true /\ s' = adv s a /\ cs' = cs.
Proof.
  intros H; inversion H; subst.
  match goal with X : rm _ _ _ |- _ => apply rm_star_inv in X as (a & b & ? & ? & ?) end. eauto 6.
Qed.
Lemma rmc_plus_inv f s cs s' cs' : rmc (RPlus f) s cs s' cs' ->
  exists a b, rest s = a ++ b /\ a <> [] /\ forallb f a = true /\ s' = adv s a /\ cs' = cs.
Proof.
  intros H. assert (cs' = cs) as ->.
  { unfold RPlus in H. apply rmc_cat_inv in H as (s1 & cs1 & H1 & H2).
    apply rmc_cls_inv in H1 as (? & ? & _ & _ & _ & ->). now apply rmc_star_inv in H2 as (? & ? & _ & _ & _ & ->). }
  apply rmc_rm, rm_plus_inv in H as (a & b & ? & ? & ? & ?). exists a, b. auto.
Qed.
Lemma rmc_lit_inv l s cs s' cs' : rmc (RLit l) s cs s' cs' ->
  exists b, rest s = l ++ b /\ s' = adv s l /\ cs' = cs.
Proof.
  intros H. assert (cs' = cs) as ->.
  { revert s cs H; induction l as [|c l IH]; intros s cs H; cbn [RLit] in H.
    - now apply rmc_eps_inv in H as [_ ->].
    - apply rmc_cat_inv in H as (s1 & cs1 & H1 & H2). apply rmc_chr_inv in H1 as (? & _ & -> & ->).
      now apply IH in H2. }
  apply rmc_rm, rm_lit_inv in H as (rs & ? & ?). eauto.
Qed.
Lemma rmc_grp_inv n a s cs s' cs' : rmc (RGrp n a) s cs s' cs' ->
  exists cs1 t b, rmc a s cs s' cs1 /\ rest s = t ++ b /\ s' = adv s t /\ cs' = (n, (pos s, t)) :: cs1.
Proof. intros H; inversion H; subst; eauto 8. Qed.

Lemma app_len_inj {A} (a b c d : list A) : a ++ b = c ++ d -> len a = len c -> a = c /\ b = d.
Proof.
  unfold len. revert c; induction a as [|x a IH]; intros [|y c] E L; cbn in *; try lia; auto.
  injection E as -> E. destruct (IH c E) as [-> ->]; [lia|]. auto.
Qed.

Lemma adv_inj s t1 b1 t2 b2 : rest s = t1 ++ b1 -> rest s = t2 ++ b2 -> adv s t1 = adv s t2 -> t1 = t2.
Proof.
  intros E1 E2 H. apply (f_equal pos) in H. rewrite !adv_pos in H.
  apply (app_len_inj t1 b1 t2 b2); [congruence|lia].
Qed.

Lemma rmc_grp_plus_inv n f s cs s' cs' : rmc (RGrp n (RPlus f)) s cs s' cs' ->
  exists a b, rest s = a ++ b /\ a <> [] /\ forallb f a = true /\ s' = adv s a /\ cs' = (n, (pos s, a)) :: cs.
Proof.
  intros H. apply rmc_grp_inv in H as (cs1 & t & b & H & E & -> & ->).
  apply rmc_plus_inv in H as (a & b' & E' & Hne & Ha & Hs & ->).
  rewrite (adv_inj _ _ _ _ _ E E' Hs). exists a, b'. auto 6.
Qed.

Lemma re_match_at_sound r s x : re_match_at r s = Some x ->
  exists s' cs, rmc r s [] s' cs /\ x = (pos s, s', cs).
Proof.
  unfold re_match_at. intros H. apply m_sound_c in H as (s' & cs & H1 & H2). injection H2 as <-. eauto.
Qed.

Lemma search_from_sound r p rs i x : search_from r p rs i = Some x ->
  exists a b, rs = a ++ b /\ re_match_at r (adv (St p rs i) a) = Some x.
Proof.
  revert p i; induction rs as [|c rs IH]; intros p i H; cbn [search_from] in H.
  - destruct (re_match_at r (St p [] i)) eqn:E; [|discriminate]. injection H as <-. exists [], []. auto.
  - destruct (re_match_at r (St p (c :: rs) i)) eqn:E.
    + injection H as <-. exists [], (c :: rs). auto.
    + apply IH in H as (a & b & -> & H). exists (c :: a), b. auto.
Qed.

(** Greedy repetition when the run of class characters goes past the right point: the
    result is that of the longest run after which the continuation succeeds. *)
Lemma m_star_longest {R} f a b p i (k : st -> option R) x :
  forallb f a = true ->
  k (adv (St p (a ++ b) i) a) = Some x ->
  (forall b1 b2, b = b1 ++ b2 -> b1 <> [] -> forallb f b1 = true ->
     k (adv (St p (a ++ b) i) (a ++ b1)) = None) ->
  m_star f (a ++ b) p i k = Some x.
Proof.
  revert p i; induction a as [|c a IH]; intros p i Ha Hk Hb; cbn [app].
  - clear Ha. cbn [app adv] in *.
    assert (forall b p i, (forall b1 b2, b = b1 ++ b2 -> forallb f b1 = true ->
              k (adv (St p b i) b1) = None) -> m_star f b p i k = None) as Hnone.
    { clear. induction b as [|c b IH]; intros p i H; cbn [m_star].
      - apply (H [] []); reflexivity.
      - destruct (f c) eqn:E.
        + rewrite IH.
          * apply (H [] (c :: b)); reflexivity.
          * intros b1 b2 -> Hb1. apply (H (c :: b1) b2); [reflexivity|]. cbn. now rewrite E.
        + apply (H [] (c :: b)); reflexivity. }
    destruct b as [|c b]; cbn [m_star]; [exact Hk|].
    destruct (f c) eqn:E; [|exact Hk].
    rewrite Hnone; [exact Hk|].
    intros b1 b2 -> Hb1. apply (Hb (c :: b1) b2); [reflexivity|discriminate|]. cbn. now rewrite E.
  - cbn in Ha. apply andb_prop in Ha as [Hc Ha]. cbn [m_star]. rewrite Hc.
    rewrite (IH (Some c) (i + 1)); auto.
Qed.

Lemma m_plus_longest {R} f s a b cs (k : st -> caps -> option R) x :
  rest s = a ++ b -> a <> [] -> forallb f a = true ->
  k (adv s a) cs = Some x ->
  (forall b1 b2, b = b1 ++ b2 -> b1 <> [] -> forallb f b1 = true -> k (adv s (a ++ b1)) cs = None) ->
  m (RPlus f) s cs k = Some x.
Proof.
  intros E Hne Ha Hk Hb. destruct a as [|c a]; [congruence|].
  cbn [forallb] in Ha. apply andb_prop in Ha as [Hc Ha].
  unfold RPlus. change (m (RCat (RCls f) (RStar f)) s cs k)
    with (m (RCls f) s cs (fun s' cs' => m (RStar f) s' cs' k)).
  cbn [m]. rewrite E. cbn [app]. rewrite Hc.
  cbn [adv app] in Hk, Hb. rewrite E in Hk, Hb. cbn [app] in Hk, Hb.
  apply m_star_longest; assumption.
Qed.

(** Existence of a match, step by step. *)
Definition can (r : re) (s : st) : Prop := exists s', rm r s s'.

Lemma can_plus f r s a b : rest s = a ++ b -> a <> [] -> forallb f a = true ->
  (rest (adv s a) = b -> can r (adv s a)) -> can (RCat (RPlus f) r) s.
Proof.
  intros E Hne Ha H. destruct (H (adv_rest _ _ _ E)) as [s' Hs]. exists s'.
  apply rm_cat_inv. exists (adv s a). split; [|exact Hs]. apply rm_plus_inv. eauto 6.
Qed.
Lemma can_star f r s a b : rest s = a ++ b -> forallb f a = true ->
  (rest (adv s a) = b -> can r (adv s a)) -> can (RCat (RStar f) r) s.
Proof.
  intros E Ha H. destruct (H (adv_rest _ _ _ E)) as [s' Hs]. exists s'.
  apply rm_cat_inv. exists (adv s a). split; [|exact Hs]. apply rm_star_inv. eauto 6.
Qed.
Lemma can_grp_plus n f r s a b : rest s = a ++ b -> a <> [] -> forallb f a = true ->
  (rest (adv s a) = b -> can r (adv s a)) -> can (RCat (RGrp n (RPlus f)) r) s.
Proof.
  intros E Hne Ha H. destruct (H (adv_rest _ _ _ E)) as [s' Hs]. exists s'.
  apply rm_cat_inv. exists (adv s a). split; [|exact Hs]. apply rm_grp_inv, rm_plus_inv. eauto 6.
Qed.
Lemma can_cls f r s c b : rest s = c :: b -> f c = true ->
  (rest (adv s [c]) = b -> can r (adv s [c])) -> can (RCat (RCls f) r) s.
Proof.
  intros E Hc H. destruct (H (adv_rest s [c] b E)) as [s' Hs]. exists s'.
  apply rm_cat_inv. exists (adv s [c]). split; [|exact Hs]. apply rm_cls_inv. eauto 6.
Qed.
Lemma can_lit l r s b : rest s = l ++ b ->
  (rest (adv s l) = b -> can r (adv s l)) -> can (RCat (RLit l) r) s.
Proof.
  intros E H. destruct (H (adv_rest s l b E)) as [s' Hs]. exists s'.
  apply rm_cat_inv. exists (adv s l). split; [|exact Hs]. apply rm_lit_inv. eauto.
Qed.
Lemma can_eps s : can REps s.
Proof. exists s. constructor. Qed.
Lemma can_eol r s : at_eol s = true -> can r s -> can (RCat REol r) s.
Proof. intros H [s' Hs]. exists s'. apply rm_cat_inv. exists s. split; [now constructor|exact Hs]. Qed.

Lemma re_match_at_can r s : re_match_at r s <> None <-> can r s.
Proof.
  split.
  - intros H. destruct (re_match_at r s) eqn:E; [|congruence].
    apply re_match_at_sound in E as (s' & cs & H1 & _). exists s'. now apply rmc_rm in H1.
  - intros [s' H]. unfold re_match_at. eapply m_complete; [exact H|]. congruence.
Qed.

Lemma re_search_None r s : re_search r s = None <-> forall a b, s = a ++ b -> ~ can r (adv (start s) a).
Proof.
  split.
  - intros H a b E [s' Hs]. assert (re_search r s <> None) by (apply re_search_iff; eauto 6). congruence.
  - intros H. destruct (re_search r s) eqn:E; [|reflexivity].
    assert (re_search r s <> None) as Hn by congruence.
    apply re_search_iff in Hn as (a & b & s' & E1 & Hs). exfalso. apply (H a b E1). now exists s'.
Qed.

(** Take apart a declarative match of a sequence. *)
Ltac rm_seq H :=
  cbn [RSeq] in H;
  repeat lazymatch type of H with
  | rm (RCat _ _) _ _ => let s := fresh "s" in let H1 := fresh "Hm" in
      apply rm_cat_inv in H as (s & H1 & H)
  end.
