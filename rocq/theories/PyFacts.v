(** Lemmas about the Python primitives of [PyBase]. *)
From Coq Require Import List Bool Ascii String ZArith NArith Lia Permutation Sorted.
From Verif Require Import PyBase.
Import ListNotations.
Open Scope Z_scope.
Open Scope list_scope.

(** * Booleans and characters *)

Lemma ascii_eqb_eq a b : Ascii.eqb a b = true <-> a = b.
Proof. apply Ascii.eqb_eq. Qed.

Lemma ascii_eqb_refl a : Ascii.eqb a a = true.
Proof. apply Ascii.eqb_refl. Qed.

Lemma code_range c : 0 <= code c < 256.
Proof.
  unfold code. pose proof (N_ascii_bounded c). lia.
Qed.

Lemma code_inj a b : code a = code b -> a = b.
Proof.
  unfold code. intros H.
  rewrite <- (ascii_N_embedding a), <- (ascii_N_embedding b). f_equal. lia.
Qed.

Lemma chr_code c : chr (code c) = c.
Proof. unfold chr, code. rewrite N2Z.id. apply ascii_N_embedding. Qed.

Lemma code_chr z : 0 <= z < 256 -> code (chr z) = z.
Proof.
  intros H. unfold chr, code. rewrite N_ascii_embedding by lia. lia.
Qed.

(** Reduce a statement about all characters to 256 computations. *)
Lemma ascii_forall (P : ascii -> bool) :
  forallb P (map ascii_of_nat (seq 0 256)) = true -> forall c, P c = true.
Proof.
  intros H c. rewrite forallb_forall in H. apply H.
  apply in_map_iff. exists (nat_of_ascii c). split.
  - apply ascii_nat_embedding.
  - apply in_seq. pose proof (nat_ascii_bounded c). lia.
Qed.

(** * Equality of strings *)

Lemma str_eqb_refl s : str_eqb s s = true.
Proof. induction s; cbn; [reflexivity|]. now rewrite ascii_eqb_refl. Qed.

Lemma str_eqb_eq a b : str_eqb a b = true <-> a = b.
Proof.
  split.
  - revert b; induction a; destruct b; cbn; try congruence.
    intros H. apply andb_prop in H as [H1 H2].
    apply ascii_eqb_eq in H1. f_equal; auto.
  - intros ->. apply str_eqb_refl.
Qed.

Lemma str_eqb_neq a b : str_eqb a b = false <-> a <> b.
Proof.
  rewrite <- str_eqb_eq. destruct (str_eqb a b); split; congruence.
Qed.

Lemma str_eqb_sym a b : str_eqb a b = str_eqb b a.
Proof.
  destruct (str_eqb a b) eqn:E.
  - apply str_eqb_eq in E. subst. now rewrite str_eqb_refl.
  - symmetry. apply str_eqb_neq. apply str_eqb_neq in E. congruence.
Qed.

Lemma str_eq_dec (a b : str) : {a = b} + {a <> b}.
Proof. apply list_eq_dec, ascii_dec. Qed.

(** * Order on strings *)

Lemma str_ltb_irrefl s : str_ltb s s = false.
Proof. induction s; cbn; [reflexivity|]. now rewrite Z.ltb_irrefl. Qed.

Lemma str_ltb_trans a b c : str_ltb a b = true -> str_ltb b c = true -> str_ltb a c = true.
Proof.
  revert b c; induction a as [|x a IH]; intros [|y b] [|z c]; cbn; try congruence.
  destruct (code x <? code y) eqn:E1; destruct (code y <? code x) eqn:E2;
  destruct (code y <? code z) eqn:E3; destruct (code z <? code y) eqn:E4; try lia; try congruence;
  intros H1 H2;
  destruct (code x <? code z) eqn:E5; destruct (code z <? code x) eqn:E6; try lia; try reflexivity.
  eauto.
Qed.

Lemma str_ltb_total a b : str_ltb a b = false -> str_ltb b a = false -> a = b.
Proof.
  revert b; induction a as [|x a IH]; intros [|y b]; cbn; try congruence.
  destruct (code x <? code y) eqn:E1; destruct (code y <? code x) eqn:E2; try congruence; try lia.
  intros H1 H2. f_equal; [apply code_inj; lia|auto].
Qed.

Lemma str_leb_total a b : str_leb a b = true \/ str_leb b a = true.
Proof.
  unfold str_leb. destruct (str_ltb b a) eqn:E; [|auto].
  right. destruct (str_ltb a b) eqn:E2; [|reflexivity].
  pose proof (str_ltb_trans _ _ _ E E2) as H. rewrite str_ltb_irrefl in H. congruence.
Qed.

Lemma str_leb_antisym a b : str_leb a b = true -> str_leb b a = true -> a = b.
Proof.
  unfold str_leb. intros H1 H2. apply str_ltb_total.
  - now destruct (str_ltb a b).
  - now destruct (str_ltb b a).
Qed.

Lemma str_leb_trans a b c : str_leb a b = true -> str_leb b c = true -> str_leb a c = true.
Proof.
  unfold str_leb. intros H1 H2. destruct (str_ltb c a) eqn:E; [|reflexivity].
  destruct (str_ltb b c) eqn:E2.
  - rewrite (str_ltb_trans _ _ _ E2 E) in H1. cbn in H1. congruence.
  - destruct (str_ltb c b) eqn:E3; [cbn in H2; congruence|].
    assert (b = c) as -> by (apply str_ltb_total; auto). rewrite E in H1. cbn in H1. congruence.
Qed.

Lemma str_leb_refl a : str_leb a a = true.
Proof. unfold str_leb. now rewrite str_ltb_irrefl. Qed.

(** * Prefixes, suffixes, substrings *)

Lemma startswith_iff s p : startswith s p = true <-> exists t, s = p ++ t.
Proof.
  revert s; induction p as [|x p IH]; intros s.
  - cbn. split; eauto.
  - destruct s as [|y s]; cbn.
    + split; [congruence|]. intros [t Ht]. discriminate.
    + rewrite andb_true_iff, ascii_eqb_eq, IH. split.
      * intros [-> [t ->]]. eauto.
      * intros [t Ht]. injection Ht as -> ->. eauto.
Qed.

Lemma startswith_app p t : startswith (p ++ t) p = true.
Proof. apply startswith_iff. eauto. Qed.

Lemma startswith_nil s : startswith s [] = true.
Proof. reflexivity. Qed.

Lemma endswith_iff s p : endswith s p = true <-> exists t, s = t ++ p.
Proof.
  unfold endswith. rewrite startswith_iff. split.
  - intros [t Ht]. exists (rev t). rewrite <- (rev_involutive s), Ht, rev_app_distr, rev_involutive.
    reflexivity.
  - intros [t ->]. exists (rev t). apply rev_app_distr.
Qed.

Lemma endswith_app t p : endswith (t ++ p) p = true.
Proof. apply endswith_iff. eauto. Qed.

Lemma contains_iff hay needle :
  contains hay needle = true <-> exists a b, hay = a ++ needle ++ b.
Proof.
  induction hay as [|c hay IH].
  - cbn. rewrite orb_false_r, startswith_iff. split.
    + intros [t Ht]. exists [], t. exact Ht.
    + intros (a & b & H). exists b. destruct a; [exact H|discriminate].
  - cbn [contains]. rewrite orb_true_iff, startswith_iff, IH. split.
    + intros [[t Ht]|(a & b & ->)].
      * exists [], t. exact Ht.
      * exists (c :: a), b. reflexivity.
    + intros (a & b & H). destruct a as [|x a].
      * left. eauto.
      * right. injection H as -> H. eauto.
Qed.

Lemma contains_false hay needle :
  contains hay needle = false <-> forall a b, hay <> a ++ needle ++ b.
Proof.
  split.
  - intros H a b E. assert (contains hay needle = true) by (apply contains_iff; eauto). congruence.
  - intros H. destruct (contains hay needle) eqn:E; [|reflexivity].
    apply contains_iff in E as (a & b & E). now apply H in E.
Qed.

(** * Lists, slices *)

Lemma len_nonneg {A} (l : list A) : 0 <= len l.
Proof. unfold len. lia. Qed.

Lemma len_app {A} (a b : list A) : len (a ++ b) = len a + len b.
Proof. unfold len. rewrite app_length. lia. Qed.

Lemma len_cons {A} (x : A) l : len (x :: l) = 1 + len l.
Proof. unfold len. cbn [List.length]. lia. Qed.

Lemma len_nil {A} : len (@nil A) = 0.
Proof. reflexivity. Qed.

Lemma skipn_app_exact {A} (a b : list A) : skipn (List.length a) (a ++ b) = b.
Proof. induction a; cbn; auto. Qed.

Lemma firstn_app_exact {A} (a b : list A) : firstn (List.length a) (a ++ b) = a.
Proof. induction a; cbn; [reflexivity|]. now f_equal. Qed.

Lemma slice_from_app {A} (a b : list A) : slice_from (a ++ b) (len a) = b.
Proof.
  unfold slice_from, clampi. pose proof (len_nonneg a).
  destruct (len a <? 0) eqn:E; [lia|].
  unfold len. rewrite Nat2Z.id. apply skipn_app_exact.
Qed.

Lemma slice_to_app {A} (a b : list A) : slice_to (a ++ b) (len a) = a.
Proof.
  unfold slice_to, clampi. pose proof (len_nonneg a).
  destruct (len a <? 0) eqn:E; [lia|].
  unfold len. rewrite Nat2Z.id. apply firstn_app_exact.
Qed.

(** [s[:-n]] *)
Lemma slice_to_neg {A} (a b : list A) : b <> [] -> slice_to (a ++ b) (- len b) = a.
Proof.
  intros Hb. unfold slice_to, clampi.
  assert (len b > 0). { destruct b; [congruence|]. rewrite len_cons. pose proof (len_nonneg b). lia. }
  destruct (- len b <? 0) eqn:E; [|lia].
  rewrite len_app. replace (len a + len b + - len b) with (len a) by lia.
  unfold len. rewrite Nat2Z.id. apply firstn_app_exact.
Qed.

Lemma dropwhile_spec {A} (f : A -> bool) l :
  exists p, l = p ++ dropwhile f l /\ forallb f p = true /\
            match dropwhile f l with [] => True | x :: _ => f x = false end.
Proof.
  induction l as [|x l (p & H1 & H2 & H3)]; cbn.
  - exists []. auto.
  - destruct (f x) eqn:E.
    + exists (x :: p). cbn. rewrite E, H2, <- H1. auto.
    + exists []. cbn. auto.
Qed.

Lemma dropwhile_app_all {A} (f : A -> bool) p l :
  forallb f p = true -> dropwhile f (p ++ l) = dropwhile f l.
Proof.
  induction p; cbn; [reflexivity|]. destruct (f a); cbn; [auto|congruence].
Qed.

Lemma dropwhile_head {A} (f : A -> bool) x l :
  f x = false -> dropwhile f (x :: l) = x :: l.
Proof. cbn. now intros ->. Qed.

Lemma takewhile_app_dropwhile {A} (f : A -> bool) l : takewhile f l ++ dropwhile f l = l.
Proof. induction l; cbn; [reflexivity|]. destruct (f a); cbn; congruence. Qed.

Lemma takewhile_app_all {A} (f : A -> bool) p x l :
  forallb f p = true -> f x = false -> takewhile f (p ++ x :: l) = p.
Proof.
  induction p; cbn; intros.
  - now rewrite H0.
  - destruct (f a); cbn in *; [f_equal; auto|congruence].
Qed.

Lemma takewhile_all {A} (f : A -> bool) p : forallb f p = true -> takewhile f p = p.
Proof.
  induction p; cbn; intros; [reflexivity|].
  destruct (f a); cbn in *; [f_equal; auto|congruence].
Qed.

Lemma takewhile_forallb {A} (f : A -> bool) l : forallb f (takewhile f l) = true.
Proof. induction l; cbn; [reflexivity|]. destruct (f a) eqn:E; cbn; [now rewrite E|reflexivity]. Qed.

(** [strip] of a string without blank ends. *)
Definition no_blank_ends (f : ascii -> bool) (s : str) : Prop :=
  match s with [] => True | c :: _ => f c = false end /\
  match rev s with [] => True | c :: _ => f c = false end.

Lemma strip_by_pad f a s b :
  forallb f a = true -> forallb f b = true -> no_blank_ends f s ->
  strip_by f (a ++ s ++ b) = s.
Proof.
  intros Ha Hb [H1 H2]. unfold strip_by, rstrip_by, lstrip_by.
  rewrite dropwhile_app_all by assumption.
  destruct s as [|c s].
  - cbn [app]. destruct (dropwhile_spec f b) as (p & E1 & E2 & E3).
    destruct (dropwhile f b) as [|x r] eqn:Ed; [reflexivity|].
    rewrite E1, forallb_app in Hb. cbn in Hb. rewrite E3 in Hb.
    rewrite andb_false_r in Hb. congruence.
  - cbn [app]. rewrite dropwhile_head by exact H1.
    rewrite app_comm_cons, rev_app_distr.
    rewrite dropwhile_app_all.
    + destruct (rev (c :: s)) as [|y r] eqn:E.
      * apply (f_equal (@rev _)) in E. rewrite rev_involutive in E. discriminate.
      * rewrite dropwhile_head by exact H2. rewrite <- E. apply rev_involutive.
    + apply forallb_forall. intros x Hx. apply in_rev in Hx. rewrite forallb_forall in Hb. auto.
Qed.

(** * Dictionaries *)

Section DictFacts.
  Context {K V : Type} (eqb : K -> K -> bool).
  Hypothesis eqb_eq : forall a b, eqb a b = true <-> a = b.

  Lemma eqb_refl' a : eqb a a = true.
  Proof. now apply eqb_eq. Qed.
  Lemma eqb_neq' a b : a <> b -> eqb a b = false.
  Proof. intros H. destruct (eqb a b) eqn:E; [|reflexivity]. apply eqb_eq in E. contradiction. Qed.

  Lemma dget_dset_eq k v (d : dict K V) : dget eqb k (dset eqb k v d) = Some v.
  Proof.
    induction d as [|[k' v'] d IH]; cbn.
    - now rewrite eqb_refl'.
    - destruct (eqb k k') eqn:E; cbn; rewrite E; auto.
  Qed.

  Lemma dget_dset_neq k k' v (d : dict K V) : k <> k' -> dget eqb k (dset eqb k' v d) = dget eqb k d.
  Proof.
    intros Hn. induction d as [|[k2 v2] d IH]; cbn.
    - now rewrite eqb_neq'.
    - destruct (eqb k' k2) eqn:E; cbn.
      + apply eqb_eq in E. subst. rewrite !eqb_neq' by assumption. reflexivity.
      + destruct (eqb k k2); auto.
  Qed.

  Lemma dget_dset k k' v (d : dict K V) :
    dget eqb k (dset eqb k' v d) = if eqb k k' then Some v else dget eqb k d.
  Proof.
    destruct (eqb k k') eqn:E.
    - apply eqb_eq in E. subst. apply dget_dset_eq.
    - apply dget_dset_neq. intros ->. rewrite eqb_refl' in E. congruence.
  Qed.

  Lemma dget_In k v (d : dict K V) : dget eqb k d = Some v -> In (k, v) d.
  Proof.
    induction d as [|[k' v'] d IH]; cbn; [congruence|].
    destruct (eqb k k') eqn:E.
    - apply eqb_eq in E. intros [= ->]. left. congruence.
    - auto.
  Qed.

  Lemma dget_None k (d : dict K V) : dget eqb k d = None <-> ~ In k (dkeys d).
  Proof.
    induction d as [|[k' v'] d IH]; cbn; [tauto|].
    destruct (eqb k k') eqn:E.
    - apply eqb_eq in E. subst. split; [congruence|]. intros H. exfalso. auto.
    - rewrite IH. split; intros H.
      + intros [->|H2]; [|auto]. rewrite eqb_refl' in E. congruence.
      + auto.
  Qed.

  Lemma dget_In_nodup k v (d : dict K V) :
    NoDup (dkeys d) -> In (k, v) d -> dget eqb k d = Some v.
  Proof.
    induction d as [|[k' v'] d IH]; cbn; [tauto|].
    intros Hnd [H|H]; inversion Hnd; subst.
    - injection H as -> ->. now rewrite eqb_refl'.
    - rewrite eqb_neq'; [auto|]. intros ->. apply H2. unfold dkeys.
      apply in_map_iff. exists (k', v). auto.
  Qed.

  Lemma dkeys_dset_in k v (d : dict K V) k' :
    In k' (dkeys (dset eqb k v d)) <-> k' = k \/ In k' (dkeys d).
  Proof.
    induction d as [|[k2 v2] d IH]; cbn.
    - intuition congruence.
    - destruct (eqb k k2) eqn:E; cbn.
      + apply eqb_eq in E. subst. intuition congruence.
      + rewrite IH. intuition congruence.
  Qed.

  Lemma dset_keys k v (d : dict K V) :
    dkeys (dset eqb k v d) = if dmem eqb k d then dkeys d else dkeys d ++ [k].
  Proof.
    unfold dkeys, dmem in *. induction d as [|[k2 v2] d IH]; cbn; [reflexivity|].
    destruct (eqb k k2) eqn:E; cbn; [reflexivity|].
    rewrite IH. now destruct (dget eqb k d).
  Qed.

  Lemma dset_NoDup k v (d : dict K V) : NoDup (dkeys d) -> NoDup (dkeys (dset eqb k v d)).
  Proof.
    induction d as [|[k2 v2] d IH]; cbn; intros H.
    - constructor; [easy|constructor].
    - inversion H; subst. destruct (eqb k k2) eqn:E; cbn.
      + constructor; auto.
      + constructor; [|auto]. intros HI. apply dkeys_dset_in in HI as [->|HI].
        * rewrite eqb_refl' in E. congruence.
        * auto.
  Qed.

  Lemma dupdate_NoDup (e d : dict K V) : NoDup (dkeys d) -> NoDup (dkeys (dupdate eqb d e)).
  Proof.
    unfold dupdate. revert d. induction e as [|[k v] e IH]; cbn; intros d H; [assumption|].
    apply IH, dset_NoDup, H.
  Qed.

  Lemma dict_of_NoDup l : NoDup (dkeys (dict_of eqb l : dict K V)).
  Proof. apply dupdate_NoDup. constructor. Qed.

  (** Value for [k] that the last binding in a list of pairs gives. *)
  Fixpoint last_binding (k : K) (l : list (K * V)) : option V :=
    match l with
    | [] => None
    | (k', v) :: l' =>
        match last_binding k l' with
        | Some w => Some w
        | None => if eqb k k' then Some v else None
        end
    end.

  Lemma dget_dupdate k (e d : dict K V) :
    dget eqb k (dupdate eqb d e) =
    match last_binding k e with Some v => Some v | None => dget eqb k d end.
  Proof.
    unfold dupdate. revert d. induction e as [|[k' v] e IH]; cbn; intros d; [reflexivity|].
    rewrite IH. destruct (last_binding k e); [reflexivity|]. rewrite dget_dset.
    now destruct (eqb k k').
  Qed.

  Lemma dget_dict_of k l : dget eqb k (dict_of eqb l : dict K V) = last_binding k l.
  Proof. unfold dict_of. rewrite dget_dupdate. cbn. now destruct (last_binding k l). Qed.

  Lemma last_binding_nodup k (d : dict K V) :
    NoDup (dkeys d) -> last_binding k d = dget eqb k d.
  Proof.
    induction d as [|[k' v'] d IH]; cbn; intros H; [reflexivity|].
    inversion H; subst. rewrite IH by assumption.
    destruct (eqb k k') eqn:E.
    - apply eqb_eq in E. subst. assert (dget eqb k' d = None) as -> by now apply dget_None.
      reflexivity.
    - now destruct (dget eqb k d).
  Qed.

  Lemma last_binding_app k l1 l2 :
    last_binding k (l1 ++ l2) =
    match last_binding k l2 with Some v => Some v | None => last_binding k l1 end.
  Proof.
    induction l1 as [|[k' v] l1 IH]; cbn; [now destruct (last_binding k l2)|].
    rewrite IH. now destruct (last_binding k l2).
  Qed.

  Lemma last_binding_In k v l : last_binding k l = Some v -> In (k, v) l.
  Proof.
    induction l as [|[k' v'] l IH]; cbn; [congruence|].
    destruct (last_binding k l).
    - intros [= ->]. auto.
    - destruct (eqb k k') eqn:E; [|congruence]. apply eqb_eq in E. intros [= ->]. left. congruence.
  Qed.

  Lemma last_binding_None k l : last_binding k l = None <-> forall v, ~ In (k, v) l.
  Proof.
    induction l as [|[k' v'] l IH]; cbn; [intuition|].
    destruct (last_binding k l) eqn:E.
    - split; [congruence|]. intros H. apply last_binding_In in E. exfalso. eapply H. eauto.
    - destruct (eqb k k') eqn:E2.
      + apply eqb_eq in E2. subst. split; [congruence|]. intros H. exfalso. eapply H. eauto.
      + split; [|auto]. intros _ v [H|H].
        * injection H as -> ->. rewrite eqb_refl' in E2. congruence.
        * eapply IH; eauto.
  Qed.
  Lemma ddel_keys k (d : dict K V) : NoDup (dkeys d) ->
    forall k', In k' (dkeys (ddel eqb k d)) <-> k' <> k /\ In k' (dkeys d).
  Proof.
    induction d as [|[k2 v2] d IH]; cbn; intros Hnd k'.
    - tauto.
    - inversion Hnd; subst. destruct (eqb k k2) eqn:E.
      + apply eqb_eq in E. subst. split.
        * intros H. split; [|auto]. intros ->. contradiction.
        * intros [H3 [H4|H4]]; congruence.
      + cbn. rewrite IH by assumption. split.
        * intros [->|[H3 H4]]; [|tauto]. split; [|auto]. intros ->. rewrite eqb_refl' in E. congruence.
        * intros [H3 [H4|H4]]; auto.
  Qed.

  Lemma ddel_NoDup k (d : dict K V) : NoDup (dkeys d) -> NoDup (dkeys (ddel eqb k d)).
  Proof.
    induction d as [|[k2 v2] d IH]; cbn; intros Hnd; [constructor|].
    inversion Hnd; subst. destruct (eqb k k2) eqn:E; [assumption|].
    cbn. constructor; [|auto]. intros HI. apply ddel_keys in HI; tauto.
  Qed.
End DictFacts.

(** * Sorting *)

Section SortFacts.
  Context {A : Type} (leb : A -> A -> bool).

  Lemma insert_perm x l : Permutation (x :: l) (insert_sorted leb x l).
  Proof.
    induction l as [|y l IH]; cbn; [reflexivity|].
    destruct (leb x y); [reflexivity|].
    rewrite perm_swap. now constructor.
  Qed.

  Lemma sort_perm l : Permutation l (sort_stable leb l).
  Proof.
    induction l as [|x l IH]; cbn; [constructor|].
    rewrite <- insert_perm. now constructor.
  Qed.

  Hypothesis total : forall a b, leb a b = true \/ leb b a = true.
  Hypothesis trans : forall a b c, leb a b = true -> leb b c = true -> leb a c = true.

  Lemma insert_sorted_ok x l :
    StronglySorted (fun a b => leb a b = true) l ->
    StronglySorted (fun a b => leb a b = true) (insert_sorted leb x l).
  Proof.
    induction l as [|y l IH]; cbn; intros H.
    - constructor; [constructor|constructor].
    - inversion H; subst. destruct (leb x y) eqn:E.
      + constructor; [assumption|]. constructor; [assumption|].
        eapply Forall_impl; [|eassumption]. intros z Hz. eauto.
      + constructor; [auto|]. rewrite <- insert_perm. constructor; [|assumption].
        destruct (total x y); congruence.
  Qed.

  Lemma sort_sorted l : StronglySorted (fun a b => leb a b = true) (sort_stable leb l).
  Proof. induction l; cbn; [constructor|]. now apply insert_sorted_ok. Qed.

  Lemma sort_in x l : In x (sort_stable leb l) <-> In x l.
  Proof.
    split; intros H.
    - eapply Permutation_in; [symmetry; apply sort_perm|assumption].
    - eapply Permutation_in; [apply sort_perm|assumption].
  Qed.

  (** Two sorted permutations of each other are equal when distinct elements
      never tie. *)
  Lemma sorted_unique l1 l2 :
    Permutation l1 l2 ->
    (forall a b, In a l1 -> In b l1 -> leb a b = true -> leb b a = true -> a = b) ->
    StronglySorted (fun a b => leb a b = true) l1 ->
    StronglySorted (fun a b => leb a b = true) l2 -> l1 = l2.
  Proof.
    revert l2. induction l1 as [|x l1 IH]; intros l2 Hp Hanti Hs1 Hs2.
    - apply Permutation_nil in Hp. now subst.
    - destruct l2 as [|y l2]; [symmetry in Hp; apply Permutation_nil in Hp; discriminate|].
      inversion Hs1; subst. inversion Hs2; subst.
      assert (leb x x = true) by (destruct (total x x); assumption).
      assert (leb y y = true) by (destruct (total y y); assumption).
      assert (x = y).
      { apply Hanti.
        - now left.
        - eapply Permutation_in; [symmetry; exact Hp|now left].
        - assert (In y (x :: l1)) as Hin by (eapply Permutation_in; [symmetry; exact Hp|now left]).
          destruct Hin as [->|Hin]; [assumption|]. rewrite Forall_forall in H2. auto.
        - assert (In x (y :: l2)) as Hin by (eapply Permutation_in; [exact Hp|now left]).
          destruct Hin as [->|Hin]; [assumption|]. rewrite Forall_forall in H4. auto. }
      subst y. f_equal. apply IH; auto.
      + now apply Permutation_cons_inv in Hp.
      + intros a b Ha Hb. apply Hanti; now right.
  Qed.

  Lemma sort_perm_eq l1 l2 :
    Permutation l1 l2 ->
    (forall a b, In a l1 -> In b l1 -> leb a b = true -> leb b a = true -> a = b) ->
    sort_stable leb l1 = sort_stable leb l2.
  Proof.
    intros Hp Hanti. apply sorted_unique.
    - now rewrite <- !sort_perm.
    - intros a b Ha Hb. apply Hanti; eapply sort_in; eassumption.
    - apply sort_sorted.
    - apply sort_sorted.
  Qed.

  (** Stability: elements that tie with [x] keep their relative order. *)
  Lemma insert_filter_tie (f : A -> bool) x l :
    (forall a b, f a = true -> f b = true -> leb a b = true) ->
    filter f (insert_sorted leb x l) = filter f (x :: l).
  Proof.
    intros Hf. induction l as [|y l IH]; [reflexivity|].
    cbn [insert_sorted]. destruct (leb x y) eqn:E; [reflexivity|].
    cbn [filter]. rewrite IH. cbn [filter]. destruct (f x) eqn:Ex; destruct (f y) eqn:Ey; try reflexivity.
    rewrite Hf in E by assumption. congruence.
  Qed.

  Lemma sort_stable_ties (f : A -> bool) l :
    (forall a b, f a = true -> f b = true -> leb a b = true) ->
    filter f (sort_stable leb l) = filter f l.
  Proof.
    intros Hf. induction l as [|x l IH]; [reflexivity|].
    cbn [sort_stable fold_right]. rewrite insert_filter_tie by assumption.
    change (fold_right (insert_sorted leb) [] l) with (sort_stable leb l).
    cbn [filter]. now rewrite IH.
  Qed.
End SortFacts.

Lemma sort_by_perm {A K} (leb : K -> K -> bool) (key : A -> K) l : Permutation l (sort_by leb key l).
Proof. apply sort_perm. Qed.

Lemma sort_by_in {A K} (leb : K -> K -> bool) (key : A -> K) x l : In x (sort_by leb key l) <-> In x l.
Proof. apply sort_in. Qed.

(** A list already sorted is left alone. *)
Lemma sort_id {A} (leb : A -> A -> bool) l :
  StronglySorted (fun a b => leb a b = true) l -> sort_stable leb l = l.
Proof.
  induction l as [|x l IH]; cbn; intros H; [reflexivity|].
  inversion H as [|? ? Hs Hf]; subst. change (insert_sorted leb x (sort_stable leb l) = x :: l).
  rewrite IH by assumption.
  destruct l as [|y l]; cbn; [reflexivity|].
  inversion Hf as [|? ? Hy Hf']; subst. now rewrite Hy.
Qed.

(** * First maximum / minimum *)

Lemma max_by_in {A} (key : A -> Z) b l : In (max_by key b l) (b :: l).
Proof.
  revert b; induction l as [|x l IH]; intros b; cbn; [auto|].
  specialize (IH (if key b <? key x then x else b)).
  destruct (key b <? key x); cbn in *; tauto.
Qed.

Lemma max_by_ge {A} (key : A -> Z) b l x : In x (b :: l) -> key x <= key (max_by key b l).
Proof.
  revert b x; induction l as [|y l IH]; intros b x H; cbn.
  - destruct H as [->|[]]. lia.
  - destruct (key b <? key y) eqn:E.
    + destruct H as [->|[->|H]].
      * specialize (IH y y (or_introl eq_refl)). lia.
      * apply IH. now left.
      * apply IH. now right.
    + destruct H as [->|[->|H]].
      * apply IH. now left.
      * specialize (IH b b (or_introl eq_refl)). lia.
      * apply IH. now right.
Qed.

Lemma min_by_in {A} (key : A -> Z) b l : In (min_by key b l) (b :: l).
Proof.
  revert b; induction l as [|x l IH]; intros b; cbn; [auto|].
  specialize (IH (if key x <? key b then x else b)).
  destruct (key x <? key b); cbn in *; tauto.
Qed.

Lemma min_by_le {A} (key : A -> Z) b l x : In x (b :: l) -> key (min_by key b l) <= key x.
Proof.
  revert b x; induction l as [|y l IH]; intros b x H; cbn.
  - destruct H as [->|[]]. lia.
  - destruct (key y <? key b) eqn:E.
    + destruct H as [->|[->|H]].
      * specialize (IH y y (or_introl eq_refl)). lia.
      * apply IH. now left.
      * apply IH. now right.
    + destruct H as [->|[->|H]].
      * apply IH. now left.
      * specialize (IH b b (or_introl eq_refl)). lia.
      * apply IH. now right.
Qed.

(** * Versions *)

Lemma ver_eqb_eq a b : ver_eqb a b = true <-> a = b.
Proof.
  split.
  - revert b; induction a; destruct b; cbn; try congruence.
    intros H. apply andb_prop in H as [H1 H2]. f_equal; [lia|auto].
  - intros ->. induction b; cbn; [reflexivity|]. now rewrite Z.eqb_refl.
Qed.

Lemma ver_ltb_irrefl a : ver_ltb a a = false.
Proof. induction a; cbn; [reflexivity|]. now rewrite Z.ltb_irrefl. Qed.

Lemma ver_ltb_trans a b c : ver_ltb a b = true -> ver_ltb b c = true -> ver_ltb a c = true.
Proof.
  revert b c; induction a as [|x a IH]; intros [|y b] [|z c]; cbn; try congruence.
  destruct (x <? y) eqn:E1; destruct (y <? x) eqn:E2;
  destruct (y <? z) eqn:E3; destruct (z <? y) eqn:E4; try lia; try congruence;
  intros H1 H2;
  destruct (x <? z) eqn:E5; destruct (z <? x) eqn:E6; try lia; try reflexivity.
  eauto.
Qed.

Lemma ver_ltb_total a b : ver_ltb a b = false -> ver_ltb b a = false -> a = b.
Proof.
  revert b; induction a as [|x a IH]; intros [|y b]; cbn; try congruence.
  destruct (x <? y) eqn:E1; destruct (y <? x) eqn:E2; try congruence; try lia.
  intros H1 H2. f_equal; [lia|auto].
Qed.

Lemma ver_ltb_asym a b : ver_ltb a b = true -> ver_ltb b a = false.
Proof.
  intros H. destruct (ver_ltb b a) eqn:E; [|reflexivity].
  pose proof (ver_ltb_trans _ _ _ H E) as F. rewrite ver_ltb_irrefl in F. congruence.
Qed.

Lemma ver_leb_refl a : ver_leb a a = true.
Proof. unfold ver_leb. now rewrite ver_ltb_irrefl. Qed.

Lemma ver_leb_trans a b c : ver_leb a b = true -> ver_leb b c = true -> ver_leb a c = true.
Proof.
  unfold ver_leb. intros H1 H2. destruct (ver_ltb c a) eqn:E; [|reflexivity].
  destruct (ver_ltb b c) eqn:E2.
  - rewrite (ver_ltb_trans _ _ _ E2 E) in H1. cbn in H1. congruence.
  - destruct (ver_ltb c b) eqn:E3; [cbn in H2; congruence|].
    assert (b = c) as -> by (apply ver_ltb_total; auto). rewrite E in H1. cbn in H1. congruence.
Qed.

Lemma ver_leb_lt_trans a b c : ver_leb a b = true -> ver_ltb b c = true -> ver_ltb a c = true.
Proof.
  unfold ver_leb. intros H1 H2. destruct (ver_ltb a b) eqn:E.
  - eapply ver_ltb_trans; eassumption.
  - destruct (ver_ltb b a) eqn:E2; [cbn in H1; congruence|].
    assert (a = b) as -> by (apply ver_ltb_total; auto). assumption.
Qed.

Lemma ver_lt_leb_trans a b c : ver_ltb a b = true -> ver_leb b c = true -> ver_ltb a c = true.
Proof.
  unfold ver_leb. intros H1 H2. destruct (ver_ltb b c) eqn:E.
  - eapply ver_ltb_trans; eassumption.
  - destruct (ver_ltb c b) eqn:E2; [cbn in H2; congruence|].
    assert (b = c) as <- by (apply ver_ltb_total; auto). assumption.
Qed.

Lemma ver_leb_total a b : ver_leb a b = true \/ ver_leb b a = true.
Proof.
  unfold ver_leb. destruct (ver_ltb b a) eqn:E; [|auto]. right. now rewrite (ver_ltb_asym _ _ E).
Qed.

(** * Ranges *)

Lemma zrange_in lo hi x : In x (zrange lo hi) <-> lo <= x < hi.
Proof.
  unfold zrange. rewrite in_map_iff. split.
  - intros (i & <- & Hi). apply in_seq in Hi. lia.
  - intros H. exists (Z.to_nat (x - lo)). split; [lia|]. apply in_seq. lia.
Qed.

Lemma NoDup_zrange lo hi : NoDup (zrange lo hi).
Proof.
  unfold zrange. apply FinFun.Injective_map_NoDup; [|apply seq_NoDup].
  intros a b H. lia.
Qed.

Lemma zrange_length lo hi : List.length (zrange lo hi) = Z.to_nat (hi - lo).
Proof. unfold zrange. now rewrite map_length, seq_length. Qed.

Lemma zrange_empty lo hi : hi <= lo -> zrange lo hi = [].
Proof. intros H. unfold zrange. now replace (Z.to_nat (hi - lo)) with O by lia. Qed.

Lemma zrange_cons lo hi : lo < hi -> zrange lo hi = lo :: zrange (lo + 1) hi.
Proof.
  intros H. unfold zrange. replace (Z.to_nat (hi - lo)) with (S (Z.to_nat (hi - (lo + 1)))) by lia.
  cbn [seq map]. f_equal; [lia|]. rewrite <- seq_shift, map_map. apply map_ext. intros i. lia.
Qed.

Lemma enum_from_app {A} i (a b : list A) :
  enum_from i (a ++ b) = enum_from i a ++ enum_from (i + len a) b.
Proof.
  revert i; induction a; intros i; cbn.
  - now rewrite Z.add_0_r.
  - rewrite IHa, len_cons. now rewrite Z.add_assoc.
Qed.

Lemma enum_from_nth {A} i (l : list A) k x :
  In (k, x) (enum_from i l) <-> i <= k /\ nth_error l (Z.to_nat (k - i)) = Some x.
Proof.
  revert i; induction l as [|y l IH]; intros i; cbn.
  - split; [tauto|]. intros [_ H]. destruct (Z.to_nat (k - i)); discriminate.
  - rewrite IH. split.
    + intros [[= -> ->]|[H1 H2]].
      * split; [lia|]. now rewrite Z.sub_diag.
      * split; [lia|]. replace (Z.to_nat (k - i)) with (S (Z.to_nat (k - (i + 1)))) by lia. exact H2.
    + intros [H1 H2]. destruct (Z.eq_dec k i) as [->|Hne].
      * left. rewrite Z.sub_diag in H2. cbn in H2. congruence.
      * right. split; [lia|]. replace (Z.to_nat (k - i)) with (S (Z.to_nat (k - (i + 1)))) in H2 by lia.
        exact H2.
Qed.

Lemma enum_from_map_fst {A} i (l : list A) : map fst (enum_from i l) = zrange i (i + len l).
Proof.
  revert i; induction l as [|y l IH]; intros i; cbn [enum_from map fst].
  - rewrite zrange_empty; [reflexivity|rewrite len_nil; lia].
  - rewrite len_cons. pose proof (len_nonneg l). rewrite zrange_cons by lia. f_equal. rewrite IH.
    f_equal. lia.
Qed.

Lemma enum_from_map_snd {A} i (l : list A) : map snd (enum_from i l) = l.
Proof. revert i; induction l; intros i; cbn; [reflexivity|]. now f_equal. Qed.

(** * Decimal and hexadecimal text *)

Lemma digit_val_chr b z : 2 <= b <= 16 -> 0 <= z < b -> digit_val (digit_chr z) = z.
Proof.
  intros Hb H. unfold digit_val, digit_chr, in_range.
  destruct (z <? 10) eqn:E; rewrite code_chr by lia.
  - destruct ((48 <=? 48 + z) && (48 + z <=? 57)) eqn:E2; lia.
  - destruct ((48 <=? 87 + z) && (87 + z <=? 57)) eqn:E2; [lia|].
    destruct ((65 <=? 87 + z) && (87 + z <=? 70)) eqn:E3; [lia|].
    destruct ((97 <=? 87 + z) && (87 + z <=? 102)) eqn:E4; lia.
Qed.

Lemma digit_chr_dec z : 0 <= z < 10 -> is_dec (digit_chr z) = true.
Proof.
  intros H. unfold is_dec, digit_chr, in_range. destruct (z <? 10) eqn:E; [|lia].
  rewrite code_chr by lia. lia.
Qed.

Lemma digit_chr_hex z : 0 <= z < 16 -> is_hex (digit_chr z) = true.
Proof.
  intros H. unfold is_hex, is_dec, digit_chr, in_range.
  destruct (z <? 10) eqn:E; rewrite code_chr by lia; lia.
Qed.

Lemma fold_digits b s acc :
  fold_left (fun acc c => acc * b + digit_val c) s acc =
  acc * b ^ len s + fold_left (fun acc c => acc * b + digit_val c) s 0.
Proof.
  revert acc; induction s as [|c s IH]; intros acc; cbn [fold_left].
  - rewrite len_nil. lia.
  - rewrite IH, (IH (0 * b + _)), len_cons, Z.pow_add_r, Z.pow_1_r by (try apply len_nonneg; lia).
    ring.
Qed.

Lemma int_of_digits_app b s t :
  int_of_digits b (s ++ t) = int_of_digits b s * b ^ len t + int_of_digits b t.
Proof. unfold int_of_digits. rewrite fold_left_app. apply fold_digits. Qed.

Lemma int_of_digits_cons b c t :
  int_of_digits b (c :: t) = digit_val c * b ^ len t + int_of_digits b t.
Proof. change (c :: t) with ([c] ++ t). now rewrite int_of_digits_app. Qed.

Lemma digits_fuel_correct b n z acc :
  2 <= b <= 16 -> 0 <= z < 2 ^ Z.of_nat n ->
  int_of_digits b (digits_fuel n b z acc) = z * b ^ len acc + int_of_digits b acc.
Proof.
  intros Hb. revert z acc. induction n as [|n IH]; intros z acc Hz.
  - change (2 ^ Z.of_nat 0) with 1 in Hz. assert (z = 0) by lia. subst. cbn [digits_fuel]. ring.
  - cbn [digits_fuel].
    assert (0 <= z mod b < b) by (apply Z.mod_pos_bound; lia).
    assert (z = b * (z / b) + z mod b) by (apply Z.div_mod; lia).
    destruct (z / b =? 0) eqn:E.
    + rewrite int_of_digits_cons, (digit_val_chr b) by lia.
      assert (z / b = 0) as E0 by lia. rewrite E0 in H0. replace (z mod b) with z by lia. reflexivity.
    + rewrite IH.
      * rewrite int_of_digits_cons, (digit_val_chr b) by lia. rewrite len_cons, Z.pow_add_r, Z.pow_1_r
          by (try apply len_nonneg; lia).
        transitivity ((b * (z / b) + z mod b) * b ^ len acc + int_of_digits b acc); [ring|].
        now rewrite <- H0.
      * split; [apply Z.div_pos; lia|].
        rewrite Nat2Z.inj_succ, Z.pow_succ_r in Hz by lia.
        apply Z.div_lt_upper_bound; [lia|].
        assert (0 < 2 ^ Z.of_nat n) by lia. nia.
Qed.

Lemma digits_fuel_enough z : 0 <= z -> z < 2 ^ Z.of_nat (S (Z.to_nat (Z.log2 z))).
Proof.
  intros H. rewrite Nat2Z.inj_succ, Z2Nat.id by apply Z.log2_nonneg.
  destruct (Z.eq_dec z 0) as [->|Hn]; [cbn; lia|].
  apply Z.log2_spec. lia.
Qed.

(** Reading back printed digits. *)
Lemma int_of_digits_digits b z : 2 <= b <= 16 -> 0 <= z -> int_of_digits b (digits b z) = z.
Proof.
  intros Hb Hz. unfold digits. rewrite digits_fuel_correct; [|assumption|].
  - rewrite len_nil. cbn. lia.
  - split; [assumption|now apply digits_fuel_enough].
Qed.

Lemma digits_fuel_forall (P : ascii -> Prop) b n z acc :
  2 <= b <= 16 -> (forall d, 0 <= d < b -> P (digit_chr d)) -> Forall P acc ->
  Forall P (digits_fuel n b z acc).
Proof.
  intros Hb HP. revert z acc. induction n as [|n IH]; intros z acc Hacc; cbn; [assumption|].
  assert (P (digit_chr (z mod b))) by (apply HP, Z.mod_pos_bound; lia).
  destruct (z / b =? 0); [now constructor|]. apply IH. now constructor.
Qed.

Lemma digits_fuel_ne n b z acc : n <> O -> digits_fuel n b z acc <> [].
Proof.
  revert z acc. induction n as [|n IH]; intros z acc H; [congruence|]. cbn.
  destruct (z / b =? 0); [congruence|].
  destruct n; [cbn; congruence|]. apply IH. congruence.
Qed.

Lemma digits_ne b z : digits b z <> [].
Proof. apply digits_fuel_ne. congruence. Qed.

Lemma digits_dec z : Forall (fun c => is_dec c = true) (digits 10 z).
Proof.
  apply digits_fuel_forall; [lia| |constructor]. intros. now apply digit_chr_dec.
Qed.

Lemma digits_dec_b z : forallb is_dec (digits 10 z) = true.
Proof. apply forallb_forall. apply Forall_forall, digits_dec. Qed.

Lemma digits_hex z : Forall (fun c => is_hex c = true) (digits 16 z).
Proof.
  apply digits_fuel_forall; [lia| |constructor]. intros. now apply digit_chr_hex.
Qed.

Lemma digits_hex_b z : forallb is_hex (digits 16 z) = true.
Proof. apply forallb_forall. apply Forall_forall, digits_hex. Qed.

Lemma digits_inj b x y : 2 <= b <= 16 -> 0 <= x -> 0 <= y -> digits b x = digits b y -> x = y.
Proof.
  intros Hb Hx Hy H. apply (f_equal (int_of_digits b)) in H.
  now rewrite !int_of_digits_digits in H.
Qed.

Lemma int_dec_digits z : 0 <= z -> int_dec (digits 10 z) = z.
Proof. intros. apply int_of_digits_digits; lia. Qed.

Lemma int_hex_digits z : 0 <= z -> int_hex (digits 16 z) = z.
Proof. intros. apply int_of_digits_digits; lia. Qed.

(** Leading zeros do not matter. *)
Lemma int_of_digits_zeros b n s : int_of_digits b (repeat "0"%char n ++ s) = int_of_digits b s.
Proof.
  induction n; [reflexivity|]. cbn [repeat app]. rewrite int_of_digits_cons.
  rewrite IHn. reflexivity.
Qed.

Lemma digit_val_nonneg c : 0 <= digit_val c < 16.
Proof.
  unfold digit_val, in_range. pose proof (code_range c).
  repeat match goal with |- context [if ?x then _ else _] => destruct x eqn:? end; lia.
Qed.

Lemma int_of_digits_nonneg b s : 0 <= b -> 0 <= int_of_digits b s.
Proof.
  intros Hb. induction s using rev_ind; [reflexivity|].
  rewrite int_of_digits_app. cbn. pose proof (digit_val_nonneg x). nia.
Qed.

(** * Bytes *)

Lemma le_val_range b : 0 <= le_val b < 256 ^ len b.
Proof.
  induction b as [|c b IH]; cbn [le_val]; [vm_compute; split; congruence|].
  rewrite len_cons, Z.pow_add_r, Z.pow_1_r by (try apply len_nonneg; lia).
  pose proof (code_range c). lia.
Qed.

Lemma len_rev {A} (l : list A) : len (rev l) = len l.
Proof. unfold len. now rewrite rev_length. Qed.

Lemma uint_of_range e b : 0 <= uint_of e b < 256 ^ len b.
Proof.
  unfold uint_of. destruct e; [rewrite <- (len_rev b)|]; apply le_val_range.
Qed.

(** Encoders used by specifications. *)
Fixpoint le_bytes (n : nat) (z : Z) : bytes :=
  match n with
  | O => []
  | S n' => chr (z mod 256) :: le_bytes n' (z / 256)
  end.
Definition enc_uint (big_endian : bool) (n : nat) (z : Z) : bytes :=
  if big_endian then rev (le_bytes n z) else le_bytes n z.

Lemma le_bytes_length n z : List.length (le_bytes n z) = n.
Proof. revert z; induction n; intros; cbn; auto. Qed.

Lemma enc_uint_length e n z : List.length (enc_uint e n z) = n.
Proof. unfold enc_uint. destruct e; rewrite ?rev_length; apply le_bytes_length. Qed.

Lemma le_val_le_bytes n z : 0 <= z < 256 ^ Z.of_nat n -> le_val (le_bytes n z) = z.
Proof.
  revert z; induction n as [|n IH]; intros z Hz.
  - cbn in *. lia.
  - cbn [le_bytes le_val]. rewrite Nat2Z.inj_succ, Z.pow_succ_r in Hz by lia.
    assert (0 <= z mod 256 < 256) by (apply Z.mod_pos_bound; lia).
    rewrite code_chr by lia. rewrite IH.
    + pose proof (Z.div_mod z 256). lia.
    + split; [apply Z.div_pos; lia|]. apply Z.div_lt_upper_bound; lia.
Qed.

Lemma uint_of_enc e n z : 0 <= z < 256 ^ Z.of_nat n -> uint_of e (enc_uint e n z) = z.
Proof.
  intros. unfold uint_of, enc_uint. destruct e; [rewrite rev_involutive|]; now apply le_val_le_bytes.
Qed.

(** * Chunks *)

Lemma chunks_concat n (l : list bytes) fuel :
  (0 < n)%nat -> Forall (fun c => List.length c = n) l -> (List.length (List.concat l) <= fuel)%nat ->
  chunks fuel n (List.concat l) = Some l.
Proof.
  intros Hn. revert fuel. induction l as [|c l IH]; intros fuel Hl Hf.
  - destruct fuel; reflexivity.
  - inversion Hl as [|? ? Hc Hl']; subst x l0. cbn [List.concat] in *. rewrite app_length in Hf.
    destruct c as [|a c]; [cbn in Hc; lia|].
    destruct fuel as [|fuel]; [cbn in Hf; lia|].
    cbn [app chunks].
    change (a :: c ++ List.concat l) with ((a :: c) ++ List.concat l).
    rewrite app_length. destruct (Nat.ltb_spec (List.length (a :: c) + List.length (List.concat l)) n) as [Hlt|Hge]; [lia|].
    replace (skipn n ((a :: c) ++ List.concat l)) with (List.concat l) by (rewrite <- Hc; symmetry; apply skipn_app_exact).
    replace (firstn n ((a :: c) ++ List.concat l)) with (a :: c) by (rewrite <- Hc; symmetry; apply firstn_app_exact).
    rewrite IH; [reflexivity|assumption|]. cbn [List.length] in *. lia.
Qed.

Lemma chunks_spec fuel n b l :
  (0 < n)%nat -> chunks fuel n b = Some l -> b = List.concat l /\ Forall (fun c => List.length c = n) l.
Proof.
  intros Hn. revert b l. induction fuel as [|fuel IH]; intros b l H.
  - destruct b; cbn in H; [|congruence]. injection H as <-. auto.
  - destruct b as [|a b]; [cbn in H; injection H as <-; auto|].
    cbn [chunks] in H. destruct (Nat.ltb_spec (List.length (a :: b)) n) as [Hlt|Hge]; [congruence|].
    destruct (chunks fuel n (skipn n (a :: b))) as [l'|] eqn:E; [|congruence].
    injection H as <-. apply IH in E as [E1 E2]. split.
    + cbn [List.concat]. rewrite <- E1. now rewrite firstn_skipn.
    + constructor; [|assumption]. apply firstn_length_le. lia.
Qed.

Lemma chunks_Some_iff fuel n b :
  (0 < n)%nat -> (List.length b <= fuel)%nat ->
  ((exists l, chunks fuel n b = Some l) <-> (List.length b mod n = 0)%nat).
Proof.
  intros Hn. revert b. induction fuel as [|fuel IH]; intros b Hf.
  - destruct b; cbn in *; [|lia]. rewrite Nat.mod_0_l by lia. split; eauto.
  - destruct b as [|a b]; [cbn; rewrite Nat.mod_0_l by lia; split; eauto|].
    cbn [chunks]. destruct (Nat.ltb_spec (List.length (a :: b)) n) as [Hlt|Hge].
    + rewrite Nat.mod_small by lia. split; [intros [l Hl]; congruence|cbn; lia].
    + assert (List.length (skipn n (a :: b)) = List.length (a :: b) - n)%nat as Hsk by apply skipn_length.
      specialize (IH (skipn n (a :: b))). rewrite Hsk in IH.
      assert (List.length (a :: b) mod n = (List.length (a :: b) - n) mod n)%nat as ->.
      { set (L := List.length (a :: b)) in *. rewrite <- (Nat.mod_add (L - n) 1 n) by lia.
        replace (L - n + 1 * n)%nat with L by lia. reflexivity. }
      rewrite <- IH by (cbn [List.length] in *; lia). split.
      * intros [l Hl]. destruct (chunks fuel n (skipn n (a :: b))); [eauto|congruence].
      * intros [l Hl]. rewrite Hl. eauto.
Qed.

(** * Outcomes *)

Lemma bind_Ok {A B} (x : outcome A) (f : A -> outcome B) b :
  bind x f = Ok b <-> exists a, x = Ok a /\ f a = Ok b.
Proof.
  destruct x; cbn; split; try (intros (? & ? & ?); congruence); try congruence; eauto.
Qed.

Lemma mapM_Ok {A B} (f : A -> outcome B) l r :
  mapM f l = Ok r <-> Forall2 (fun x y => f x = Ok y) l r.
Proof.
  revert r; induction l as [|x l IH]; intros r; cbn.
  - split; [intros [= <-]; constructor|intros H; inversion H; reflexivity].
  - rewrite bind_Ok. split.
    + intros (y & Hy & H). apply bind_Ok in H as (ys & Hys & [= <-]). constructor; [assumption|]. now apply IH.
    + intros H. inversion H; subst. exists y. split; [assumption|]. apply bind_Ok. exists l'. split; [now apply IH|reflexivity].
Qed.

(** * Splitting and joining *)

Lemma split_char_no c s : ~ In c s -> split_char c s = [s].
Proof.
  induction s as [|x s IH]; cbn; intros H; [reflexivity|].
  destruct (Ascii.eqb x c) eqn:E.
  - apply ascii_eqb_eq in E. subst. exfalso. auto.
  - rewrite IH by auto. reflexivity.
Qed.

Lemma split_char_ne c s : split_char c s <> [].
Proof. destruct s; cbn; [congruence|]. destruct (Ascii.eqb a c); [congruence|]. destruct (split_char c s); congruence. Qed.

Lemma split_char_app c a b : ~ In c a -> split_char c (a ++ c :: b) = a :: split_char c b.
Proof.
  induction a as [|x a IH]; cbn; intros H.
  - now rewrite ascii_eqb_refl.
  - destruct (Ascii.eqb x c) eqn:E.
    + apply ascii_eqb_eq in E. subst. exfalso. auto.
    + rewrite IH by auto. reflexivity.
Qed.

Lemma split_join c (l : list str) :
  l <> [] -> Forall (fun s => ~ In c s) l -> split_char c (join [c] l) = l.
Proof.
  induction l as [|s l IH]; intros Hne Hf; [congruence|].
  inversion Hf; subst. destruct l as [|t l].
  - cbn. now apply split_char_no.
  - cbn [join]. cbn [app]. change (s ++ c :: join [c] (t :: l)) with (s ++ c :: join [c] (t :: l)).
    rewrite split_char_app by assumption. f_equal. apply IH; [congruence|assumption].
Qed.

Lemma split_char1_app c a b : ~ In c a -> split_char1 c (a ++ c :: b) = Some (a, b).
Proof.
  induction a as [|x a IH]; cbn; intros H.
  - now rewrite ascii_eqb_refl.
  - destruct (Ascii.eqb x c) eqn:E.
    + apply ascii_eqb_eq in E. subst. exfalso. auto.
    + rewrite IH by auto. reflexivity.
Qed.

Lemma split_char1_Some c s a b :
  split_char1 c s = Some (a, b) <-> s = a ++ c :: b /\ ~ In c a.
Proof.
  split.
  - revert a b; induction s as [|x s IH]; cbn; intros a b H; [congruence|].
    destruct (Ascii.eqb x c) eqn:E.
    + apply ascii_eqb_eq in E. injection H as <- <-. subst. auto.
    + destruct (split_char1 c s) as [[a' b']|] eqn:E2; [|congruence].
      injection H as <- <-. destruct (IH _ _ eq_refl) as [-> Hn]. split; [reflexivity|].
      intros [->|H]; [rewrite ascii_eqb_refl in E; congruence|auto].
  - intros [-> H]. now apply split_char1_app.
Qed.

Lemma split_char1_None c s : split_char1 c s = None <-> ~ In c s.
Proof.
  induction s as [|x s IH]; cbn; [tauto|].
  destruct (Ascii.eqb x c) eqn:E.
  - apply ascii_eqb_eq in E. split; [congruence|]. intros H. exfalso. auto.
  - destruct (split_char1 c s) as [[a b]|]; split; try congruence.
    + intros H. exfalso. assert (Some (a, b) = None) by (apply IH; auto). congruence.
    + intros _ [->|H]; [rewrite ascii_eqb_refl in E; congruence|]. apply IH in H; auto.
Qed.

(** * Filtering *)

Lemma filter_filter {A} (f g : A -> bool) l : filter f (filter g l) = filter (fun x => g x && f x) l.
Proof.
  induction l; cbn; [reflexivity|]. destruct (g a); cbn; [destruct (f a); congruence|assumption].
Qed.

Lemma forallb_repeat {A} (f : A -> bool) x n : f x = true -> forallb f (repeat x n) = true.
Proof. intros H. induction n; cbn; [reflexivity|]. now rewrite H. Qed.

Lemma NoDup_map_inj {A B} (f : A -> B) l :
  (forall x y, In x l -> In y l -> f x = f y -> x = y) -> NoDup l -> NoDup (map f l).
Proof.
  induction l as [|a l IH]; cbn; intros Hinj Hnd; [constructor|].
  inversion Hnd; subst. constructor.
  - rewrite in_map_iff. intros (b & Hb & Hin). apply Hinj in Hb; [subst; contradiction|auto|auto].
  - apply IH; [|assumption]. intros x y Hx Hy. apply Hinj; auto.
Qed.
