(** Property C11, continued: which versions have a tag, and what the tag does not tell. *)
From Coq Require Import List Bool Ascii String ZArith Lia.
From Verif Require Import PyBase PyFacts M_Utils M_Elf M_Kernel S_Elf S_Kernel P_Kernel.
Import ListNotations.
Open Scope Z_scope.
Open Scope list_scope.

(** A version has a tag exactly if it has three components. *)
Theorem C11_defined : forall v, (exists t, version_tag v = Ok t) <-> List.length v = 3%nat.
Proof.
  intros v. split.
  - intros (t & H). destruct v as [|a [|b [|c [|]]]]; try discriminate H. reflexivity.
  - destruct v as [|a [|b [|c [|]]]]; try discriminate. intros _. eexists. reflexivity.
Qed.
Print Assumptions C11_defined.

Lemma number_of s : some_of is_dec s -> is_number s (int_dec s).
Proof. intros [N D]. now split. Qed.
Lemma maximal (r : str) : exists z' r', r = z' ++ r' /\ forallb is_dec z' = true /\ ~ starts_with_digit r'.
Proof.
  induction r as [|c r (z' & r' & -> & Z & R)].
  - exists [], []. split; [reflexivity|]. split; [reflexivity|]. intros (c & t & E & _). discriminate E.
  - destruct (is_dec c) eqn:C.
    + exists (c :: z'), r'. split; [reflexivity|]. split; [|exact R]. cbn [forallb]. now rewrite C.
    + exists [], (c :: z' ++ r'). split; [reflexivity|]. split; [reflexivity|]. intros (d & t & E & D). injection E as -> _. congruence.
Qed.
Lemma some_app z z' : some_of is_dec z -> forallb is_dec z' = true -> some_of is_dec (z ++ z').
Proof. intros [N D] D'. split; [destruct z; [congruence|discriminate]|]. now rewrite forallb_app, D. Qed.
Lemma first_digits (a x p r : str) : a ++ "."%char :: p = x ++ r -> forallb is_dec a = true -> forallb is_dec x = true -> ~ starts_with_digit r ->
  a = x /\ r = "."%char :: p.
Proof.
  revert x. induction a as [|c a IH]; intros [|d x] E A X R; cbn [app forallb] in *.
  - now split.
  - injection E as <- _. discriminate X.
  - exfalso. apply R. exists c, (a ++ "."%char :: p). split; [now symmetry|]. now apply andb_prop in A.
  - injection E as <- E. apply andb_prop in A, X. destruct (IH x E) as [-> ->]; [tauto|tauto|exact R|now split].
Qed.
Lemma version_from_str_shape u v : version_from_str u = Some v ->
  (exists x y z r, u = x ++ $"." ++ y ++ $"." ++ z ++ r /\ some_of is_dec x /\ some_of is_dec y /\ some_of is_dec z /\ List.length v = 3%nat) \/
  ((exists x y r, u = x ++ $"." ++ y ++ r /\ some_of is_dec x /\ some_of is_dec y) /\ List.length v = 2%nat).
Proof.
  intros H.
  assert (exists x y r, u = x ++ $"." ++ y ++ r /\ some_of is_dec x /\ some_of is_dec y) as (x & y & r & -> & X & Y).
  { destruct (maximal u) as (x & r0 & E & DX & R0).
    assert ((exists a, r0 = "."%char :: a) \/ ~ exists a, r0 = "."%char :: a) as D.
    { destruct r0 as [|c a]; [right; intros (a & Q); discriminate Q|]. destruct (ascii_dec c "."%char) as [->|N]; [left; now exists a|right; intros (b & Q); injection Q as Q _; contradiction]. }
    assert (forall a b r, u = a ++ $"." ++ b ++ r -> some_of is_dec a -> a = x /\ r0 = "."%char :: b ++ r) as S.
    { intros a b r U [_ A]. apply (first_digits a x (b ++ r) r0); [now rewrite <- E|exact A|exact DX|exact R0]. }
    destruct D as [(a & ->)|D].
    2: { exfalso. assert (version_from_str u = None) as V; [|congruence]. apply C10_none_iff. intros (x1 & y1 & r1 & U & X & Y). destruct (S _ _ _ U X) as [_ Q]. apply D. eauto. }
    destruct x as [|c x].
    { exfalso. assert (version_from_str u = None) as V; [|congruence]. apply C10_none_iff. intros (x1 & y1 & r1 & U & X & Y). destruct (S _ _ _ U X) as [-> _]. now destruct X. }
    destruct (maximal a) as (y & r & Ea & DY & R). destruct y as [|d y].
    { exfalso. assert (version_from_str u = None) as V; [|congruence]. apply C10_none_iff. intros (x1 & y1 & r1 & U & X & Y). destruct (S _ _ _ U X) as [_ Q]. injection Q as Q.
      destruct Y as [NY DY1]. destruct y1 as [|d y1]; [congruence|]. apply R. exists d, (y1 ++ r1). cbn [app] in Ea. split; [now rewrite <- Ea, Q|]. cbn [forallb] in DY1. now apply andb_prop in DY1. }
    exists (c :: x), (d :: y), r. split; [rewrite E, Ea; reflexivity|]. split; split; try discriminate; assumption. }
  destruct (maximal r) as (y' & r1 & -> & Y' & R1). pose proof (some_app y y' Y Y') as YY. rewrite (app_assoc y) in H.
  assert ((exists c t, r1 = "."%char :: c :: t /\ is_dec c = true) \/ ~ exists c t, r1 = "."%char :: c :: t /\ is_dec c = true) as D.
  { destruct r1 as [|p [|c t]]; [right; intros (? & ? & Q & _); discriminate Q|right; intros (? & ? & Q & _); discriminate Q|].
    destruct (ascii_dec p "."%char) as [->|N]; [|right; intros (? & ? & Q & _); injection Q as Q _ _; contradiction].
    destruct (is_dec c) eqn:C; [left; eauto|right; intros (c1 & t1 & Q & C1); injection Q as -> _; congruence]. }
  destruct D as [(c & t & -> & C)|D].
  - destruct (maximal (c :: t)) as (z & r & E & DZ & R).
    assert (some_of is_dec z) as Z.
    { split; [|exact DZ]. intros ->. apply R. exists c, t. now split. }
    left. exists x, (y ++ y'), z, r. split; [rewrite E, <- app_assoc; reflexivity|]. split; [exact X|]. split; [exact YY|]. split; [exact Z|].
    rewrite E in H. pose proof (C10_three_components x (y ++ y') z _ _ _ r (number_of x X) (number_of _ YY) (number_of z Z) R) as T.
    cbn [app list_ascii_of_string] in T, H. rewrite T in H. injection H as <-. reflexivity.
  - right. split; [exists x, (y ++ y'), r1; rewrite <- app_assoc; auto|].
    rewrite (C10_two_components x (y ++ y') _ _ r1 (number_of x X) (number_of _ YY) R1) in H; [injection H as <-; reflexivity|].
    intros t Q (c & t' & -> & C). apply D. exists c, t'. now split.
Qed.

(** So for an image: exactly if its banner has three numbers. *)
Theorem C11_banner : forall s v, version_from_banner s = Some v ->
  ((exists t, version_tag v = Ok t) <->
   exists x y z r, s = $"Linux version " ++ x ++ $"." ++ y ++ $"." ++ z ++ r /\ some_of is_dec x /\ some_of is_dec y /\ some_of is_dec z).
Proof.
  intros s v H. rewrite C11_defined.
  assert (exists u, s = $"Linux version " ++ u) as (u & ->).
  { unfold version_from_banner in H. destruct (startswith s $"Linux version ") eqn:E; [|discriminate H].
    apply startswith_iff in E. destruct E as (u & ->). now exists u. }
  rewrite C10_banner in H. split.
  - intros L. destruct (version_from_str_shape u v H) as [(x & y & z & r & -> & X & Y & Z & _)|(_ & L2)]; [|congruence].
    exists x, y, z, r. auto.
  - intros (x & y & z & r & E & X & Y & Z). apply app_inv_head in E. subst u.
    destruct (maximal r) as (z' & r' & E & Z' & R).
    rewrite E in H. rewrite (app_assoc z) in H.
    rewrite (C10_three_components x y (z ++ z') _ _ _ r' (number_of x X) (number_of y Y) (number_of (z ++ z') (some_app z z' Z Z')) R) in H. injection H as <-. reflexivity.
Qed.
Print Assumptions C11_banner.

(** What follows the numbers is lost: the tag of a pre-release is that of the release. *)
Theorem C11_suffix : forall x y z a b c r r', is_number x a -> is_number y b -> is_number z c ->
  ~ starts_with_digit r -> ~ starts_with_digit r' ->
  version_from_str (x ++ $"." ++ y ++ $"." ++ z ++ r) = version_from_str (x ++ $"." ++ y ++ $"." ++ z ++ r').
Proof. intros x y z a b c r r' X Y Z R R'. rewrite !(C10_three_components x y z a b c); auto. Qed.
Print Assumptions C11_suffix.

Theorem C11_prerelease_refuted : exists banner banner' v t, banner <> banner' /\
  banner = $"Linux version 6.1.0-rc3 (gcc)" /\ banner' = $"Linux version 6.1.0 (gcc)" /\
  version_from_banner banner = Some v /\ version_from_banner banner' = Some v /\ version_tag v = Ok t /\ t <> $"v6.1-rc3".
Proof. eexists _, _, [6; 1; 0], $"v6.1". repeat split; try reflexivity; discriminate. Qed.
Print Assumptions C11_prerelease_refuted.
