(** Lemmas for C30 *)
From Coq Require Import List Bool Ascii String ZArith Lia ZifyBool.
From Verif Require Import PyBase PyFacts M_Utils M_Elf M_Arch S_Rank.
Import ListNotations.
Open Scope Z_scope.

Lemma base_classic x y : classic (sym_name y) < classic (sym_name x) -> base_preferred x y = x /\ base_preferred y x = x.
Proof.
  unfold classic, base_preferred.
  destruct (startswith (sym_name x) $"sys_"), (startswith (sym_name y) $"sys_"),
    (startswith (sym_name x) $"compat_sys_"), (startswith (sym_name y) $"compat_sys_"); intros; split; reflexivity || lia.
Qed.
Lemma classic_range n : 0 <= classic n <= 2.
Proof. unfold classic. destruct (startswith n $"sys_"), (startswith n $"compat_sys_"); lia. Qed.


Lemma compat_suits a x y (r : str -> Z) (f : symbol -> symbol -> symbol) :
  (forall n, 0 <= r n <= 3) ->
  (r (sym_name y) < r (sym_name x) -> f x y = x /\ f y x = x) ->
  suits a (sym_name y) + r (sym_name y) < suits a (sym_name x) + r (sym_name x) ->
  (match prefer_compat a x y with Some z => z | None => f x y end) = x /\
  (match prefer_compat a y x with Some z => z | None => f y x end) = x.
Proof.
  intros R F H. unfold prefer_compat, suits in *.
  pose proof (R (sym_name x)). pose proof (R (sym_name y)).
  destruct (contains (sym_name x) $"compat"), (contains (sym_name y) $"compat"), (a_compat a); cbn [xorb Bool.eqb] in *;
    try (apply F; lia); split; reflexivity || lia.
Qed.

Lemma marked_classic m x y :
  (if startswith (sym_name y) m then 3 else classic (sym_name y)) < (if startswith (sym_name x) m then 3 else classic (sym_name x)) ->
  (if startswith (sym_name x) m then x else if startswith (sym_name y) m then y else base_preferred x y) = x /\
  (if startswith (sym_name y) m then y else if startswith (sym_name x) m then x else base_preferred y x) = x.
Proof.
  pose proof (classic_range (sym_name x)). pose proof (classic_range (sym_name y)).
  destruct (startswith (sym_name x) m), (startswith (sym_name y) m); intros; try lia; auto.
  now apply base_classic.
Qed.

Lemma lower_classic x y : ordinary (sym_name y) < ordinary (sym_name x) ->
  (if negb (islower (sym_name x)) then y else if negb (islower (sym_name y)) then x else base_preferred x y) = x /\
  (if negb (islower (sym_name y)) then x else if negb (islower (sym_name x)) then y else base_preferred y x) = x.
Proof.
  unfold ordinary. pose proof (classic_range (sym_name x)). pose proof (classic_range (sym_name y)).
  destruct (islower (sym_name x)), (islower (sym_name y)); cbn [negb]; intros; try lia; auto.
  apply base_classic. lia.
Qed.
Lemma ordinary_range n : 0 <= ordinary n <= 3.
Proof. unfold ordinary. pose proof (classic_range n). destruct (islower n); lia. Qed.

Lemma dotted n : startswith n $"." = match n with "."%char :: _ => true | _ => false end.
Proof. destruct n as [|c n]; [reflexivity|]. destruct c as [[] [] [] [] [] [] [] []]; reflexivity. Qed.

Lemma preferred_rank a x y : rank a (sym_name y) < rank a (sym_name x) ->
  preferred_symbol a x y = x /\ preferred_symbol a y x = x.
Proof.
  unfold rank, preferred_symbol. destruct (a_class a).
  all: try (apply (compat_suits a x y classic base_preferred);
    [intros n; pose proof (classic_range n); lia|apply base_classic]; fail).
  all: try (intros H; refine (compat_suits a x y (fun n => if startswith n _ then 3 else classic n)
       (fun x y => if startswith (sym_name x) _ then x else if startswith (sym_name y) _ then y else base_preferred x y) _ _ H);
    [intros n; pose proof (classic_range n); destruct (startswith n _); lia|apply marked_classic]; fail).
  - unfold ppc_preferred; cbv zeta. destruct (a_bits32 a); [apply base_classic|].
    assert (D : forall n, match n with "."%char :: n' => 3 + classic n' | _ => classic n end =
      if startswith n $"." then 3 + (if startswith n $".sys_" then 2 else if startswith n $".compat_sys_" then 1 else 0) else classic n).
    { intros n. rewrite dotted. destruct n as [|c n]; [reflexivity|]. destruct c as [[] [] [] [] [] [] [] []]; reflexivity. }
    rewrite !D. pose proof (classic_range (sym_name x)). pose proof (classic_range (sym_name y)).
    pose proof (base_classic x y) as B.
    destruct (startswith (sym_name x) $"."), (startswith (sym_name y) $"."), (startswith (sym_name x) $".sys_"),
      (startswith (sym_name y) $".sys_"), (startswith (sym_name x) $".compat_sys_"), (startswith (sym_name y) $".compat_sys_");
      cbn [orb negb]; intros; try lia; auto.
  - unfold x86_preferred; cbv zeta. pose proof (ordinary_range (sym_name x)). pose proof (ordinary_range (sym_name y)).
    pose proof (lower_classic x y) as L.
    destruct (str_eqb (a_abi a) $"ia32").
    + destruct (startswith (sym_name x) $"__ia32_"), (startswith (sym_name y) $"__ia32_"),
        (startswith (sym_name x) $"__x64_"), (startswith (sym_name y) $"__x64_"); intros; try lia; auto; try (apply L; lia).
    + destruct (str_eqb (a_abi a) $"x32"); cbn [andb];
      destruct (startswith (sym_name x) $"__x32_"), (startswith (sym_name y) $"__x32_"),
        (startswith (sym_name x) $"__ia32_"), (startswith (sym_name y) $"__ia32_"),
        (startswith (sym_name x) $"__x64_"), (startswith (sym_name y) $"__x64_"); intros; try lia; auto; try (apply L; lia).
Qed.
