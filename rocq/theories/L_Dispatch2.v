(** An error is logged for a dispatcher exactly if it is muddled (C118, C105). *)
From Coq Require Import List Bool Ascii String ZArith Lia Permutation.
From Verif Require Import PyBase PyFacts M_Utils M_Elf M_Arch M_Emu M_Dispatch S_Emu S_Dispatch S_Default L_Arch L_Emu L_Emu2 L_Emu3 L_Emu4 L_Dispatch.
Import ListNotations.
Open Scope Z_scope.
Open Scope list_scope.

Lemma told_muddled decode same order a e start stop prog : an_equality same -> (forall l, Permutation (order l) l) ->
  has_dispatcher decode a e start stop prog ->
  (exists c, extract_complaint decode same order a e = Ok (Some c)) <-> muddled same start stop prog.
Proof.
  intros (Rf & Sy & Tr & Kd) Ho (Ha & sym & reg & code & Hs & Hz & Es & Et & Hr & Hp & D). subst start stop.
  split.
  - intros (c & X). destruct (extract_dispatcher decode same order a e Ho Kd sym reg code prog c Ha Hs Hz Hr Hp D X)
      as [(i & v & _ & Hi & He & Hn)|(_ & i & j & v & w & Hi & Hj & Hu & He & He' & C1 & C2)].
    + exact (md_unreached _ _ _ _ i v Hi He Hn).
    + exact (md_two _ _ _ _ i j v w Hi Hj Hu He He' C1 C2).
  - intros Mu. pose proof (extract_muddled same Kd Sy Tr Rf decode order a e sym reg code prog Ho Ha Hs Hz Hr Hp D Mu) as V.
    destruct (emulate_exact same reg _ _ prog D Kd) as (m & l & E & H1 & H2 & H3).
    pose proof (extract_announced decode same order a e Ho) as A.
    destruct (extract_complaint decode same order a e) as [[c|]|x|x|] eqn:X; [eauto| | | |]; try congruence.
    exfalso. destruct (extract_silent decode same order a e Ho X V) as (sym' & code' & m' & l' & G1 & G2 & G3 & G4 & G5).
    assert (sym' = sym) as -> by congruence. assert (code' = code) as -> by congruence. rewrite <- Hp, E in G3. injection G3 as <- <-.
    destruct Mu as [i t Hi He Hn|i j t t' Hi Hj Hu He He' _ _].
    + destruct (H3 i t Hi He) as (c & Ic & <-). specialize (G5 c Ic). unfold default_case in G5.
      destruct (get m (target_of c)) as [|n ns] eqn:G; [unfold len in G5; cbn in G5; lia|]. assert (In n (get m (target_of c))) as Q by (rewrite G; now left).
      apply H1 in Q as (Q1 & Q2). exact (Hn n Q1 Q2).
    + destruct (emulate_stands same _ _ _ _ _ _ _ E Hi He) as (c & Ic & Ec). destruct (emulate_stands same _ _ _ _ _ _ _ E Hj He') as (d & Id & Ed).
      assert (same i c = true) as Ec' by (destruct Ec as [->|Ec]; auto). assert (same j d = true) as Ed' by (destruct Ed as [->|Ed]; auto).
      assert (c = d) as ->.
      { destruct l as [|x [|y r]]; [destruct Ic| |unfold len in G4; cbn in G4; lia]. destruct Ic as [<-|[]]. destruct Id as [<-|[]]. reflexivity. }
      assert (same j i = true) by (apply (Tr j d i); auto). congruence.
Qed.
