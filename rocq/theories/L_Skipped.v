(** Lemmas for C119 *)
From Coq Require Import List Bool Ascii String ZArith Lia Permutation Sorted.
From Verif Require Import PyBase PyFacts M_Utils M_Elf M_Arch M_Emu M_Skipped S_Emu S_Default S_Skipped L_Emu.
Import ListNotations.
Open Scope Z_scope.
Open Scope list_scope.

Section Skipped.
Context (same : insn -> insn -> bool) (nop : insn -> bool) (Q : an_equality same).
Let refl : forall a, same a a = true := proj1 Q.
Let sym : forall a b, same a b = true -> same b a = true := proj1 (proj2 Q).
Let trans : forall a b c, same a b = true -> same b c = true -> same a c = true := proj1 (proj2 (proj2 Q)).

Lemma unknown_iff i : unknown nop i = true <-> not_followed nop i.
Proof. unfold unknown, not_followed. destruct (i_kind i); split; try discriminate; try (intros [E _]; discriminate E); [intros H|intros [_ ->]; reflexivity]. split; [reflexivity|]. now destruct (nop i). Qed.

(** ** Counting *)
Definition cnt (x : insn) (l : list insn) : Z := len (filter (same x) l).
Lemma cnt_snoc x l i : cnt x (l ++ [i]) = cnt x l + if same x i then 1 else 0.
Proof. unfold cnt, len. rewrite filter_app, app_length. cbn. destruct (same x i); cbn; lia. Qed.
Lemma cnt_same x y l : same x y = true -> cnt x l = cnt y l.
Proof.
  intros H. unfold cnt. f_equal. apply filter_ext. intros z. destruct (same x z) eqn:E, (same y z) eqn:E'; auto.
  - rewrite (trans y x z (sym _ _ H) E) in E'. discriminate.
  - rewrite (trans x y z H E') in E. discriminate.
Qed.
Lemma occurs_cnt x prog : forall n, occurs same nop x prog n <-> n = cnt x (filter (unknown nop) prog).
Proof.
  induction prog as [|i l IH]; intros n.
  - split; [intros H; inversion H; reflexivity|]. intros ->. constructor.
  - cbn [filter]. destruct (unknown nop i) eqn:U.
    + apply unknown_iff in U. assert (C : cnt x (i :: filter (unknown nop) l) = cnt x (filter (unknown nop) l) + if same x i then 1 else 0).
      { unfold cnt, len. cbn. destruct (same x i); cbn; lia. }
      rewrite C. destruct (same x i) eqn:S; split; intros H.
      * inversion H as [|? ? ? ? ? O|? ? ? N O]; subst; [apply IH in O; lia|]. exfalso. auto.
      * subst n. apply oc_same; auto. now apply IH.
      * inversion H as [|? ? ? ? S' O|? ? ? N O]; subst; [congruence|]. apply IH in O. lia.
      * subst n. rewrite Z.add_0_r. apply oc_other; [intros [_ S']; congruence|]. now apply IH.
    + assert (N : ~ not_followed nop i) by (intros H; apply unknown_iff in H; congruence). split; intros H.
      * inversion H as [|? ? ? ? S' O|? ? ? N' O]; subst; [contradiction|]. now apply IH.
      * apply oc_other; [tauto|]. now apply IH.
Qed.

Definition keys_ok (l : list insn) (d : list (insn * Z)) : Prop :=
  ForallOrdPairs (fun p q => same (fst q) (fst p) = false) d /\
  (forall k n, In (k, n) d -> In k l /\ n = cnt k l) /\
  (forall x, In x l -> exists k n, In (k, n) d /\ same x k = true).

Lemma bump_spec i d : ForallOrdPairs (fun p q => same (fst q) (fst p) = false) d ->
  (exists a k n b, d = a ++ (k, n) :: b /\ same i k = true /\ (forall p, In p (a ++ b) -> same i (fst p) = false) /\ bump same i d = a ++ (k, n + 1) :: b) \/
  ((forall p, In p d -> same i (fst p) = false) /\ bump same i d = d ++ [(i, 1)]).
Proof.
  induction d as [|[k n] d IH]; intros F; cbn [bump].
  - right. split; [intros p []|reflexivity].
  - inversion F as [|? ? F1 F2]; subst. destruct (same i k) eqn:S.
    + left. exists [], k, n, d. split; [reflexivity|]. split; [exact S|]. split; [|reflexivity]. cbn [app]. intros p P.
      rewrite Forall_forall in F1. specialize (F1 p P). cbn in F1. destruct (same i (fst p)) eqn:E; [|reflexivity].
      rewrite (trans (fst p) i k (sym _ _ E) S) in F1. discriminate.
    + destruct (IH F2) as [(a & k' & n' & b & -> & S' & G & ->)|(G & ->)].
      * left. exists ((k, n) :: a), k', n', b. split; [reflexivity|]. split; [exact S'|]. split; [|reflexivity]. intros p [<-|P]; [exact S|auto].
      * right. split; [|reflexivity]. intros p [<-|P]; [exact S|auto].
Qed.
Lemma pairs_replace (a b : list (insn * Z)) k n n' : ForallOrdPairs (fun p q => same (fst q) (fst p) = false) (a ++ (k, n) :: b) ->
  ForallOrdPairs (fun p q => same (fst q) (fst p) = false) (a ++ (k, n') :: b).
Proof.
  induction a as [|x a IH]; cbn; intros F; inversion F as [|? ? F1 F2]; subst; constructor; auto.
  apply Forall_app in F1 as [G1 G2]. apply Forall_app. split; [exact G1|]. inversion G2; subst. constructor; auto.
Qed.
Lemma pairs_end (d : list (insn * Z)) i : ForallOrdPairs (fun p q => same (fst q) (fst p) = false) d -> (forall p, In p d -> same i (fst p) = false) ->
  ForallOrdPairs (fun p q => same (fst q) (fst p) = false) (d ++ [(i, 1)]).
Proof.
  induction 1 as [|x d F1 F2 IH]; cbn; intros H; [repeat constructor|]. constructor; [|apply IH; intros p P; apply H; now right].
  apply Forall_app. split; [exact F1|]. constructor; [|constructor]. cbn. apply H. now left.
Qed.
Lemma keys_step l d i : keys_ok l d -> keys_ok (l ++ [i]) (bump same i d).
Proof.
  intros (F & K & R). destruct (bump_spec i d F) as [(a & k & n & b & -> & S & G & ->)|(G & ->)].
  - split; [now apply (pairs_replace _ _ _ n)|]. split.
    + intros k' n' H. rewrite cnt_snoc. apply in_app_or in H as [H|[E|H]].
      * destruct (K k' n') as [K1 ->]; [apply in_or_app; now left|]. split; [apply in_or_app; now left|].
        specialize (G (k', cnt k' l) ltac:(apply in_or_app; now left)). cbn in G. destruct (same k' i) eqn:E; [apply sym in E; congruence|lia].
      * injection E as <- <-. destruct (K k n) as [K1 ->]; [apply in_or_app; right; now left|]. split; [apply in_or_app; now left|]. now rewrite (sym _ _ S).
      * destruct (K k' n') as [K1 ->]; [apply in_or_app; right; now right|]. split; [apply in_or_app; now left|].
        specialize (G (k', cnt k' l) ltac:(apply in_or_app; now right)). cbn in G. destruct (same k' i) eqn:E; [apply sym in E; congruence|lia].
    + intros x H. apply in_app_or in H as [H|[<-|[]]].
      * destruct (R x H) as (k' & n' & I & S'). apply in_app_or in I as [I|[E|I]].
        -- exists k', n'. split; [apply in_or_app; now left|exact S'].
        -- injection E as <- <-. exists k, (n + 1). split; [apply in_or_app; right; now left|exact S'].
        -- exists k', n'. split; [apply in_or_app; right; now right|exact S'].
      * exists k, (n + 1). split; [apply in_or_app; right; now left|exact S].
  - split; [now apply pairs_end|]. split.
    + intros k n H. rewrite cnt_snoc. apply in_app_or in H as [H|[E|[]]].
      * destruct (K k n H) as [K1 ->]. split; [apply in_or_app; now left|]. specialize (G _ H). cbn in G. destruct (same k i) eqn:E; [apply sym in E; congruence|lia].
      * injection E as <- <-. split; [apply in_or_app; right; now left|]. rewrite refl. assert (cnt i l = 0); [|lia].
        unfold cnt. destruct (filter (same i) l) as [|x r] eqn:E; [reflexivity|]. assert (In x (filter (same i) l)) as X by (rewrite E; now left).
        apply filter_In in X as [X1 X2]. destruct (R x X1) as (k & n & I & S). specialize (G _ I). cbn in G. rewrite (trans i x k X2 S) in G. discriminate.
    + intros x H. apply in_app_or in H as [H|[<-|[]]].
      * destruct (R x H) as (k & n & I & S). exists k, n. split; [apply in_or_app; now left|exact S].
      * exists i, 1. split; [apply in_or_app; right; now left|apply refl].
Qed.
Lemma keys_fold l : forall l0 d, keys_ok l0 d -> keys_ok (l0 ++ l) (fold_left (fun d i => bump same i d) l d).
Proof.
  induction l as [|i l IH]; intros l0 d H; cbn [fold_left]; [now rewrite app_nil_r|].
  replace (l0 ++ i :: l) with ((l0 ++ [i]) ++ l) by now rewrite <- app_assoc. apply IH. now apply keys_step.
Qed.
Lemma keys_skipped prog : keys_ok (filter (unknown nop) prog) (skipped same nop prog).
Proof. apply (keys_fold _ []). split; [constructor|]. split; [intros k n []|intros x []]. Qed.

(** ** Sorting without an order of instructions *)
Definition no_order (a b : insn) : outcome bool := Raise TypeError.
Definition below (p q : insn * Z) : Prop := snd p < snd q.
Notation ins := (insert same no_order).

Lemma insert_cases x s : StronglySorted below s -> (forall y, In y s -> same (fst x) (fst y) = false) ->
  ((exists y, In y s /\ snd y = snd x) /\ ins x s = Raise TypeError) \/
  ((forall y, In y s -> snd y <> snd x) /\ exists s', ins x s = Ok s' /\ StronglySorted below s' /\ Permutation s' (x :: s)).
Proof.
  induction s as [|y s IH]; intros Hs Hd; cbn [insert].
  - right. split; [intros y []|]. exists [x]. split; [reflexivity|]. split; [repeat constructor|reflexivity].
  - inversion Hs as [|? ? S1 S2]; subst. rewrite Forall_forall in S2. unfold key_lt. destruct (Z.eqb_spec (snd x) (snd y)) as [E|E]; cbn [negb].
    + rewrite (Hd y) by now left. left. split; [exists y; split; [now left|congruence]|reflexivity].
    + cbn [bind]. destruct (Z.ltb_spec (snd x) (snd y)) as [L|L].
      * right. split; [intros z [<-|Z]; [lia|specialize (S2 z Z); unfold below in S2; lia]|]. exists (x :: y :: s). split; [reflexivity|]. split; [|reflexivity].
        constructor; [exact Hs|]. constructor; [exact L|]. rewrite Forall_forall. intros z Z. specialize (S2 z Z). unfold below in *. lia.
      * destruct (IH S1) as [((z & Z & Ez) & ->)|(N & s' & -> & S' & P)]; [intros z Z; apply Hd; now right|left|right].
        -- split; [exists z; split; [now right|exact Ez]|reflexivity].
        -- split; [intros z [<-|Z]; [lia|auto]|]. exists (y :: s'). split; [reflexivity|]. split.
           ++ constructor; [exact S'|]. rewrite Forall_forall. intros z Z. apply (Permutation_in z P) in Z as [<-|Z]; [unfold below; lia|auto].
           ++ rewrite P. constructor.
Qed.
Lemma sort_cases d : ForallOrdPairs (fun p q => same (fst q) (fst p) = false) d ->
  ((exists p q, In p d /\ In q d /\ same (fst p) (fst q) = false /\ snd p = snd q) /\ sort_skipped same no_order d = Raise TypeError) \/
  ((forall p q, In p d -> In q d -> same (fst p) (fst q) = false -> snd p <> snd q) /\
   exists s, sort_skipped same no_order d = Ok s /\ StronglySorted below s /\ Permutation s d).
Proof.
  induction 1 as [|x d F1 F2 IH]; cbn [sort_skipped].
  - right. split; [intros p q []|]. exists []. repeat split; constructor.
  - rewrite Forall_forall in F1. destruct IH as [((p & q & P1 & P2 & P3) & ->)|(N & s & -> & S & P)].
    + left. split; [exists p, q; split; [now right|]; split; [now right|exact P3]|reflexivity].
    + cbn [bind].
      assert (Hd : forall y, In y s -> same (fst x) (fst y) = false).
      { intros y Y. apply (Permutation_in y P) in Y. specialize (F1 y Y). destruct (same (fst x) (fst y)) eqn:E; [apply sym in E; congruence|reflexivity]. }
      destruct (insert_cases x s S Hd) as [((y & Y & Ey) & ->)|(N' & s' & -> & S' & P')].
      * left. split; [|reflexivity]. exists x, y. split; [now left|]. split; [right; now apply (Permutation_in y P)|]. split; [now apply Hd|congruence].
      * right. split.
        -- intros p q [<-|Ip] [<-|Iq] D.
           ++ rewrite refl in D. discriminate.
           ++ intros E. apply (N' q); [now apply (Permutation_in q (Permutation_sym P))|congruence].
           ++ apply N'. now apply (Permutation_in p (Permutation_sym P)).
           ++ now apply N.
        -- exists s'. split; [reflexivity|]. split; [exact S'|]. rewrite P'. now constructor.
Qed.
Lemma tied_iff prog : tied same nop prog <-> exists p q, In p (skipped same nop prog) /\ In q (skipped same nop prog) /\ same (fst p) (fst q) = false /\ snd p = snd q.
Proof.
  destruct (keys_skipped prog) as (F & K & R). split.
  - intros (x & y & n & Ix & Iy & Nx & Ny & D & Ox & Oy). apply occurs_cnt in Ox. apply occurs_cnt in Oy.
    destruct (R x) as (k & nk & Ik & Sk); [apply filter_In; split; [exact Ix|now apply unknown_iff]|].
    destruct (R y) as (k' & nk' & Ik' & Sk'); [apply filter_In; split; [exact Iy|now apply unknown_iff]|].
    exists (k, nk), (k', nk'). split; [exact Ik|]. split; [exact Ik'|]. cbn. destruct (K _ _ Ik) as [_ ->]. destruct (K _ _ Ik') as [_ ->]. split.
    + destruct (same k k') eqn:E; [|reflexivity]. rewrite (trans x k' y (trans _ _ _ Sk E) (sym _ _ Sk')) in D. discriminate.
    + rewrite <- (cnt_same _ _ _ Sk), <- (cnt_same _ _ _ Sk'). congruence.
  - intros ([k n] & [k' n'] & Ik & Ik' & D & E). cbn in *. destruct (K _ _ Ik) as [I ->]. destruct (K _ _ Ik') as [I' ->].
    apply filter_In in I as [I U]. apply filter_In in I' as [I' U']. exists k, k', (cnt k (filter (unknown nop) prog)).
    split; [exact I|]. split; [exact I'|]. split; [now apply unknown_iff|]. split; [now apply unknown_iff|]. split; [exact D|]. split; now apply occurs_cnt.
Qed.
Lemma sort_tied prog : (tied same nop prog /\ sort_skipped same no_order (skipped same nop prog) = Raise TypeError) \/
  (~ tied same nop prog /\ exists s, sort_skipped same no_order (skipped same nop prog) = Ok s).
Proof.
  destruct (keys_skipped prog) as (F & _). destruct (sort_cases _ F) as [(T & E)|(N & s & E & _)].
  - left. split; [now apply tied_iff|exact E].
  - right. split; [|eauto]. intros T. apply tied_iff in T as (p & q & Ip & Iq & D & Eq). exact (N p q Ip Iq D Eq).
Qed.

Lemma debug_exact decode order a e sym0 code : a_table a = None -> dget str_eqb (a_abi a ++ $"_sys_call") (e_functions e) = Some sym0 -> 16 <= sym_size sym0 ->
  read_symbol e sym0 = Ok code ->
  let prog := decode (a_bits32 a) code (sym_real sym0) in
  let r := extract_with_debug decode same no_order nop order a e in
  (tied same nop prog /\ emulate same (sym_real sym0) (sym_real sym0 + sym_size sym0) prog <> Ok None /\ r = Raise TypeError) \/
  ((~ tied same nop prog \/ emulate same (sym_real sym0) (sym_real sym0 + sym_size sym0) prog = Ok None) /\ r = extract_syscall_vaddrs decode same order a e).
Proof.
  intros Ha Hs Hz Hr. cbn zeta. unfold extract_with_debug, extract_syscall_vaddrs. rewrite Ha, Hs. destruct (Z.ltb_spec (sym_size sym0) 16) as [?|_]; [lia|].
  rewrite Hr. cbn [bind]. set (prog := decode _ _ _). destruct (sort_tied prog) as [(T & ->)|(N & s & ->)]; cbn [bind].
  - destruct (emulate same _ _ prog) as [[[m l]|]|x|x|] eqn:E; cbn [bind]; auto.
    + left. split; [exact T|]. split; [discriminate|reflexivity].
    + exfalso. unfold emulate in E. destruct (find_nr_reg prog) as [reg|]; [|discriminate]. revert E. generalize (emu_fuel prog) at 1. generalize (@nil insn).
      generalize [(sym_real sym0, range 0 (Z.to_nat nr_max))]. intros m l f. revert m l. induction f as [|f IH]; intros m l; cbn [emu_loop]; [discriminate|].
      destruct (emu_pass _ _ _ _ _ _) as [s|]; [|discriminate]. destruct (s_again s); [apply IH|discriminate].
    + exfalso. unfold emulate in E. destruct (find_nr_reg prog) as [reg|]; [|discriminate]. revert E. generalize (emu_fuel prog) at 1. generalize (@nil insn).
      generalize [(sym_real sym0, range 0 (Z.to_nat nr_max))]. intros m l f. revert m l. induction f as [|f IH]; intros m l; cbn [emu_loop]; [discriminate|].
      destruct (emu_pass _ _ _ _ _ _) as [s|]; [|discriminate]. destruct (s_again s); [apply IH|discriminate].
    + exfalso. now apply L_Emu.emulate_terminates in E.
  - right. split; [now left|]. now destruct (emulate same _ _ prog) as [[[m l]|]|x|x|].
Qed.
End Skipped.

(** With an order of instructions *)
Lemma insert_fine same lt (T : forall a b, exists v, lt a b = Ok v) x s : exists s', insert same lt x s = Ok s'.
Proof.
  induction s as [|y s (s' & IH)]; cbn [insert]; [eauto|]. assert (exists v, key_lt same lt x y = Ok v) as (v & ->).
  { unfold key_lt. destruct (negb _); [eauto|]. destruct (same _ _); [eauto|apply T]. }
  cbn [bind]. destruct v; [eauto|]. rewrite IH. cbn [bind]. eauto.
Qed.
Lemma sort_fine same lt (T : forall a b, exists v, lt a b = Ok v) d : exists s, sort_skipped same lt d = Ok s.
Proof. induction d as [|x d (s & IH)]; cbn [sort_skipped]; [eauto|]. rewrite IH. cbn [bind]. now apply insert_fine. Qed.
Lemma debug_fine decode same lt nop order a e : (forall x y, exists v, lt x y = Ok v) ->
  extract_with_debug decode same lt nop order a e = extract_syscall_vaddrs decode same order a e.
Proof.
  intros T. unfold extract_with_debug, extract_syscall_vaddrs. destruct (a_table a); [reflexivity|].
  destruct (dget str_eqb _ _) as [sym|]; [|reflexivity]. destruct (sym_size sym <? 16); [reflexivity|].
  destruct (read_symbol e sym) as [code| | |]; cbn [bind]; try reflexivity. set (prog := decode _ _ _).
  destruct (sort_fine same lt T (skipped same nop prog)) as (s & ->). now destruct (emulate same _ _ prog) as [[[m l]|]|x|x|].
Qed.
