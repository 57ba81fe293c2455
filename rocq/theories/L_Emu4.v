(** When a dispatcher gives no syscalls (C43). *)
From Coq Require Import List Bool Ascii String ZArith Lia ZifyBool ZifyNat Permutation Sorted.
From Verif Require Import PyBase PyFacts M_Utils M_Elf M_Arch L_Arch M_Emu S_Emu L_Emu L_Emu2 L_Emu3.
Import ListNotations.
Open Scope Z_scope.
Open Scope list_scope.

Section Empty.
Context (same : insn -> insn -> bool).
Definition unlike (p q : insn) : Prop := same q p = false.

Lemma pairs_snoc l x : ForallOrdPairs unlike l -> existsb (same x) l = false -> ForallOrdPairs unlike (l ++ [x]).
Proof.
  induction 1 as [|y l F P IH]; intros E; [repeat constructor|]. cbn [existsb] in E. apply orb_false_iff in E as (E1 & E2). cbn [app]. constructor; [|now apply IH].
  apply Forall_app. split; [exact F|]. now repeat constructor.
Qed.
Lemma branch_unlike start stop i t tk nt s : ForallOrdPairs unlike (s_cands s) -> ForallOrdPairs unlike (s_cands (branch same start stop i t tk nt s)).
Proof.
  intros H. unfold branch. cbn [s_cands]. destruct (inside start stop t); [exact H|]. unfold add_cand. destruct (existsb (same i) (s_cands s)) eqn:E; [exact H|].
  now apply pairs_snoc.
Qed.
Lemma step_unlike start stop reg s i s' : ForallOrdPairs unlike (s_cands s) -> emu_step same start stop reg s i = Some s' -> ForallOrdPairs unlike (s_cands s').
Proof.
  intros H E. unfold emu_step in E. destruct (s_test s && _); [discriminate|].
  repeat match type of E with
         | Some _ = Some _ => injection E as <-
         | None = Some _ => discriminate E
         | context [match ?x with _ => _ end] => destruct x
         end; try exact H; try destruct (s_inv s); now apply branch_unlike.
Qed.
Lemma pass_unlike start stop reg l : forall s s', ForallOrdPairs unlike (s_cands s) -> emu_pass same start stop reg s l = Some s' -> ForallOrdPairs unlike (s_cands s').
Proof.
  induction l as [|i l IH]; intros s s' H E; cbn [emu_pass] in E; [now injection E as <-|].
  destruct (emu_step same start stop reg s i) as [s1|] eqn:S; [|discriminate]. apply (IH s1 s'); [|exact E]. now apply (step_unlike _ _ _ _ _ _ H S).
Qed.
Lemma emulate_unlike start stop prog m l : emulate same start stop prog = Ok (Some (m, l)) -> ForallOrdPairs unlike l.
Proof.
  unfold emulate. destruct (find_nr_reg prog) as [reg|]; [|discriminate]. generalize (emu_fuel prog). generalize [(start, range 0 (Z.to_nat nr_max))] as m0.
  assert (ForallOrdPairs unlike []) as H by constructor. revert H. generalize (@nil insn) as l0. intros l0 H m0 fuel. revert l0 m0 H.
  induction fuel as [|fuel IH]; intros l0 m0 H; cbn [emu_loop]; [discriminate|].
  destruct (emu_pass same start stop reg (Emu m0 l0 false false None false) prog) as [s|] eqn:E; [|discriminate].
  apply pass_unlike in E; [|exact H]. destruct (s_again s); [now apply IH|]. intros [= <- <-]. exact E.
Qed.

(** Two places of a list *)
Lemma map_split {A B} (f : A -> B) l a t b t' c : map f l = a ++ t :: b ++ t' :: c ->
  exists a' x b' y c', l = a' ++ x :: b' ++ y :: c' /\ f x = t /\ f y = t'.
Proof.
  intros E. apply map_eq_app in E as (l1 & l2 & -> & <- & E). destruct l2 as [|x l2]; [discriminate|]. cbn [map] in E. injection E as <- E.
  apply map_eq_app in E as (l3 & l4 & -> & <- & E). destruct l4 as [|y l4]; [discriminate|]. injection E as <- E. exists l1, x, l3, y, l4. auto.
Qed.
Lemma pairs_two l x y r : ForallOrdPairs unlike l -> Permutation l (x :: y :: r) -> exists p q, ((p = x /\ q = y) \/ (p = y /\ q = x)) /\ unlike p q.
Proof.
  intros H P. assert (exists a p b q c, l = a ++ p :: b ++ q :: c /\ ((p = x /\ q = y) \/ (p = y /\ q = x))) as (a & p & b & q & c & -> & E).
  { assert (In x l) as Ix by (apply (Permutation_in x (Permutation_sym P)); now left). apply in_split in Ix as (a & b & ->).
    assert (Permutation (a ++ b) (y :: r)) as P' by (apply (Permutation_cons_inv (a := x)); etransitivity; [apply Permutation_middle|exact P]).
    assert (In y (a ++ b)) as Iy by (apply (Permutation_in y (Permutation_sym P')); now left). apply in_app_or in Iy as [Iy|Iy]; apply in_split in Iy as (u & w & ->).
    - exists u, y, w, x, b. split; [now rewrite <- app_assoc|auto].
    - exists a, x, u, y, w. auto. }
  exists p, q. split; [exact E|]. clear -H. induction a as [|z a IH]; inversion H as [|? ? F G]; subst; [|now apply IH].
  apply Forall_app in F as (_ & F). now inversion F.
Qed.

Lemma extract_empty (same_kind : forall a b, same a b = true -> i_kind a = i_kind b) decode order a e sym reg code prog :
  (forall l, Permutation (order l) l) ->
  a_table a = None -> dget str_eqb (a_abi a ++ $"_sys_call") (e_functions e) = Some sym -> 16 <= sym_size sym ->
  read_symbol e sym = Ok code -> prog = decode (a_bits32 a) code (sym_real sym) ->
  dispatcher reg (sym_real sym) (sym_real sym + sym_size sym) prog ->
  extract_syscall_vaddrs decode same order a e = Ok [] ->
  muddled same (sym_real sym) (sym_real sym + sym_size sym) prog \/ forall n v, ~ leads_to (sym_real sym) (sym_real sym + sym_size sym) prog n v.
Proof.
  intros Ho Ha Hs Hsz Hr Hp D X.
  set (start := sym_real sym) in *. set (stop := start + sym_size sym) in *.
  destruct (emulate_exact same reg start stop prog D same_kind) as (m & l & E & H1 & H2 & H3). pose proof (emulate_unlike _ _ _ _ _ E) as U.
  assert (collect m (order l) [] false = []) as C.
  { unfold extract_syscall_vaddrs in X. rewrite Ha, Hs in X. destruct (sym_size sym <? 16) eqn:E16; [lia|]. rewrite Hr in X. cbn [bind] in X.
    fold start in X. fold stop in X. rewrite <- Hp, E in X. cbn [bind] in X. now injection X. }
  assert (Hnums : forall v, numbers_of start prog v (get m v)).
  { intros v. split; [apply sorted_NoDup, (emulate_ok _ _ _ _ _ _ E)|]. intros n. apply H1. }
  assert (Hin : forall v, In v (map target_of (order l)) <-> exists i, In i prog /\ exits start stop i v).
  { intros v. rewrite in_map_iff. split.
    - intros (c & <- & Hc). apply (Permutation_in c (Ho l)) in Hc. apply H2 in Hc as [G1 G2]. eauto.
    - intros (i & Hi & He). destruct (H3 i v Hi He) as (c & Hc & <-). exists c. split; [reflexivity|].
      now apply (Permutation_in c (Permutation_sym (Ho l))). }
  destruct (collect_cases m (order l)) as [[Cf _]|[_ M]]; cbv zeta in *.
  - left. destruct Cf as [(t & It & Bt)|[(x1 & t & x2 & t' & x3 & Et & Dt & Dt')|(t & t' & It & It' & Cl)]].
    + apply Hin in It as (i & Hi & He). apply (md_unreached _ _ _ _ i t Hi He). intros n Hn Rn. assert (In n (get m t)) as Q by (apply H1; auto). rewrite Bt in Q. destruct Q.
    + apply map_split in Et as (y1 & p & y2 & q & y3 & Eo & <- & <-).
      assert (Permutation l (p :: q :: y1 ++ y2 ++ y3)) as P.
      { etransitivity; [symmetry; apply Ho|]. rewrite Eo. etransitivity; [symmetry; apply Permutation_middle|]. constructor. rewrite app_assoc.
        etransitivity; [symmetry; apply Permutation_middle|]. now rewrite <- app_assoc. }
      assert (forall z, In z (order l) -> In z prog /\ exits start stop z (target_of z)) as In' by (intros z Hz; apply H2; now apply (Permutation_in z (Ho l))).
      assert (In p (order l) /\ In q (order l)) as (Ip & Iq) by (rewrite Eo; split; apply in_or_app; right; [now left|right; apply in_or_app; right; now left]).
      destruct (In' p Ip) as (P1 & P2). destruct (In' q Iq) as (Q1 & Q2).
      destruct (pairs_two l p q _ U P) as (p' & q' & [(-> & ->)|(-> & ->)] & Un).
      * apply (md_two _ _ _ _ p q (target_of p) (target_of q)); try assumption; [exists (get m (target_of p))|exists (get m (target_of q))]; auto.
      * apply (md_two _ _ _ _ q p (target_of q) (target_of p)); try assumption; [exists (get m (target_of q))|exists (get m (target_of p))]; auto.
    + exfalso. apply Hin in It as (i & Hi & _ & Ho1). apply Hin in It' as (i' & Hi' & _ & Ho2). exact (no_clash reg start stop prog m t t' D H1 Ho1 Ho2 Cl).
  - right. intros n v (L1 & L2 & L3 & ns & (N1 & N2) & L4). assert (dget Z.eqb n (collect m (order l) [] false) = Some v) as Q; [|rewrite C in Q; discriminate].
    apply M. split; [now apply Hin|]. split; [|now apply H1]. unfold default_case. destruct (Hnums v) as [M1 M2].
    assert (len (get m v) = len ns); [|lia]. unfold len. f_equal. apply Permutation_length. apply NoDup_Permutation; auto. intros x. now rewrite M2, N2.
Qed.

(** Every exit has its candidate. *)
Definition stands (l : list insn) (i : insn) : Prop := exists c, In c l /\ (c = i \/ same i c = true).
Lemma add_stands x l : stands (add_cand same x l) x.
Proof.
  unfold add_cand. destruct (existsb (same x) l) eqn:E; [apply existsb_exists in E as (c & I & E); exists c; auto|]. exists x. split; [apply in_or_app; right; now left|now left].
Qed.
Lemma add_keeps x l c : In c l -> In c (add_cand same x l).
Proof. intros H. unfold add_cand. destruct (existsb (same x) l); [exact H|]. apply in_or_app. now left. Qed.
Lemma branch_keeps start stop i t tk nt s c : In c (s_cands s) -> In c (s_cands (branch same start stop i t tk nt s)).
Proof. intros H. unfold branch. cbn [s_cands]. destruct (inside start stop t); [exact H|]. now apply add_keeps. Qed.
Lemma step_keeps start stop reg s i s' c : In c (s_cands s) -> emu_step same start stop reg s i = Some s' -> In c (s_cands s').
Proof.
  intros H E. unfold emu_step in E. destruct (s_test s && _); [discriminate|].
  repeat match type of E with
         | Some _ = Some _ => injection E as <-
         | None = Some _ => discriminate E
         | context [match ?x with _ => _ end] => destruct x
         end; try exact H; try destruct (s_inv s); now apply branch_keeps.
Qed.
Lemma branch_stands start stop i t tk nt s : ~ (start <= t < stop) -> stands (s_cands (branch same start stop i t tk nt s)) i.
Proof. intros H. unfold branch. cbn [s_cands]. replace (inside start stop t) with false by (unfold inside; lia). apply add_stands. Qed.
Lemma step_stands start stop reg s i s' t : exits start stop i t -> emu_step same start stop reg s i = Some s' -> stands (s_cands s') i.
Proof.
  intros (B & O) E. unfold emu_step in E. destruct (s_test s && _); [discriminate|].
  destruct B as [B|[B|(c & B)]]; rewrite B in E;
  repeat match type of E with
         | Some _ = Some _ => injection E as <-
         | None = Some _ => discriminate E
         | context [match ?x with _ => _ end] => destruct x
         end; try destruct (s_inv s); now apply branch_stands.
Qed.
Lemma pass_keeps start stop reg l : forall s s' c, In c (s_cands s) -> emu_pass same start stop reg s l = Some s' -> In c (s_cands s').
Proof.
  induction l as [|i l IH]; intros s s' c H E; cbn [emu_pass] in E; [now injection E as <-|].
  destruct (emu_step same start stop reg s i) as [s1|] eqn:S; [|discriminate]. apply (IH s1 s' c); [|exact E]. now apply (step_keeps _ _ _ _ _ _ _ H S).
Qed.
Lemma pass_stands start stop reg l : forall s s' i t, In i l -> exits start stop i t -> emu_pass same start stop reg s l = Some s' -> stands (s_cands s') i.
Proof.
  induction l as [|j l IH]; intros s s' i t I X E; [destruct I|]. cbn [emu_pass] in E.
  destruct (emu_step same start stop reg s j) as [s1|] eqn:S; [|discriminate]. destruct I as [->|I]; [|now apply (IH s1 s' i t)].
  destruct (step_stands _ _ _ _ _ _ _ X S) as (c & Ic & Ec). exists c. split; [|exact Ec]. now apply (pass_keeps _ _ _ _ _ _ _ Ic E).
Qed.
Lemma emulate_stands start stop prog m l i t : emulate same start stop prog = Ok (Some (m, l)) -> In i prog -> exits start stop i t -> stands l i.
Proof.
  unfold emulate. destruct (find_nr_reg prog) as [reg|]; [|discriminate]. generalize (emu_fuel prog). generalize [(start, range 0 (Z.to_nat nr_max))] as m0.
  generalize (@nil insn) as l0. intros l0 m0 fuel. revert l0 m0.
  induction fuel as [|fuel IH]; intros l0 m0; cbn [emu_loop]; [discriminate|].
  destruct (emu_pass same start stop reg (Emu m0 l0 false false None false) prog) as [s|] eqn:E; [|discriminate].
  destruct (s_again s); [now apply IH|]. intros [= <- <-] I X. now apply (pass_stands _ _ _ _ _ _ _ _ I X E).
Qed.
Lemma exits_target start stop i t : exits start stop i t -> target_of i = t.
Proof. unfold target_of. intros ([->|[->|(c & ->)]] & _); reflexivity. Qed.
Lemma two_places {A} (l : list A) x y : In x l -> In y l -> x <> y -> exists a p b q c, l = a ++ p :: b ++ q :: c /\ ((p = x /\ q = y) \/ (p = y /\ q = x)).
Proof.
  intros Ix Iy N. apply in_split in Ix as (a & b & ->). apply in_app_or in Iy as [Iy|[Iy|Iy]]; [|congruence|]; apply in_split in Iy as (u & w & ->).
  - exists u, y, w, x, b. split; [now rewrite <- app_assoc|auto].
  - exists a, x, u, y, w. auto.
Qed.

Lemma extract_muddled (same_kind : forall a b, same a b = true -> i_kind a = i_kind b)
  (same_sym : forall a b, same a b = true -> same b a = true) (same_trans : forall a b c, same a b = true -> same b c = true -> same a c = true)
  (same_refl : forall a, same a a = true) decode order a e sym reg code prog :
  (forall l, Permutation (order l) l) ->
  a_table a = None -> dget str_eqb (a_abi a ++ $"_sys_call") (e_functions e) = Some sym -> 16 <= sym_size sym ->
  read_symbol e sym = Ok code -> prog = decode (a_bits32 a) code (sym_real sym) ->
  dispatcher reg (sym_real sym) (sym_real sym + sym_size sym) prog ->
  muddled same (sym_real sym) (sym_real sym + sym_size sym) prog ->
  extract_syscall_vaddrs decode same order a e = Ok [].
Proof.
  intros Ho Ha Hs Hsz Hr Hp D Mu.
  set (start := sym_real sym) in *. set (stop := start + sym_size sym) in *.
  destruct (emulate_exact same reg start stop prog D same_kind) as (m & l & E & H1 & H2 & H3).
  assert (extract_syscall_vaddrs decode same order a e = Ok (collect m (order l) [] false)) as X.
  { unfold extract_syscall_vaddrs. rewrite Ha, Hs. destruct (sym_size sym <? 16) eqn:E16; [lia|]. rewrite Hr. cbn [bind].
    fold start. fold stop. rewrite <- Hp, E. cbn [bind]. reflexivity. }
  rewrite X. f_equal.
  enough (conflict (get m) (map target_of (order l))) as C by (destruct (collect_cases m (order l)) as [[_ R]|[N _]]; [exact R|contradiction]).
  assert (Hc : forall c, In c l -> In c (order l)) by (intros c Hc; now apply (Permutation_in c (Permutation_sym (Ho l)))).
  destruct Mu as [i t Hi He Hn|i j t t' Hi Hj Hd He He' (ns & (N1 & N2) & N3) (ns' & (N1' & N2') & N3')].
  - left. destruct (H3 i t Hi He) as (c & Ic & <-). exists (target_of c). split; [now apply in_map, Hc|]. unfold bad_set.
    destruct (get m (target_of c)) as [|n x] eqn:G; [reflexivity|]. exfalso. assert (In n (get m (target_of c))) as Q by (rewrite G; now left).
    apply H1 in Q as (Q1 & Q2). exact (Hn n Q1 Q2).
  - right. left. assert (forall v ns, NoDup ns -> (forall n, In n ns <-> 0 <= n < 4096 /\ reaches start prog n v) -> 100 < len ns -> default_case (get m) v) as Df.
    { intros v vs V1 V2 V3. unfold default_case. enough (len (get m v) = len vs) by lia. unfold len. f_equal. apply Permutation_length. apply NoDup_Permutation; [apply sorted_NoDup, (emulate_ok _ _ _ _ _ _ E)|exact V1|].
      intros n. rewrite H1, V2. reflexivity. }
    destruct (emulate_stands _ _ _ _ _ _ _ E Hi He) as (c & Ic & Ec). destruct (emulate_stands _ _ _ _ _ _ _ E Hj He') as (d & Id & Ed).
    assert (same i c = true) as Ec' by (destruct Ec as [->|Ec]; auto). assert (same j d = true) as Ed' by (destruct Ed as [->|Ed]; auto).
    assert (target_of c = t) as Tc by (unfold target_of; rewrite <- (same_kind _ _ Ec'); exact (exits_target _ _ _ _ He)).
    assert (target_of d = t') as Td by (unfold target_of; rewrite <- (same_kind _ _ Ed'); exact (exits_target _ _ _ _ He')).
    assert (c <> d) as N. { intros ->. assert (same j i = true) by (apply (same_trans j d i); auto). congruence. }
    destruct (two_places _ c d (Hc c Ic) (Hc d Id) N) as (x & p & y & q & z & -> & PQ). exists (map target_of x), (target_of p), (map target_of y), (target_of q), (map target_of z).
    split; [rewrite map_app; cbn [map]; now rewrite map_app|]. assert (default_case (get m) t) as D1 by (apply (Df t ns); assumption). assert (default_case (get m) t') as D2 by (apply (Df t' ns'); assumption).
    destruct PQ as [(-> & ->)|(-> & ->)]; rewrite Tc, Td; auto.
Qed.
End Empty.
