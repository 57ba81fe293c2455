(** Lemmas for C92. *)
From Coq Require Import List Bool Ascii String ZArith Lia.
From Verif Require Import PyBase PyFacts M_Utils M_KconfigTables M_Elf M_Syscall M_Arch S_Utils S_Arch L_Utils L_Arch L_Arch3 L_Config3 S_Words.
Import ListNotations.
Open Scope Z_scope.
Open Scope list_scope.

Definition covered (l : list vrange) (v : version) : Prop := exists r, In r l /\ within r v.

(** Adjoining ranges joined. *)
Fixpoint joined (l : list vrange) : list vrange :=
  match l with
  | [] => []
  | (a, b) :: l' =>
      match joined l' with
      | (b', c) :: l'' => if ver_eqb b b' && ver_leb a b && ver_leb b c then (a, c) :: l'' else (a, b) :: (b', c) :: l''
      | [] => [(a, b)]
      end
  end.
Lemma covered_cons r l v : covered (r :: l) v <-> within r v \/ covered l v.
Proof.
  split.
  - intros (x & [<-|I] & W); [now left|]. right. now exists x.
  - intros [W|(x & I & W)]; [exists r|exists x]; split; auto; [now left|now right].
Qed.
Lemma within_join a b c v : ver_leb a b = true -> ver_leb b c = true -> within (a, c) v <-> within (a, b) v \/ within (b, c) v.
Proof.
  intros H1 H2. rewrite <- !in_vrange_within. destruct (ranges_partition a b c v H1 H2) as [-> _]. apply orb_true_iff.
Qed.
Lemma joined_covered l v : covered (joined l) v <-> covered l v.
Proof.
  induction l as [|[a b] l IH]; [reflexivity|]. cbn [joined]. rewrite covered_cons, <- IH.
  destruct (joined l) as [|[b' c] l'']; [now rewrite covered_cons|].
  destruct (ver_eqb b b' && ver_leb a b && ver_leb b c) eqn:E; rewrite ?covered_cons; [|tauto].
  apply andb_true_iff in E as [E E3]. apply andb_true_iff in E as [E1 E2]. apply ver_eqb_eq in E1 as <-.
  rewrite (within_join a b c v E2 E3). tauto.
Qed.

Definition ranges_of {V} (o : str) (t : list (version * version * str * V)) : list vrange :=
  flat_map (fun '(a, b, k, _) => if str_eqb k o then [(a, b)] else []) t.
Lemma ranges_of_in {V} o (t : list (version * version * str * V)) r : In r (ranges_of o t) <-> exists x, In (r, o, x) t.
Proof.
  unfold ranges_of. rewrite in_flat_map. split.
  - intros ([[[a b] k] x] & I & J). destruct (str_eqb k o) eqn:E; [|destruct J]. apply str_eqb_eq in E as ->. destruct J as [<-|[]]. now exists x.
  - intros (x & I). destruct r as [a b]. exists (a, b, o, x). split; [exact I|]. cbn. rewrite str_eqb_refl. now left.
Qed.
Definition wanted_ranges (o : str) (l : list (str * vrange)) : list vrange :=
  flat_map (fun '(k, r) => if str_eqb k o then [r] else []) l.
Lemma wanted_ranges_in o l r : In r (wanted_ranges o l) <-> In (o, r) l.
Proof.
  unfold wanted_ranges. rewrite in_flat_map. split.
  - intros ([k x] & I & J). destruct (str_eqb k o) eqn:E; [|destruct J]. apply str_eqb_eq in E as ->. now destruct J as [<-|[]].
  - intros I. exists (o, r). split; [exact I|]. rewrite str_eqb_refl. now left.
Qed.

Lemma key_present {V} (t : list (version * version * str * V)) v o :
  In o (dkeys (vd_getversion str_eqb (vd_new str_eqb t) v)) <-> covered (ranges_of o t) v.
Proof.
  rewrite vd_new_adds, map_addition. set (d := vd_getversion _ _ _).
  assert (In o (dkeys d) <-> exists x, dget str_eqb o d = Some x) as ->.
  { split.
    - intros I. destruct (dget str_eqb o d) as [x|] eqn:E; [now exists x|]. now apply (dget_None _ str_eqb_eq) in E.
    - intros [x E]. apply dict_In in E. now apply (in_map fst) in E. }
  unfold d. rewrite (vd_domain str_eqb str_eqb_eq). unfold covered. split.
  - intros (a & b & x & I & W). exists (a, b). split; [|exact W]. apply ranges_of_in. eauto.
  - intros ([a b] & I & W). apply ranges_of_in in I as [x I]. exists a, b, x. auto.
Qed.

Definition all_options : list str := flat_map (fun o => [yes o; no o]) word_options.
Definition ranges_eqb (a b : list vrange) : bool := forallb (fun '(x, y) => vrange_eqb x y) (combine a b) && Nat.eqb (List.length a) (List.length b).
Lemma ranges_eqb_eq a : forall b, ranges_eqb a b = true -> a = b.
Proof.
  induction a as [|x a IH]; intros [|y b]; unfold ranges_eqb; cbn; try reflexivity; try discriminate.
  rewrite <- andb_assoc, andb_true_iff. intros [E H]. apply vrange_eqb_eq in E as ->. f_equal. now apply IH.
Qed.
Definition check_words (k : klass) (abi : str) (bits32 : bool) : bool :=
  forallb (fun o => ranges_eqb (joined (ranges_of o (class_kconfig k ++ init_kconfig k abi bits32))) (wanted_ranges o (wanted k abi bits32))) all_options.
Lemma words_checked : forallb (fun k => forallb (fun abi => check_words k abi true && check_words k abi false) (arch_abis k))
  [KArm; KArm64; KMips; KPowerPC; KRiscV; KX86] = true.
Proof. vm_compute. reflexivity. Qed.

Lemma words a v opts o : fresh_kconfig a v = Some opts -> (exists n, In n word_options /\ (o = yes n \/ o = no n)) ->
  In o (dkeys opts) <-> asked (a_class a) (a_abi a) (a_bits32 a) v o.
Proof.
  intros F (n & N & O).
  assert (In (a_abi a) (arch_abis (a_class a))) as A.
  { revert F. unfold fresh_kconfig, run_process. cbn [fold_left act_step process0 p_world p_objs]. unfold instantiate.
    destruct (arch_new (a_class a) (a_version a) (a_abi a) (a_bits32 a)) as [a'| | |] eqn:E; cbn [bind p_objs p_world app]; try discriminate.
    intros _. apply (arch_new_fields _ _ _ _ _ E). }
  apply fresh_table in F as ->. rewrite key_present, <- joined_covered.
  assert (In o all_options) as I.
  { apply in_flat_map. exists n. split; [exact N|]. destruct O as [->| ->]; cbn; auto. }
  pose proof words_checked as C. rewrite forallb_forall in C. specialize (C (a_class a)).
  assert (In (a_class a) [KArm; KArm64; KMips; KPowerPC; KRiscV; KX86]) as K by (destruct (a_class a); cbn; auto 10).
  apply C in K. clear C. rewrite forallb_forall in K. specialize (K _ A). apply andb_true_iff in K as [K1 K2].
  assert (check_words (a_class a) (a_abi a) (a_bits32 a) = true) as K by (destruct (a_bits32 a); assumption).
  unfold check_words in K. rewrite forallb_forall in K. specialize (K o I). apply ranges_eqb_eq in K. rewrite K.
  unfold covered, asked. split; intros (r & R & W); exists r; (split; [|exact W]); now apply wanted_ranges_in.
Qed.
