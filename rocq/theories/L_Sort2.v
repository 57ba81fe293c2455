(** Lemmas for C94: results are in the order of their numbers. *)
From Coq Require Import List Bool Ascii String ZArith Lia Permutation Sorted.
From Verif Require Import PyBase PyFacts M_Utils M_Elf S_Elf M_Syscall M_Arch S_Arch S_Dummy M_Kernel S_Kernel M_Location M_Annotate S_Esoteric L_Kernel8 L_Location7 L_Esoteric L_Print
  M_Output M_Html M_Sort S_Html S_Sort L_Sort.
Import ListNotations.
Open Scope Z_scope.
Open Scope list_scope.

Lemma number_base_fun k abi n n' : number_base k abi n -> number_base k abi n' -> n = n'.
Proof. intros H H'. destruct H; inversion H'; reflexivity. Qed.
Lemma number_mono k v abi b i j n m : number_at k v abi b i n -> number_at k v abi b j m -> i <= j -> n <= m.
Proof.
  intros N M L. destruct N as [base N1 N2|N1]; destruct M as [base' M1 M2|M1]; try contradiction.
  - rewrite (number_base_fun _ _ _ _ N2 M2). lia.
  - now apply Z.div_le_mono.
Qed.
Lemma number_outside k ver abi e b i n m name sym kc sig : 0 <= i < 7870 -> number_at k ver abi b i n -> outside k ver abi e m name sym kc sig -> n <= m.
Proof.
  intros I N O. destruct O as [base p name sym params -> _ B P _ _|exc ws option -> _ _ _ _ _ _ _].
  - destruct N as [base' _ N2|(Q & _)]; [|discriminate]. rewrite (number_base_fun _ _ _ _ N2 B). destruct P; lia.
  - destruct N as [base' _ N2|_]; [inversion N2; subst; lia|]. apply Z.div_le_upper_bound; lia.
Qed.
Lemma sorted_impl {A} (R Q : A -> A -> Prop) l : (forall x y, In x l -> In y l -> R x y -> Q x y) -> StronglySorted R l -> StronglySorted Q l.
Proof.
  intros H S. induction S as [|x l S IH F]; constructor.
  - apply IH. intros y z Iy Iz. apply H; now right.
  - rewrite Forall_forall in *. intros y I. apply H; [now left|now right|now apply F].
Qed.
Lemma sorted_app {A} (R : A -> A -> Prop) l m : StronglySorted R l -> StronglySorted R m -> (forall x y, In x l -> In y m -> R x y) -> StronglySorted R (l ++ m).
Proof.
  intros S Sm H. induction S as [|x l S IH F]; [exact Sm|]. cbn [app]. constructor.
  - apply IH. intros y z Iy Iz. apply H; [now right|exact Iz].
  - apply Forall_app. split; [exact F|]. apply Forall_forall. intros y I. apply H; [now left|exact I].
Qed.
Lemma result_ordered k ver abi b a t e v kdir w have p rdir kres r : arch_new k ver abi b = Ok a ->
  (forall l, Permutation (v_ni_order t l) l) -> v_annotate t = annotate w have (adjust_abi a e) e p kdir rdir kres -> loaded e ->
  (forall vaddrs i v', syscall_vaddrs t (adjust_abi a e) e = Ok vaddrs -> In (i, v') vaddrs -> i < 7870) ->
  extract_syscalls t a e v kdir = Ok r -> ordered (0%nat, true) r.
Proof.
  intros A Hp T Lo B H. assert (annotates (v_annotate t)) as An by (rewrite T; apply annotate_annotates).
  destruct (result_outside _ _ _ _ _ _ _ _ _ _ _ _ _ _ _ A Hp T Lo H) as (main & eso & E & P1 & P2 & P3).
  destruct (result_unique t k ver abi b a e v kdir r A Hp An H) as (_ & _ & S).
  assert (filter of_table r = main) as M.
  { rewrite E, filter_app. replace (filter of_table eso) with (@nil syscall).
    - rewrite app_nil_r. clear - P1. induction main as [|s l IH]; [reflexivity|]. cbn [filter]. unfold of_table at 1. rewrite (P1 s (or_introl eq_refl)). cbn [negb]. f_equal. apply IH. intros x I. apply P1. now right.
    - clear - P3. induction eso as [|s l IH]; [reflexivity|]. cbn [filter]. unfold of_table at 1. destruct (P3 s (or_introl eq_refl)) as (-> & _). cbn [negb]. apply IH. intros x I. apply P3. now right. }
  rewrite M in S.
  assert (forall s, In s main -> exists i, sc_index s = Some i /\ 0 <= i < 7870 /\ number_at k ver abi b i (sc_number s)) as Pr.
  { intros s I. destruct (result_provenance t k ver abi b a e v kdir r A Hp An H s) as (vaddrs & i & v' & V & J & X1 & X2 & _).
    - rewrite E. apply in_or_app. now left.
    - unfold of_table. now rewrite (P1 s I).
    - exists i. split; [exact X1|]. split; [|exact X2]. split; [|exact (B vaddrs i v' V J)]. pose proof (proj1 (Forall_forall _ _) (vaddrs_ok _ _ _ _ V) i (in_map fst _ _ J)) as Q. exact Q. }
  unfold ordered. cbn [fst snd]. unfold column_le. cbn [Nat.eqb]. rewrite E. apply sorted_app.
  - revert S. apply sorted_impl. intros x y Ix Iy (i & j & Ei & Ej & L). destruct (Pr x Ix) as (i' & Ei' & _ & Ni). destruct (Pr y Iy) as (j' & Ej' & _ & Nj).
    assert (i' = i) as -> by congruence. assert (j' = j) as -> by congruence. apply (number_mono _ _ _ _ _ _ _ _ Ni Nj). lia.
  - revert P2. apply sorted_impl. intros x y _ _. unfold number_before. lia.
  - intros x y Ix Iy. destruct (Pr x Ix) as (i & _ & Bi & Ni). destruct (P3 y Iy) as (_ & _ & _ & sig & _ & O). exact (number_outside _ _ _ _ _ _ _ _ _ _ _ _ Bi Ni O).
Qed.
Lemma result_clicks k ver abi b a t e v kdir w have p rdir kres r sv copy tag text ts es : arch_new k ver abi b = Ok a ->
  (forall l, Permutation (v_ni_order t l) l) -> v_annotate t = annotate w have (adjust_abi a e) e p kdir rdir kres -> loaded e ->
  (forall d, kdir = Some d -> L_Utils.good_path d) ->
  (forall vaddrs i v', syscall_vaddrs t (adjust_abi a e) e = Ok vaddrs -> In (i, v') vaddrs -> i < 7870) ->
  extract_syscalls t a e v kdir = Ok r -> output_html sv copy (Ok tag) a r = Ok text -> html_read text = Some ts -> Forall (hits (len r)) es ->
  exists m l d, longest r m /\ reacts es (dom_of (table_of ts)) = Ok d /\ shows tag m (last_mark (0%nat, true) es) l d /\ Permutation r (map snd l) /\
    ordered (last_mark (0%nat, true) es) (map snd l).
Proof.
  intros A Hp T Lo K B H O R Hits. pose proof (result_ordered _ _ _ _ _ _ _ _ _ _ _ _ _ _ _ A Hp T Lo B H) as Or.
  destruct (page_clicks sv copy tag a r text ts es O) as (m & l & d & X1 & X2 & X3 & X4 & X5); [|exact R|exact Hits|].
  - apply Forall_forall. intros s I. destruct (result_printable _ _ _ _ _ _ _ _ _ _ _ _ _ _ _ A T K H s I) as (P & _ & _). apply (S_Output.pt_number _ P).
  - exists m, l, d. repeat (split; [assumption|]). apply X5. now left.
Qed.
