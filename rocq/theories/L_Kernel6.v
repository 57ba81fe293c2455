(** Lemmas about the model of kernel.py: what is reported (C22-C25, C28). *)
From Coq Require Import List Bool Ascii String ZArith Lia Permutation Sorted.
From Verif Require Import PyBase PyFacts Regex M_Utils S_Utils M_Elf S_Elf L_Elf M_Syscall L_Syscall M_Arch S_Arch
  L_Arch L_Arch2 M_Emu M_Kconfig M_Kernel S_Kernel L_Kernel2 L_Kernel3 L_Kernel4 L_Kernel5.
Import ListNotations.
Open Scope Z_scope.
Open Scope list_scope.

(** * Numbers *)

Lemma klass_eq_dec (a b : klass) : {a = b} + {a <> b}.
Proof. decide equality. Qed.

Section Numbers.
  Context (k : klass) (ver : version) (abi : str) (b : bool) (a0 : arch) (e : elf).
  Hypothesis Ha : arch_new k ver abi b = Ok a0.
  Let a := adjust_abi a0 e.

  Lemma adj_fields : a_class a = k /\ a_bits32 a = b /\ a_abi a = abi /\ a_version a = ver /\ a_base a = a_base a0.
  Proof.
    destruct (adjust_abi_class a0 e) as (H1 & H2 & H3 & H4 & H5).
    destruct (arch_new_fields _ _ _ _ _ Ha) as (G1 & G2 & G3 & G4 & _).
    unfold a. rewrite H1, H2, H3, H4, H5. auto.
  Qed.

  Lemma adj_skip i n : skip_syscall a i n = skip_syscall a0 i n.
  Proof.
    destruct (adjust_abi_class a0 e) as (H1 & H2 & H3 & H4 & H5).
    unfold skip_syscall, a. now rewrite H1, H2, H3, H4.
  Qed.
  Lemma adj_number n : adjust_syscall_number a n = adjust_syscall_number a0 n.
  Proof.
    destruct (adjust_abi_class a0 e) as (H1 & H2 & H3 & H4 & H5).
    unfold adjust_syscall_number, a. now rewrite H1, H2, H4.
  Qed.

  Lemma interleaved_dec : interleaved k ver b \/ ~ interleaved k ver b.
  Proof.
    unfold interleaved. destruct k; try (right; intros (H & _); discriminate).
    destruct b; [right; intros (_ & H & _); discriminate|].
    destruct (since_or_before [5;0] ver) as [H|H].
    - right. intros (_ & _ & G). exact (since_not_before _ _ H G).
    - left. auto.
  Qed.

  Lemma number_iff i n : number_at k ver abi b i n <-> n = adjust_syscall_number a (a_base a + i).
  Proof.
    rewrite adj_number. destruct adj_fields as (_ & _ & _ & _ & Hbase). rewrite Hbase.
    destruct (number_base_total _ _ _ _ _ Ha) as [z Hz].
    assert (forall z, number_base k abi z -> a_base a0 = z) as Hzz.
    { intros z' Hz'. rewrite <- Hbase. unfold a. now apply (number_base_ok _ _ _ _ _ e z' Ha). }
    destruct interleaved_dec as [Hi|Hi].
    - destruct Hi as (Hk & Hb & Hv). pose proof Ha as Ha'. rewrite Hk, Hb in Ha'.
      destruct (ppc_skip_iff _ _ _ _ i (a_base a0 + i) Ha') as [_ H2]. destruct (H2 eq_refl Hv) as [_ H3]. rewrite H3.
      assert (a_base a0 = 0) as ->. { apply Hzz. rewrite Hk. constructor. }
      split.
      + intros H. inversion H as [base Hc _ E|Hc E]; [exfalso; apply Hc; unfold interleaved; auto|reflexivity].
      + intros ->. apply na_half. unfold interleaved. auto.
    - assert (adjust_syscall_number a0 (a_base a0 + i) = a_base a0 + i) as ->.
      { pose proof Ha as Ha'.
        destruct (klass_eq_dec k KPowerPC) as [E|E]; [|now apply (other_number _ _ _ _ _ _ Ha)].
        rewrite E in Ha'. destruct (ppc_skip_iff _ _ _ _ i (a_base a0 + i) Ha') as [H2 _]. apply H2.
        destruct b eqn:Eb; [now left|]. right. destruct (since_or_before [5;0] ver) as [H|H]; [exact H|].
        exfalso. apply Hi. unfold interleaved. auto. }
      split.
      + intros H. inversion H as [base Hc Hn E|Hc E]; [|contradiction]. rewrite (Hzz _ Hn). reflexivity.
      + intros ->. rewrite (Hzz _ Hz). now apply na_plain.
  Qed.

  Lemma foreign_iff i : 0 <= i < 2 ^ 30 ->
    (skip_syscall a i (adjust_syscall_number a (a_base a + i)) = true <-> foreign k ver abi b i).
  Proof.
    intros Hi. rewrite adj_skip. pose proof Ha as Ha'.
    pose proof (proj2 (number_iff i _) eq_refl) as Hnum.
    destruct (klass_eq_dec k KX86) as [E|E].
    - rewrite E in Ha'. rewrite adj_number, (other_number _ _ _ _ _ _ Ha') by discriminate.
      destruct adj_fields as (_ & _ & _ & _ & Hbase). rewrite Hbase.
      rewrite (x86_skip_iff _ _ _ _ _ Ha' Hi).
      assert (adjust_syscall_number a (a_base a + i) = a_base a0 + i) as En.
      { rewrite adj_number, (other_number _ _ _ _ _ _ Ha') by discriminate. now rewrite Hbase. }
      split.
      + intros H. apply (fo_x86 _ _ _ _ _ (a_base a0 + i)); [exact E|now rewrite <- En|exact H].
      + intros H. destruct H as [n _ H1 H2|H1 H2].
        * apply number_iff in H1. rewrite En in H1. now subst n.
        * destruct H1 as (H1 & _). congruence.
    - destruct (klass_eq_dec k KPowerPC) as [E'|E'].
      + rewrite E' in Ha'. destruct (ppc_skip_iff _ _ _ _ i (adjust_syscall_number a (a_base a + i)) Ha') as [H1 H2].
        destruct interleaved_dec as [Hc|Hc].
        * destruct Hc as (Hk & Hb & Hv). destruct (H2 Hb Hv) as [H3 _].
          set (sk := skip_syscall a0 i _) in *. clearbody sk. split.
          -- intros ->. apply fo_ppc; [unfold interleaved; auto|].
             destruct (str_eqb abi $"ppc32").
             ++ destruct (Z.Even_or_Odd i) as [H|H]; [exact H|]. exfalso. apply H3 in H. discriminate.
             ++ destruct (Z.Even_or_Odd i) as [H|H]; [|exact H]. exfalso. apply H3 in H. discriminate.
          -- intros H. destruct H as [n H4|_ H4]; [congruence|]. destruct sk; [reflexivity|exfalso].
             pose proof (proj1 H3 eq_refl) as H5. clear H3. destruct (str_eqb abi $"ppc32");
               destruct H4 as [x ->], H5 as [y H5]; lia.
        * destruct H1 as [H1 _].
          { destruct b eqn:Eb; [now left|]. right. destruct (since_or_before [5;0] ver) as [H|H]; [exact H|].
            exfalso. apply Hc. unfold interleaved. auto. }
          rewrite H1. split; [discriminate|]. intros H. destruct H as [n H4|H4 _]; [congruence|contradiction].
      + rewrite (other_skip _ _ _ _ _ _ _ Ha E E'). split; [discriminate|].
        intros H. destruct H as [n H4|H4 _]; [congruence|]. destruct H4. congruence.
  Qed.

  (** Entries for this ABI get different numbers. *)
  Lemma number_inj i j n : skip_syscall a i (adjust_syscall_number a (a_base a + i)) = false ->
    skip_syscall a j (adjust_syscall_number a (a_base a + j)) = false ->
    number_at k ver abi b i n -> number_at k ver abi b j n -> i = j.
  Proof.
    intros Si Sj Hi Hj. destruct interleaved_dec as [Hc|Hc].
    - destruct Hc as (Hk & Hb & Hv). pose proof Ha as Ha'. rewrite Hk in Ha'.
      rewrite adj_skip in Si, Sj.
      destruct (ppc_skip_iff _ _ _ _ i (adjust_syscall_number a (a_base a + i)) Ha') as [_ H2].
      destruct (H2 Hb Hv) as [H3 _]. apply H3 in Si. clear H2 H3.
      destruct (ppc_skip_iff _ _ _ _ j (adjust_syscall_number a (a_base a + j)) Ha') as [_ H2].
      destruct (H2 Hb Hv) as [H3 _]. apply H3 in Sj. clear H2 H3.
      inversion Hi as [z1 Hx z2 z3|z1 E1]; [exfalso; apply Hx; unfold interleaved; auto|].
      inversion Hj as [z4 Hx z5 z6|z4 E2]; [exfalso; apply Hx; unfold interleaved; auto|].
      assert (i / 2 = j / 2) by congruence. clear E1 E2 Hi Hj.
      destruct (str_eqb abi $"ppc32"); destruct Si as [x ->], Sj as [y ->];
        (* 2x+1 / 2x *)
        Z.div_mod_to_equations; lia.
    - apply number_iff in Hi. apply number_iff in Hj.
      assert (forall z, adjust_syscall_number a z = z) as Hid.
      { intros z. rewrite adj_number. pose proof Ha as Ha'.
        destruct (klass_eq_dec k KPowerPC) as [E|E]; [|now apply (other_number _ _ _ _ _ _ Ha)].
        rewrite E in Ha'. destruct (ppc_skip_iff _ _ _ _ i z Ha') as [H2 _]. apply H2.
        destruct b eqn:Eb; [now left|]. right. destruct (since_or_before [5;0] ver) as [H|H]; [exact H|].
        exfalso. apply Hc. unfold interleaved. auto. }
      rewrite Hid in Hi, Hj. lia.
  Qed.
End Numbers.

(** * What the list before the locations consists of *)

Section Main.
  Context (k : klass) (ver : version) (abi : str) (b : bool) (a0 : arch) (e : elf) (v : version)
    (ni : list symbol) (vaddrs : list (Z * Z)) (l : list syscall) (prefixes : list str)
    (eso : list esoteric) (esl : list syscall) (ref : option symbol) (code : option bytes).
  Hypothesis Ha : arch_new k ver abi b = Ok a0.
  Let a := adjust_abi a0 e.
  Hypothesis Hp : Permutation ni (ni_functions e).
  Hypothesis Hnd : NoDup (map fst vaddrs).
  Hypothesis H : parts_ok a e v ni vaddrs l prefixes eso esl ref code.

  Let entries := resolve (symbols_by_vaddr a e ni vaddrs) vaddrs.
  Let symbols := filter (fun x : Z * symbol => negb (sym_in (snd x) ni)) entries.
  Let main := filter (dummy_filter a e ref code)
     (filter (fun s => negb (skip a s)) (map (make_syscall a v prefixes) symbols)).

  Lemma l_split : l = main ++ filter (dummy_filter a e ref code) esl.
  Proof. rewrite (po_list _ _ _ _ _ _ _ _ _ _ _ H). apply filter_app. Qed.

  Lemma chosen_ni x v' : In v' (map snd vaddrs) -> chosen a e ni vaddrs v' = Some x ->
    (In x ni <-> not_implemented e v').
  Proof.
    intros Hv Hx. pose proof (chosen_cases a e ni vaddrs v' Hp Hv) as C.
    unfold chosen in Hx. rewrite Hx in C. destruct C as [[C1 C2]|(C1 & C2 & C3)].
    - split; [intros _; now exists x|auto].
    - tauto.
  Qed.

  Lemma chosen_vaddr x v' : In v' (map snd vaddrs) -> chosen a e ni vaddrs v' = Some x -> sym_vaddr x = v'.
  Proof.
    intros Hv Hx. pose proof (chosen_cases a e ni vaddrs v' Hp Hv) as C.
    unfold chosen in Hx. rewrite Hx in C. destruct C as [[C1 C2]|(C1 & C2 & C3)].
    - apply ni_at_iff in C1. tauto.
    - apply C1.
  Qed.

  Lemma chooses_ok : chooses e vaddrs (chosen a e ni vaddrs).
  Proof.
    intros i v' Hi. pose proof (po_all _ _ _ _ _ _ _ _ _ _ _ H (i, v') Hi) as Hc. cbn [snd] in Hc.
    assert (In v' (map snd vaddrs)) as Hv by (apply in_map_iff; exists (i, v'); auto).
    pose proof (chosen_cases a e ni vaddrs v' Hp Hv) as C. fold (chosen a e ni vaddrs v') in C.
    destruct (chosen a e ni vaddrs v') as [s|]; [|congruence]. exists s. split; [reflexivity|].
    destruct C as [[C1 C2]|(C1 & C2 & C3)].
    - split; [auto|]. intros C3. exfalso. apply C3. now exists s.
    - split; [contradiction|auto].
  Qed.

  Lemma main_fields s : In s main -> sc_esoteric s = false /\
    exists i x v', In (i, v') vaddrs /\ chosen a e ni vaddrs v' = Some x /\ ~ In x ni /\
      s = make_syscall a v prefixes (i, x) /\
      skip_syscall a i (adjust_syscall_number a (a_base a + i)) = false /\ is_dummy_syscall a x e ref code = Ok false.
  Proof.
    intros Hs. unfold main in Hs. apply filter_In in Hs as [Hs Hd]. apply filter_In in Hs as [Hs Hk].
    apply in_map_iff in Hs as ([i x] & <- & Hs). apply filter_In in Hs as [Hs Hn].
    apply resolve_In in Hs as (v' & H1 & H2). split; [reflexivity|]. exists i, x, v'.
    cbn [snd] in Hn. apply negb_true_iff, sym_in_not in Hn. apply negb_true_iff in Hk. repeat split; auto.
    unfold dummy_filter in Hd. change (sc_symbol (make_syscall a v prefixes (i, x))) with x in Hd.
    destruct (is_dummy_syscall a x e ref code) as [[|]| | |]; try discriminate. reflexivity.
  Qed.

  Lemma main_In i x v' : In (i, v') vaddrs -> chosen a e ni vaddrs v' = Some x -> ~ In x ni ->
    skip_syscall a i (adjust_syscall_number a (a_base a + i)) = false -> is_dummy_syscall a x e ref code = Ok false ->
    In (make_syscall a v prefixes (i, x)) main.
  Proof.
    intros H1 H2 H3 H4 H5. unfold main. apply filter_In. split.
    - apply filter_In. split; [|apply negb_true_iff; exact H4].
      apply in_map_iff. exists (i, x). split; [reflexivity|]. apply filter_In. split.
      + apply resolve_In. eauto.
      + now apply negb_true_iff, sym_in_not.
    - unfold dummy_filter. change (sc_symbol (make_syscall a v prefixes (i, x))) with x. rewrite H5. reflexivity.
  Qed.

  Lemma main_sorted : StronglySorted index_before main.
  Proof.
    unfold main. apply sorted_filter, sorted_filter.
    assert (StronglySorted (fun a b : Z * symbol => fst a < fst b) symbols) as Hs
      by (apply sorted_filter, resolve_sorted, Hnd).
    induction Hs as [|[i x] m Hs IH Hf]; [constructor|]. cbn [map]. constructor; [exact IH|].
    rewrite Forall_forall in *. intros y Hy. apply in_map_iff in Hy as ([j z] & <- & Hy).
    exists i, j. split; [reflexivity|]. split; [reflexivity|]. exact (Hf _ Hy).
  Qed.

  (** The reference *)
  Let ni_entries := filter (fun x : Z * symbol => sym_in (snd x) ni) entries.

  Lemma ni_count_occ s v' : In v' (map snd vaddrs) -> chosen a e ni vaddrs v' = Some s -> In s ni ->
    len (filter (symbol_eqb s) (map snd ni_entries)) = occurrences (Z.eqb v') (map snd vaddrs).
  Proof.
    intros Hv Hs Hn. unfold ni_entries, entries, resolve.
    set (d := symbols_by_vaddr a e ni vaddrs).
    set (m := sort_by Z.leb fst vaddrs).
    assert (Permutation vaddrs m) as P by apply sort_by_perm.
    assert (forall q, (forall x, In x q -> In (snd x) (map snd vaddrs)) ->
      len (filter (symbol_eqb s) (map snd (filter (fun x : Z * symbol => sym_in (snd x) ni)
        (flat_map (fun x : Z * Z => match dget Z.eqb (snd x) d with Some s => [(fst x, s)] | None => [] end) q))))
      = occurrences (Z.eqb v') (map snd q)) as G.
    { induction q as [|[i w] q IH]; intros Hq; [reflexivity|]. cbn [flat_map map fst snd occurrences].
      specialize (IH (fun x Hx => Hq x (or_intror Hx))).
      specialize (Hq (i, w) (or_introl eq_refl)). cbn [snd] in Hq.
      assert (match dget Z.eqb w d with
              | Some x => (sym_in x ni && symbol_eqb s x) = (v' =? w)
              | None => (v' =? w) = false end) as E.
      { destruct (dget Z.eqb w d) as [x|] eqn:Ex.
        - destruct (Z.eqb_spec v' w) as [->|Hne].
          + unfold chosen in Hs. fold d in Hs. rewrite Hs in Ex. injection Ex as <-.
            rewrite (proj2 (sym_in_iff s ni) Hn). now rewrite (proj2 (symbol_eqb_eq s s) eq_refl).
          + destruct (symbol_eqb s x) eqn:Es; [|apply andb_false_r]. exfalso.
            apply symbol_eqb_eq in Es. subst x. apply Hne.
            rewrite <- (chosen_vaddr s v' Hv Hs). apply (chosen_vaddr s w Hq Ex).
        - destruct (Z.eqb_spec v' w) as [->|Hne]; [|reflexivity].
          unfold chosen in Hs. fold d in Hs. congruence. }
      destruct (dget Z.eqb w d) as [x|].
      - cbn [app filter snd]. destruct (sym_in x ni); cbn [map filter snd] in *.
        + cbn [andb] in E. rewrite E. destruct (v' =? w); rewrite ?len_cons, IH; lia.
        + cbn [andb] in E. rewrite <- E, IH. reflexivity.
      - cbn [app]. rewrite E, IH. reflexivity. }
    rewrite G.
    - assert (forall l1 l2, Permutation l1 l2 -> occurrences (Z.eqb v') l1 = occurrences (Z.eqb v') l2) as Op.
      { induction 1; cbn [occurrences]; lia. }
      apply Op. now apply Permutation_map, Permutation_sym.
    - intros x Hx. apply in_map. eapply Permutation_in; [apply Permutation_sym; exact P|exact Hx].
  Qed.

  Lemma ni_entry s : In s (map snd ni_entries) <-> In s ni /\ exists i v', In (i, v') vaddrs /\ chosen a e ni vaddrs v' = Some s.
  Proof.
    rewrite in_map_iff. split.
    - intros ([i x] & <- & Hx). apply filter_In in Hx as [Hx Hn]. cbn [snd] in *. split; [now apply sym_in_iff|].
      apply resolve_In in Hx as (v' & H1 & H2). eauto.
    - intros [Hn (i & v' & H1 & H2)]. exists (i, s). split; [reflexivity|]. apply filter_In. split.
      + apply resolve_In. eauto.
      + now apply sym_in_iff.
  Qed.

  Lemma reference_ok : reference e vaddrs (chosen a e ni vaddrs) ref code.
  Proof.
    unfold reference. pose proof (po_ref _ _ _ _ _ _ _ _ _ _ _ H) as Hr. pose proof (po_code _ _ _ _ _ _ _ _ _ _ _ H) as Hc.
    fold entries in Hr. fold ni_entries in Hr.
    destruct (dkeys (sym_counter (map snd ni_entries))) as [|s0 r0] eqn:Ek.
    - rewrite Hr in Hc |- *. split; [exact Hc|]. intros i v' Hi Hn. destruct (chooses_ok i v' Hi) as (s & Hs & H1 & _).
      assert (In s (map snd ni_entries)) as Hx.
      { apply ni_entry. split; [|eauto]. specialize (H1 Hn). apply ni_at_iff in H1 as [H1 _].
        eapply Permutation_in; [apply Permutation_sym; exact Hp|exact H1]. }
      apply counter_keys in Hx. rewrite Ek in Hx. exact Hx.
    - set (key := fun q => match dget symbol_eqb q (sym_counter (map snd ni_entries)) with Some n => n | None => 0 end) in Hr.
      pose proof (max_by_in key s0 r0) as Hin. pose proof (max_by_ge key s0 r0) as Hge.
      rewrite <- Ek in Hin. set (f := max_by key s0 r0) in *. clearbody f. rewrite Hr in Hc |- *.
      destruct Hc as (c & H1 & H2). split; [eauto|].
      apply counter_keys, ni_entry in Hin as [Hn (i & v' & Hi & Hf)].
      assert (In v' (map snd vaddrs)) as Hv by (apply in_map_iff; exists (i, v'); auto).
      exists i, v'. split; [exact Hi|]. split.
      { apply ni_at_iff. split; [eapply Permutation_in; [exact Hp|exact Hn]|now apply chosen_vaddr]. }
      split; [exact Hf|]. intros i2 v2 Hi2 Hn2. destruct (chooses_ok i2 v2 Hi2) as (s & Hs & Hs1 & _).
      assert (In v2 (map snd vaddrs)) as Hv2 by (apply in_map_iff; exists (i2, v2); auto).
      assert (In s ni) as Hsn by (apply (chosen_ni s v2 Hv2 Hs); exact Hn2).
      rewrite <- (ni_count_occ s v2 Hv2 Hs Hsn), <- (ni_count_occ f v' Hv Hf Hn), <- !counter_get.
      apply Hge. rewrite <- Ek. apply counter_keys, ni_entry. eauto.
  Qed.

  Lemma eso_fields s : In s esl -> sc_esoteric s = true /\ sc_index s = None.
  Proof.
    pose proof (po_esl _ _ _ _ _ _ _ _ _ _ _ H) as F. clear -F. induction F as [|x y xs ys E F IH]; [intros []|].
    intros [<-|Hs]; [|auto]. unfold make_esoteric in E. destruct x as [[[[n nm] sn] sig] kc].
    destruct (dget str_eqb sn (e_symbols e)); [|discriminate]. injection E as <-. split; reflexivity.
  Qed.

  Lemma eso_numbers : NoDup (map sc_number esl).
  Proof.
    pose proof (po_esl _ _ _ _ _ _ _ _ _ _ _ H) as F.
    assert (map sc_number esl = map eso_number eso) as ->.
    { clear -F. induction F as [|x y xs ys E F IH]; [reflexivity|]. cbn [map]. rewrite IH. f_equal.
      unfold make_esoteric in E. destruct x as [[[[n nm] sn] sig] kc].
      destruct (dget str_eqb sn (e_symbols e)); [|discriminate]. injection E as <-. reflexivity. }
    pose proof (po_eso _ _ _ _ _ _ _ _ _ _ _ H) as E.
    destruct (adj_fields _ _ _ _ _ e Ha) as (Hk & _). fold a in Hk.
    assert (forall x : esoteric, NoDup (map eso_number [x])) as N1 by (intros x; constructor; [intros []|constructor]).
    destruct k eqn:Ek.
    - destruct (arm_esoteric_iff _ _ _ _ e Ha) as (l' & E' & Hn & _). fold a in E'. rewrite E in E'. now injection E' as <-.
    - unfold extract_esoteric_syscalls in E. rewrite Hk in E. injection E as <-. constructor.
    - unfold extract_esoteric_syscalls in E. rewrite Hk in E. injection E as <-. constructor.
    - unfold extract_esoteric_syscalls in E. rewrite Hk in E. unfold ppc_esoteric in E. cbv zeta in E.
      destruct (negb _ || _); [injection E as <-; constructor|].
      destruct (dget str_eqb _ (e_symbols e)); [|injection E as <-; constructor].
      destruct (vaddr_read e _ _) as [c| | |]; try discriminate. cbn [bind] in E.
      destruct (iter_unpack_u (e_big e) 4 c) as [ws| | |]; try discriminate. cbn [bind] in E.
      destruct (ppc_fast_switch ws); injection E as <-; [apply N1|constructor].
    - unfold extract_esoteric_syscalls in E. rewrite Hk in E. injection E as <-. constructor.
    - unfold extract_esoteric_syscalls in E. rewrite Hk in E. injection E as <-. constructor.
  Qed.
End Main.
