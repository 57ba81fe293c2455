(** Lemmas: images in order (C98). *)
From Coq Require Import List Bool Ascii String ZArith Lia Permutation ZifyBool.
From Verif Require Import PyBase PyFacts M_Utils M_Elf S_Elf M_Syscall M_Arch S_Arch M_Emu M_Kconfig M_Kernel S_Kernel S_Dummy
  L_Arch L_Kernel L_Kernel2 L_Kernel3 L_Kernel4 L_Kernel5 L_Kernel7 L_Dummy L_Dummy2 L_Dummy3 S_Signature S_Location S_Declared S_Whole.
Import ListNotations.
Open Scope Z_scope.
Open Scope list_scope.

Definition tried (a : arch) (e : elf) (s : symbol) : Prop :=
  (exists d, is_dummy_syscall a s e None None = Ok d) /\
  forall v f c, ni_at e v f -> read_symbol e f = Ok c -> exists d, is_dummy_syscall a s e (Some f) (Some c) = Ok d.
Record sound_for (a : arch) (e : elf) (vs : list Z) : Prop := SoundFor {
  sf_eso : exists eso, extract_esoteric_syscalls a e = Ok eso /\
    forall x, In x eso -> exists s, dget str_eqb (eso_symbol x) (e_symbols e) = Some s /\ tried a e s;
  sf_code : forall v f, ni_at e v f -> exists c, read_symbol e f = Ok c;
  sf_table : forall v s, In v vs -> symbol_at e v s -> tried a e s
}.

Lemma read_at e v n : image_has e v [] -> exists x, vaddr_read e v n = Ok x.
Proof. intros (off & rest & O & _). unfold vaddr_read. rewrite O. cbn [bind]. unfold file_read. eauto. Qed.
Lemma has_nil e v x : image_has e v x -> image_has e v [].
Proof. intros (off & rest & O & E). exists off, (x ++ rest). split; [exact O|]. exact E. Qed.
Lemma unpack_total big n c : 0 < n -> len c mod n = 0 -> exists l, iter_unpack_u big n c = Ok l.
Proof.
  intros N M. unfold iter_unpack_u.
  destruct (proj2 (chunks_Some_iff (List.length c) (Z.to_nat n) c ltac:(lia) (Nat.le_refl _))) as (l & ->); [|eauto].
  apply Nat2Z.inj. rewrite Nat2Z.inj_mod, Z2Nat.id by lia. exact M.
Qed.
Lemma dummy_total a e s : whole_code a e s -> exists o, dummy_syscall_code a s e = Ok o.
Proof.
  intros ((x & X & L) & D). assert (read_symbol e s = Ok x) as R by (unfold read_symbol; rewrite <- L; now apply has_vaddr_read).
  unfold dummy_syscall_code. destruct (a_class a) eqn:K; try (eexists; reflexivity).
  - unfold arm_dummy. destruct (negb _); [eauto|]. rewrite R. cbn [bind]. destruct (bytes_in _ _); eauto.
  - destruct (mips_dummy_cases s e x R L) as [->|[-> _]]; eauto.
  - unfold ppc_dummy. destruct (_ <? _); [eauto|]. rewrite R. cbn [bind].
    destruct (unpack_total (e_big e) 4 x) as (ws & ->); [lia| |].
    { rewrite L. apply Z.mod_divide; [lia|]. now apply D. }
    cbn [bind]. destruct (ppc_scan ws None None []) as [[[d i] l]|]; [|eauto]. destruct (negb _); [eauto|]. destruct (ver_eqb _ _); eauto.
  - destruct (x86_dummy_total s e x R L) as (o & -> & _). eauto.
Qed.
Lemma whole_tried a e s : whole_code a e s -> tried a e s.
Proof.
  intros W. destruct (dummy_total a e s W) as (o & O). split.
  - unfold is_dummy_syscall. cbn [bind]. rewrite O. cbn [bind]. eauto.
  - intros v f c _ _. unfold is_dummy_syscall. destruct (_ =? _); [eauto|].
    destruct W as ((x & X & _) & _). destruct (read_at e (sym_real s) (len c) (has_nil _ _ _ X)) as (r & ->). cbn [bind].
    destruct (str_eqb r c); [eauto|]. rewrite O. cbn [bind]. eauto.
Qed.

Lemma sound_input_for a e vs : sound_input a e vs -> sound_for a e vs.
Proof.
  intros [Ni Ta Ar Sw]. constructor.
  - destruct (a_class a) eqn:K; try (exists []; split; [unfold extract_esoteric_syscalls; rewrite K; reflexivity|intros x []]).
    + exists (arm_esoteric a e). split; [unfold extract_esoteric_syscalls; rewrite K; reflexivity|]. unfold arm_esoteric.
      destruct (dmem str_eqb _ (e_functions e)) eqn:M; cbn [negb]; [|intros x []].
      destruct (Ar eq_refl) as (s & S & W).
      { unfold dmem in M. destruct (dget str_eqb _ (e_functions e)) as [y|] eqn:Y; [|discriminate]. apply (dget_In str_eqb str_eqb_eq) in Y. exact (in_map fst _ _ Y). }
      intros x X. exists s. split; [|now apply whole_tried].
      assert (eso_symbol x = $"arm_syscall") as ->; [|exact S].
      repeat (apply in_app_or in X as [X|X] || (destruct X as [<-|X]; [reflexivity|]) || contradiction || destruct (ver_geb _ _)).
    + destruct (dget str_eqb $"exc_real_0xc00_system_call" (e_symbols e)) as [exc|] eqn:X.
      2:{ exists []. split; [apply ppc_esoteric_none; auto|intros x []]. }
      destruct (str_eqb (a_abi a) $"ppc64") eqn:E1.
      2:{ exists []. split; [apply ppc_esoteric_none; [exact K|]|intros x []]. left. intros E. rewrite E in E1. discriminate. }
      apply str_eqb_eq in E1. destruct (ver_ltb (a_version a) [6;12]) eqn:E2.
      2:{ exists []. split; [apply ppc_esoteric_none; [exact K|]|intros x []]. right. left. apply since_iff. rewrite ver_geb_ltb, E2. reflexivity. }
      apply before_iff in E2. destruct (Sw exc eq_refl E1 E2 eq_refl) as (Na & W & ws & Ws & R).
      destruct (ppc_esoteric_exact a e exc ws K E1 E2 X Ws R) as (kc & _ & Y & N).
      pose proof (fast_switch_iff ws Ws) as F. destruct (ppc_fast_switch ws).
      * eexists. split; [apply Y, F; reflexivity|]. intros x [<-|[]]. exists exc. cbn. rewrite Na. split; [exact X|now apply whole_tried].
      * exists []. split; [apply N; intros H; apply F in H; discriminate|intros x []].
  - intros v f N. unfold read_symbol. apply read_at. now apply (Ni v).
  - intros v s I A. apply whole_tried. now apply (Ta v).
Qed.

Section Total.
  Context (ni_order : list symbol -> list symbol) (a : arch) (e : elf) (v : version) (vaddrs : list (Z * Z)).
  Hypothesis Hp : forall l, Permutation (ni_order l) l.
  Hypothesis Hni : exists v, not_implemented e v.
  Hypothesis Hs : sound_for a e (map snd vaddrs).
  Hypothesis Himp : exists i v', In (i, v') vaddrs /\ has_symbol e v' /\ ~ not_implemented e v'.

  Let ni := ni_order (ni_functions e).

  Lemma sound_candidates : (forall i v', In (i, v') vaddrs -> has_symbol e v' \/ not_implemented e v') ->
    exists l, candidates ni_order a e v vaddrs = Ok l.
  Proof.
    intros Hall. pose proof (ni_nonempty _ _ Hp Hni) as Hne. destruct (prefixes_ok ni_order a e vaddrs Hp Himp) as [prefixes Hpre].
    destruct (sf_eso _ _ _ Hs) as (eso & Heso & Hpres). destruct (esl_ok e eso) as [esl Hesl].
    { intros x X. destruct (Hpres x X) as (s & S & _). unfold sym_present. apply (dget_In str_eqb str_eqb_eq) in S. exact (in_map fst _ _ S). }
    assert (forall s, In s esl -> tried a e (sc_symbol s)) as Hes.
    { apply mapM_Ok in Hesl. clear -Hesl Hpres. induction Hesl as [|x y xs ys E F IH]; [intros s []|].
      intros s [<-|H]; [|apply IH; [|exact H]; intros z Z; apply Hpres; now right]. destruct (Hpres x (or_introl eq_refl)) as (q & Q & T).
      destruct x as [[[[n nm] sn] sig] kc]. unfold make_esoteric in E. cbn in Q. rewrite Q in E. injection E as <-. exact T. }
    unfold candidates. cbv zeta. rewrite match_ne by exact Hne. fold ni. fold ni in Hpre. rewrite Hpre. cbn [bind]. rewrite Heso. cbn [bind]. rewrite Hesl. cbn [bind].
    apply mapM_Ok in Hesl.
    pose proof (proj2 (assertion_iff a e v ni vaddrs prefixes eso esl Hesl)) as A. rewrite A; clear A.
    2:{ intros [i v'] Hi. cbn [snd]. pose proof (chosen_cases a e ni vaddrs v' (Hp (ni_functions e))) as C. unfold L_Kernel4.chosen.
        destruct (dget Z.eqb v' _) as [s|]; [discriminate|]. intros _.
        assert (In v' (map snd vaddrs)) as Hv by (apply in_map_iff; exists (i, v'); auto). specialize (C Hv).
        specialize (Hall i v' Hi). tauto. }
    cbn [assert_ bind].
    match goal with |- exists l, bind (match ?r with _ => _ end) _ = _ => destruct r as [f|] eqn:Eref end.
    - assert (In f ni) as Hf.
      { match type of Eref with match dkeys ?d with _ => _ end = _ => destruct (dkeys d) as [|q0 q] eqn:Ek; [discriminate|] end.
        injection Eref as <-. match goal with |- In (max_by ?key _ _) _ => pose proof (max_by_in key q0 q) as M end.
        rewrite <- Ek in M. apply (proj1 (counter_keys _ _)) in M. apply in_map_iff in M as (x & <- & M).
        apply filter_In in M as [_ M]. now apply sym_in_iff. }
      assert (ni_at e (sym_vaddr f) f) as Hn.
      { apply ni_functions_iff. apply (Permutation_in _ (Hp (ni_functions e))). exact Hf. }
      destruct (sf_code _ _ _ Hs _ _ Hn) as [c Hc]. rewrite Hc. cbn [bind]. eexists. apply filterM_total. intros s Hin.
      assert (tried a e (sc_symbol s)) as [_ T].
      { apply in_app_or in Hin as [Hin|Hin]; [|auto]. apply filter_In in Hin as [Hin _].
        apply in_map_iff in Hin as ([i x] & <- & Hin). apply filter_In in Hin as [Hin Hx]. cbn [snd] in Hx.
        apply resolve_In in Hin as (v' & G1 & G2). cbn.
        pose proof (chosen_cases a e ni vaddrs v' (Hp (ni_functions e))) as C. rewrite G2 in C.
        assert (In v' (map snd vaddrs)) as I by (apply in_map_iff; exists (i, v'); auto).
        destruct (C I) as [[_ C']|(C' & _)]; [|exact (sf_table _ _ _ Hs v' x I C')].
        apply sym_in_iff in C'. rewrite C' in Hx. discriminate. }
      destruct (T _ f c Hn Hc) as (d & ->). cbn [bind]. eauto.
    - cbn [bind]. eexists. apply filterM_total. intros s Hin.
      assert (tried a e (sc_symbol s)) as [(d & ->) _]; [|cbn [bind]; eauto].
      apply in_app_or in Hin as [Hin|Hin]; [|auto]. apply filter_In in Hin as [Hin _].
      apply in_map_iff in Hin as ([i x] & <- & Hin). apply filter_In in Hin as [Hin Hx]. cbn [snd] in Hx.
      apply resolve_In in Hin as (v' & G1 & G2). cbn.
      pose proof (chosen_cases a e ni vaddrs v' (Hp (ni_functions e))) as C. rewrite G2 in C.
      assert (In v' (map snd vaddrs)) as I by (apply in_map_iff; exists (i, v'); auto).
      destruct (C I) as [[_ C']|(C' & _)]; [|exact (sf_table _ _ _ Hs v' x I C')].
      apply sym_in_iff in C'. rewrite C' in Hx. discriminate.
  Qed.
End Total.
