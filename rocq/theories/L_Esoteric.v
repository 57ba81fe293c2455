(** Lemmas: syscalls outside the table (C90). *)
From Coq Require Import List Bool Ascii String ZArith Lia Permutation Sorted.
From Verif Require Import PyBase PyFacts M_Utils M_Elf M_Syscall M_Arch M_Kernel M_Signature M_Location M_Annotate
  S_Arch S_Dummy S_Kernel S_Location S_Esoteric L_Arch L_Arch2 L_Dummy2 L_Dummy3 L_Kernel2 L_Kernel3 L_Kernel4 L_Kernel5 L_Kernel6 L_Kernel7 L_Kernel8 L_Location7.
Import ListNotations.
Open Scope Z_scope.
Open Scope list_scope.

(** * The list of the architecture *)
Lemma iter_words big c ws : iter_unpack_u big 4 c = Ok ws -> c = ppc_code big ws /\ Forall is_word32 ws.
Proof.
  unfold iter_unpack_u. change (Z.to_nat 4) with 4%nat. destruct (chunks (List.length c) 4 c) as [l|] eqn:E; [|discriminate].
  intros H. injection H as <-. apply chunks_spec in E as (-> & F); [|lia]. unfold ppc_code. split.
  - f_equal. rewrite map_map. clear - F. induction F as [|x l Hx F IH]; [reflexivity|]. cbn [map]. f_equal; [|exact IH].
    pose proof (enc_uint_of big x) as U. rewrite Hx in U. now rewrite U.
  - apply Forall_forall. intros w I. apply in_map_iff in I as (x & <- & I). rewrite Forall_forall in F. specialize (F x I).
    pose proof (uint_of_range big x) as U. unfold len in U. rewrite F in U. exact U.
Qed.
Definition entry_of (n : Z) (name : str) (sym : symbol) (kc : option str) (sig : list str) : esoteric := (n, name, sym_name sym, sig, kc).
Definition before_in_list (x y : esoteric) : Prop := eso_number x < eso_number y.
Lemma loaded_key e n s : wf e -> dget str_eqb n (e_symbols e) = Some s -> sym_name s = n.
Proof. intros W D. apply dget_In in D; [|exact str_eqb_eq]. exact (wf_name e W _ _ D). Qed.
Section Entries.
  Context (k : klass) (ver : version) (abi : str) (b : bool) (a : arch) (e : elf) (eso : list esoteric).
  Hypothesis A : arch_new k ver abi b = Ok a.
  Hypothesis W : wf e.
  Hypothesis H : extract_esoteric_syscalls (adjust_abi a e) e = Ok eso.
  Lemma entries_sorted : StronglySorted before_in_list eso.
  Proof.
    unfold extract_esoteric_syscalls in H. destruct (a_class (adjust_abi a e)); try (injection H as <-; constructor).
    - injection H as <-. unfold arm_esoteric. destruct (negb _); [constructor|]. cbv zeta.
      destruct (ver_geb _ _); cbn [app]; repeat (apply SSorted_cons || apply SSorted_nil || apply Forall_cons || apply Forall_nil); unfold before_in_list, eso_number; cbn [fst]; lia.
    - unfold ppc_esoteric in H. destruct (_ || _); [injection H as <-; constructor|]. destruct (dget str_eqb _ (e_symbols e)); [|injection H as <-; constructor].
      cbv zeta in H. apply bind_Ok in H as (c & _ & X). apply bind_Ok in X as (insns & _ & X). destruct (ppc_fast_switch insns); injection X as <-; repeat constructor.
  Qed.
  Lemma entry_outside x s : In x eso -> make_esoteric e x = Ok s ->
    exists n name sym kc sig, outside k ver abi e n name sym kc sig /\ x = entry_of n name sym kc sig.
  Proof.
    intros I M. destruct (adj_fields _ _ _ _ _ e A) as (Fk & _ & Fa & Fv & _).
    unfold extract_esoteric_syscalls in H. rewrite Fk in H. destruct k eqn:Ek; try (injection H as <-; contradiction).
    - injection H as <-. destruct (arm_base _ _ _ _ e A) as (Hz & _ & Hv). unfold arm_esoteric in I. rewrite Hv in I.
      set (z := a_base (adjust_abi a e)) in *. clearbody z. destruct (dmem str_eqb $"arm_syscall" (e_functions e)) eqn:Ef; cbn [negb] in I; [|destruct I].
      apply fun_present_iff in Ef. cbv zeta in I. destruct x as [[[[n nm] sn] sig] kc]. unfold make_esoteric in M.
      assert (sn = $"arm_syscall" /\ kc = None /\ exists m, n = z + m /\ arm_private ver m nm /\ arm_params nm sig) as (-> & -> & m & -> & P1 & P2).
      { apply in_app_or in I as [I|I].
        - repeat (destruct I as [E|I]; [injection E as <- <- <- <- <-; split; [reflexivity|split; [reflexivity|]]; eexists; split; [symmetry; apply Z.add_assoc|split; constructor]|]). destruct I.
        - destruct (ver_geb ver [4;15]) eqn:Ev; [|destruct I]. apply since_iff in Ev. destruct I as [E|[]]. injection E as <- <- <- <- <-.
          split; [reflexivity|split; [reflexivity|]]. eexists. split; [symmetry; apply Z.add_assoc|split; constructor]. exact Ev. }
      destruct (dget str_eqb $"arm_syscall" (e_symbols e)) as [sym|] eqn:D; [|discriminate].
      exists (z + m), nm, sym, None, sig. split; [now apply ou_arm|]. unfold entry_of. now rewrite (loaded_key _ _ _ W D).
    - unfold ppc_esoteric in H. rewrite Fv, Fa in H. destruct (str_eqb abi $"ppc64") eqn:Ea; cbn [negb orb] in H; [|injection H as <-; contradiction].
      apply str_eqb_eq in Ea. destruct (ver_geb ver [6;12]) eqn:Ev; [injection H as <-; contradiction|].
      destruct (dget str_eqb _ (e_symbols e)) as [exc|] eqn:D; [|injection H as <-; contradiction]. cbv zeta in H.
      apply bind_Ok in H as (c & C & X). apply bind_Ok in X as (ws & Hw & X). destruct (iter_words _ _ _ Hw) as (-> & F).
      pose proof (fast_switch_iff ws F) as Hf. destruct (ppc_fast_switch ws); [|injection X as <-; contradiction].
      set (kc := if ver_geb ver [4;15] then Some $"PPC_FAST_ENDIAN_SWITCH" else None) in *.
      exists 7870, $"switch_endian", exc, kc, []. assert (x = entry_of 7870 $"switch_endian" exc kc []) as Ex.
      { assert (eso = [entry_of 7870 $"switch_endian" exc kc []]) as E by exact (eq_sym (f_equal (fun o => match o with Ok l => l | _ => [] end) X)). rewrite E in I. destruct I as [<-|[]]. reflexivity. }
      split; [|exact Ex]. apply ou_switch with (ws := ws); auto.
      + apply before_iff. rewrite ver_geb_ltb in Ev. now apply negb_false_iff.
      + rewrite <- C. f_equal. destruct (next_symbol e exc); lia.
      + now apply Hf.
      + unfold kc. rewrite since_iff, before_iff, ver_geb_ltb. destruct (ver_ltb ver [4;15]); cbn [negb]; auto.
  Qed.
  Lemma outside_entry n name sym kc sig : outside k ver abi e n name sym kc sig -> In (entry_of n name sym kc sig) eso.
  Proof.
    destruct (adj_fields _ _ _ _ _ e A) as (Fk & _ & Fa & Fv & _).
    intros [base m nm s params Ek Ef Hb P1 P2 D|exc ws kc' Ek Ea Hv D F C S O].
    - rewrite Ek in A, Fk. destruct (arm_base _ _ _ _ e A) as (Hz & _ & Hv). unfold extract_esoteric_syscalls in H. rewrite Fk in H. injection H as <-.
      unfold arm_esoteric. rewrite Hv. rewrite (number_base_fun _ _ _ _ Hz Hb). apply fun_present_iff in Ef. rewrite Ef. cbn [negb]. cbv zeta.
      unfold entry_of. rewrite (loaded_key _ _ _ W D). apply in_or_app.
      destruct P1 as [| | | | |S]; inversion P2; subst; rewrite ?(Z.add_assoc base 983040); try (left; cbn [In]; replace (base + 983041) with (base + 983040 + 1) by lia; replace (base + 983042) with (base + 983040 + 2) by lia; replace (base + 983043) with (base + 983040 + 3) by lia; replace (base + 983044) with (base + 983040 + 4) by lia; replace (base + 983045) with (base + 983040 + 5) by lia; tauto).
      right. apply since_iff in S. rewrite S. left. now replace (base + 983046) with (base + 983040 + 6) by lia.
    - rewrite Ek in A, Fk.
      destruct (ppc_esoteric_exact (adjust_abi a e) e exc ws) as (kc2 & K & Y & _); try assumption; [now rewrite Fa|now rewrite Fv|].
      rewrite (Y S) in H. injection H as <-. left. unfold entry_of. rewrite Fv in K.
      assert (kc' = kc2) as ->; [|reflexivity]. rewrite since_iff, before_iff, ver_geb_ltb in *. destruct (ver_ltb ver [4;15]); cbn [negb] in *; destruct K as [(-> & K)|(-> & K)], O as [(O & ->)|(O & ->)]; congruence || reflexivity.
  Qed.
End Entries.

(** * The annotation *)
Definition kept_sig (s s' : syscall) : Prop := same_syscall s s' /\ (sc_esoteric s = true -> sc_signature s' = sc_signature s).
Lemma annotate_kept w have a e p kdir rdir kres l r : annotate w have a e p kdir rdir kres l = Ok r -> Forall2 kept_sig l r.
Proof.
  intros H. pose proof (annotate_annotates _ _ _ _ _ _ _ _ _ _ H) as S. unfold annotate in H. apply bind_Ok in H as (m & H & K). apply extract_same in H.
  unfold extract_syscall_signatures in K. apply bind_Ok in K as (meta & _ & K). apply mapM_Ok in K.
  revert r K S. induction H as [|s s' l m Hs H IH]; intros r K S; inversion K as [|? y ? r' Hy K']; subst; inversion S; subst; constructor; [|now apply IH].
  split; [assumption|]. intros Es. unfold sign in Hy. rewrite Hs in Hy. cbn [sc_esoteric] in Hy. rewrite Es in Hy. injection Hy as <-. reflexivity.
Qed.

(** * Results *)
Definition made (n : Z) (name : str) (sym : symbol) (kc : option str) (sig : list str) : syscall := syscall_new None n name name sym kc (Some sig) true.
Lemma make_esoteric_made e n name sym kc sig : dget str_eqb (sym_name sym) (e_symbols e) = Some sym -> make_esoteric e (entry_of n name sym kc sig) = Ok (made n name sym kc sig).
Proof. intros D. unfold make_esoteric, entry_of. now rewrite D. Qed.
Lemma outside_key k ver abi e n name sym kc sig : wf e -> outside k ver abi e n name sym kc sig -> dget str_eqb (sym_name sym) (e_symbols e) = Some sym.
Proof. intros W [base m nm s params _ _ _ _ _ D|exc ws kc' _ _ _ D _ _ _ _]; now rewrite (loaded_key _ _ _ W D). Qed.
Section List_.
  Context (k : klass) (ver : version) (abi : str) (b : bool) (a : arch) (e : elf) (eso : list esoteric) (esl : list syscall).
  Hypothesis A : arch_new k ver abi b = Ok a.
  Hypothesis W : wf e.
  Hypothesis H : extract_esoteric_syscalls (adjust_abi a e) e = Ok eso.
  Hypothesis F : Forall2 (fun x y => make_esoteric e x = Ok y) eso esl.
  Lemma esl_iff s : In s esl <-> exists n name sym kc sig, outside k ver abi e n name sym kc sig /\ s = made n name sym kc sig.
  Proof.
    split.
    - intros I. assert (exists x, In x eso /\ make_esoteric e x = Ok s) as (x & X & M).
      { clear - F I. induction F as [|x s' xs ss E G IH]; [destruct I|]. destruct I as [->|I]; [exists x; split; [now left|exact E]|].
        destruct (IH G I) as (z & Z1 & Z2). exists z. split; [now right|exact Z2]. }
      destruct (entry_outside _ _ _ _ _ _ _ A W H x s X M) as (n & name & sym & kc & sig & O & ->). exists n, name, sym, kc, sig. split; [exact O|].
      rewrite (make_esoteric_made _ _ _ _ _ _ (outside_key _ _ _ _ _ _ _ _ _ W O)) in M. now injection M as <-.
    - intros (n & name & sym & kc & sig & O & ->). pose proof (outside_entry _ _ _ _ _ _ _ A W H _ _ _ _ _ O) as I.
      assert (exists s, In s esl /\ make_esoteric e (entry_of n name sym kc sig) = Ok s) as (s & X & M).
      { clear - F I. induction F as [|x s' xs ss E G IH]; [destruct I|]. destruct I as [->|I]; [exists s'; split; [now left|exact E]|].
        destruct (IH G I) as (z & Z1 & Z2). exists z. split; [now right|exact Z2]. }
      rewrite (make_esoteric_made _ _ _ _ _ _ (outside_key _ _ _ _ _ _ _ _ _ W O)) in M. injection M as <-. exact X.
  Qed.
  Lemma esl_sorted : StronglySorted number_before esl.
  Proof.
    pose proof (entries_sorted _ _ _ H) as S. clear - F S.
    assert (forall x y, make_esoteric e x = Ok y -> sc_number y = eso_number x) as N.
    { intros [[[[n nm] sn] sig] kc] y E. unfold make_esoteric in E. destruct (dget str_eqb sn (e_symbols e)); [|discriminate]. now injection E as <-. }
    induction F as [|x y xs ys E G IH]; [constructor|]. inversion S as [|? ? S1 S2]; subst. constructor; [now apply IH|].
    clear - G S2 N E. induction G as [|x' y' xs ys E' G IH]; [constructor|]. inversion S2; subst. constructor; [|now apply IH].
    unfold number_before. rewrite (N _ _ E), (N _ _ E'). assumption.
  Qed.
End List_.
Lemma kept_filter kdir l : (forall s, In s l -> sc_esoteric s = true) -> filter (fun s => okb (keep_located kdir s)) l = l.
Proof. intros H. apply filter_true. intros s I. unfold keep_located. now rewrite (H s I). Qed.
Lemma kept_app l1 l2 r : Forall2 kept_sig (l1 ++ l2) r -> exists r1 r2, r = r1 ++ r2 /\ Forall2 kept_sig l1 r1 /\ Forall2 kept_sig l2 r2.
Proof. intros H. apply Forall2_app_inv_l in H as (r1 & r2 & H1 & H2 & E). exists r1, r2. auto. Qed.
Lemma kept_In l r y : Forall2 kept_sig l r -> In y r -> exists x, In x l /\ kept_sig x y.
Proof.
  induction 1 as [|s t' l r E F IH]; [intros []|]. intros [<-|H]; [exists s; split; [now left|exact E]|].
  destruct (IH H) as (s' & H1 & H2). exists s'. split; [now right|exact H2].
Qed.
Lemma kept_In_l l r x : Forall2 kept_sig l r -> In x l -> exists y, In y r /\ kept_sig x y.
Proof.
  induction 1 as [|s t' l r E F IH]; [intros []|]. intros [<-|H]; [exists t'; split; [now left|exact E]|].
  destruct (IH H) as (s' & H1 & H2). exists s'. split; [now right|exact H2].
Qed.
Lemma kept_sorted l r : Forall2 kept_sig l r -> StronglySorted number_before l -> StronglySorted number_before r.
Proof.
  induction 1 as [|s s' l r E F IH]; intros S; [constructor|]. inversion S as [|? ? S1 S2]; subst. constructor; [now apply IH|].
  apply Forall_forall. intros y I. destruct (kept_In _ _ _ F I) as (x & X & (K & _)). rewrite Forall_forall in S2. specialize (S2 x X).
  destruct E as ((_ & E & _) & _). destruct K as (_ & K & _). unfold number_before in *. congruence.
Qed.
Section Result.
  Context (k : klass) (ver : version) (abi : str) (b : bool) (a : arch) (t : env) (e : elf) (v : version) (kdir : option path)
    (w : world) (have : bool) (p : path) (rdir : option path) (kres : path) (r : list syscall).
  Hypothesis A : arch_new k ver abi b = Ok a.
  Hypothesis Hp : forall l, Permutation (v_ni_order t l) l.
  Hypothesis T : v_annotate t = annotate w have (adjust_abi a e) e p kdir rdir kres.
  Hypothesis Lo : loaded e.
  Hypothesis H : extract_syscalls t a e v kdir = Ok r.

  Lemma result_parts vaddrs found located : syscall_vaddrs t (adjust_abi a e) e = Ok vaddrs -> (exists v, not_implemented e v) ->
    candidates (v_ni_order t) (adjust_abi a e) e v vaddrs = Ok found -> v_annotate t found = Ok located -> filterM (keep_located kdir) located = Ok r ->
    exists main eso choice ref code, r = main ++ eso /\ chooses e vaddrs choice /\ reference e vaddrs choice ref code /\
      (forall s, In s main -> sc_esoteric s = false) /\ StronglySorted number_before eso /\ (forall s, In s eso -> described k ver abi e s) /\
      forall n name sym kc sig, outside k ver abi e n name sym kc sig ->
        ((exists s, In s eso /\ sc_number s = n /\ sc_name s = name /\ sc_symbol s = sym /\ sc_kconfig s = kc /\ sc_signature s = Some sig) <->
         is_dummy_syscall (adjust_abi a e) sym e ref code = Ok false).
  Proof.
    intros H1 Hni H2 H3 H4. pose proof (loaded_wf e Lo) as W. pose proof (ni_nonempty _ _ Hp Hni) as Hne.
    destruct (candidates_parts _ _ _ _ _ _ Hne H2) as (prefixes & eso & esl & ref & code & P).
    set (ni := v_ni_order t (ni_functions e)) in *. assert (Permutation ni (ni_functions e)) as Hpn by apply Hp.
    pose proof (po_eso _ _ _ _ _ _ _ _ _ _ _ P) as Pe. pose proof (po_esl _ _ _ _ _ _ _ _ _ _ _ P) as Pl.
    pose proof (esl_iff _ _ _ _ _ _ _ _ A W Pe Pl) as Ie. pose proof (esl_sorted _ _ _ _ Pe Pl) as Se.
    rewrite T in H3. apply annotate_kept in H3. rewrite (po_list _ _ _ _ _ _ _ _ _ _ _ P), filter_app in H3.
    apply kept_app in H3 as (r1 & r2 & -> & K1 & K2). apply filterM_Ok in H4 as (E & _). rewrite filter_app in E.
    assert (forall s, In s r2 -> sc_esoteric s = true) as Es.
    { intros s I. destruct (kept_In _ _ _ K2 I) as (s0 & I0 & ((_ & _ & _ & _ & _ & _ & S7) & _)). apply filter_In in I0 as (I0 & _).
      apply Ie in I0 as (n & name & sym & kc & sig & _ & ->). now rewrite <- S7. }
    rewrite (kept_filter kdir r2 Es) in E.
    exists (filter (fun s => okb (keep_located kdir s)) r1), r2, (chosen (adjust_abi a e) e ni vaddrs), ref, code.
    split; [exact E|]. split; [exact (chooses_ok _ _ _ _ _ _ _ _ _ _ _ Hpn P)|]. split; [exact (reference_ok _ _ _ _ _ _ _ _ _ _ _ Hpn P)|].
    split; [|split; [|split]].
    - intros s I. apply filter_In in I as (I & _). destruct (kept_In _ _ _ K1 I) as (s0 & I0 & ((_ & _ & _ & _ & _ & _ & S7) & _)). rewrite <- S7.
      apply filter_In in I0 as (I0 & _). apply filter_In in I0 as (I0 & _). apply in_map_iff in I0 as ((i & z) & <- & _). reflexivity.
    - eapply kept_sorted; [exact K2|]. now apply sorted_filter.
    - intros s I. destruct (kept_In _ _ _ K2 I) as (s0 & I0 & ((S1 & S2 & S3 & S4 & S5 & S6 & S7) & S8)). apply filter_In in I0 as (I0 & _).
      apply Ie in I0 as (n & name & sym & kc & sig & O & ->). cbn in S1, S2, S3, S4, S5, S6, S7, S8.
      split; [now rewrite <- S7|]. split; [now rewrite <- S1|]. split; [now rewrite <- S3, <- S4|]. exists sig. split; [now apply S8|].
      rewrite <- S2, <- S3, <- S5, <- S6. exact O.
    - intros n name sym kc sig O. split.
      + intros (s & I & <- & <- & <- & <- & _). destruct (kept_In _ _ _ K2 I) as (s0 & I0 & ((_ & _ & _ & _ & S5 & _) & _)). apply filter_In in I0 as (_ & D).
        unfold dummy_filter in D. rewrite S5 in D. destruct (is_dummy_syscall (adjust_abi a e) (sc_symbol s) e ref code) as [[|]| | |]; try discriminate D. reflexivity.
      + intros D. assert (In (made n name sym kc sig) esl) as I by (apply Ie; exists n, name, sym, kc, sig; auto).
        assert (In (made n name sym kc sig) (filter (dummy_filter (adjust_abi a e) e ref code) esl)) as J.
        { apply filter_In. split; [exact I|]. unfold dummy_filter. cbn [made syscall_new sc_symbol]. rewrite D. reflexivity. }
        destruct (kept_In_l _ _ _ K2 J) as (s & I' & ((S1 & S2 & S3 & S4 & S5 & S6 & S7) & S8)). cbn in S2, S3, S5, S6, S8.
        exists s. split; [exact I'|]. rewrite <- S2, <- S3, <- S5, <- S6. repeat split; auto.
  Qed.
  Lemma result_outside : exists main eso, r = main ++ eso /\ (forall s, In s main -> sc_esoteric s = false) /\
    StronglySorted number_before eso /\ (forall s, In s eso -> described k ver abi e s).
  Proof.
    destruct (extract_cases _ _ _ _ _ _ H) as [->|(vaddrs & found & located & H1 & H2 & H3 & H4)].
    { exists [], []. split; [reflexivity|]. split; [intros s []|]. split; [constructor|intros s []]. }
    destruct (no_ni_found _ _ _ _ Hp _ _ H2) as [->|Hni].
    { rewrite T in H3. apply annotate_kept in H3. inversion H3; subst. injection H4 as <-. exists [], []. split; [reflexivity|]. split; [intros s []|]. split; [constructor|intros s []]. }
    destruct (result_parts _ _ _ H1 Hni H2 H3 H4) as (main & eso & choice & ref & code & E & _ & _ & P1 & P2 & P3 & _). exists main, eso. auto.
  Qed.
  Lemma result_outside_all vaddrs : a_bits32 a = e_bits32 e -> syscall_vaddrs t (adjust_abi a e) e = Ok vaddrs -> vaddrs <> [] -> (exists v, not_implemented e v) ->
    exists choice ref code, chooses e vaddrs choice /\ reference e vaddrs choice ref code /\
      forall n name sym kc sig, outside k ver abi e n name sym kc sig ->
        ((exists s, In s r /\ sc_esoteric s = true /\ sc_number s = n /\ sc_name s = name /\ sc_symbol s = sym /\ sc_kconfig s = kc /\ sc_signature s = Some sig) <->
         is_dummy_syscall (adjust_abi a e) sym e ref code = Ok false).
  Proof.
    intros Hb Hv Hn Hni. unfold extract_syscalls in H. rewrite Hb, xorb_nilpotent in H. cbv zeta in H. rewrite Hv in H. cbn [bind] in H.
    destruct vaddrs as [|x l]; [congruence|]. destruct (ni_order_some _ _ Hp Hni) as (y & ys & No). rewrite No in H. apply bind_Ok in H as (found & H2 & X). apply bind_Ok in X as (located & H3 & H4).
    destruct (result_parts _ _ _ Hv Hni H2 H3 H4) as (main & eso & choice & ref & code & E & C & R & P1 & P2 & P3 & P4).
    exists choice, ref, code. split; [exact C|]. split; [exact R|]. intros n name sym kc sig O. rewrite <- (P4 _ _ _ _ _ O). rewrite E. split.
    - intros (s & I & Es & Q). exists s. split; [|exact Q]. apply in_app_or in I as [I|I]; [|exact I]. rewrite (P1 s I) in Es. discriminate.
    - intros (s & I & Q). exists s. split; [apply in_or_app; now right|]. split; [now apply P3|exact Q].
  Qed.
End Result.
