(** Lemmas about the model of kernel.py: function descriptors, and what images look like. *)
From Coq Require Import List Bool Ascii String ZArith Lia.
From Verif Require Import PyBase PyFacts Regex M_Utils S_Utils M_Elf S_Elf L_Elf M_Syscall M_Arch S_Arch
  M_Emu M_Kconfig M_Kernel S_Kernel L_Kernel2.
Import ListNotations.
Open Scope Z_scope.
Open Scope list_scope.

(** * The address of each entry *)

Lemma mapM_Forall2 {A B} (f : A -> outcome B) l r : Forall2 (fun x y => f x = Ok y) l r -> mapM f l = Ok r.
Proof. induction 1 as [|x y l r H _ IH]; cbn; [reflexivity|]. rewrite H. cbn [bind]. rewrite IH. reflexivity. Qed.

Section Table.
  Context (a : arch) (e : elf) (name : str) (tbl : symbol) (text : section).
  Hypothesis Htbl : dget str_eqb name (e_symbols e) = Some tbl.
  Hypothesis Htext : dget str_eqb $".text" (e_sections e) = Some text.

  Lemma table_plain ps : a_fdesc a = false -> table_entries e tbl text ps ->
    vaddrs_from_table a e name = Ok (enum_from 0 ps).
  Proof.
    intros Hf Ht. unfold vaddrs_from_table. rewrite Htbl, Htext, Hf. cbn [negb].
    now rewrite (table_entries_ok _ _ _ _ Ht).
  Qed.

  Lemma table_direct p ps : pointers_at e (sym_vaddr tbl) [p] -> inside text p -> table_entries e tbl text ps ->
    vaddrs_from_table a e name = Ok (enum_from 0 ps).
  Proof.
    intros Hp Hi Ht. unfold vaddrs_from_table. rewrite Htbl, Htext.
    rewrite (table_entries_ok _ _ _ _ Ht), (unpack_long_at _ _ _ Hp). cbn [bind].
    apply in_target_iff in Hi. rewrite Hi. now destruct (negb (a_fdesc a)).
  Qed.

  Lemma table_descriptors p opd ds vs : a_fdesc a = true ->
    pointers_at e (sym_vaddr tbl) [p] -> ~ inside text p ->
    dget str_eqb $".opd" (e_sections e) = Some opd -> table_entries e tbl opd ds -> ds <> [] ->
    Forall2 (fun d v => pointers_at e d [v]) ds vs ->
    vaddrs_from_table a e name = Ok (enum_from 0 vs).
  Proof.
    intros Hf Hp Hi Ho Ht Hne Hd. unfold vaddrs_from_table. rewrite Htbl, Htext, Hf. cbn [negb].
    rewrite (unpack_long_at _ _ _ Hp). cbn [bind].
    destruct (in_target text p) eqn:E; [apply in_target_iff in E; contradiction|].
    rewrite Ho, (table_entries_ok _ _ _ _ Ht). cbn [bind].
    rewrite (mapM_Forall2 _ _ vs).
    - cbn [bind]. destruct vs; [|reflexivity]. inversion Hd; subst. congruence.
    - clear -Hd. induction Hd as [|x y l r H _ IH]; constructor; [|exact IH]. now apply unpack_long_at.
  Qed.

  (** Nothing is followed when there is nowhere to look. *)
  Lemma table_no_opd p : a_fdesc a = true -> pointers_at e (sym_vaddr tbl) [p] -> ~ inside text p ->
    dget str_eqb $".opd" (e_sections e) = None -> vaddrs_from_table a e name = Ok [].
  Proof.
    intros Hf Hp Hi Ho. unfold vaddrs_from_table. rewrite Htbl, Htext, Hf. cbn [negb].
    rewrite (unpack_long_at _ _ _ Hp). cbn [bind].
    destruct (in_target text p) eqn:E; [apply in_target_iff in E; contradiction|]. now rewrite Ho.
  Qed.
End Table.

Lemma enum_from_In {A} (l : list A) : forall i k x,
  In (k, x) (enum_from i l) <-> i <= k /\ nth_error l (Z.to_nat (k - i)) = Some x.
Proof.
  induction l as [|y l IH]; intros i k x; cbn [enum_from In].
  - split; [tauto|]. intros [_ H]. now destruct (Z.to_nat (k - i)).
  - rewrite IH. split.
    + intros [H|[H1 H2]].
      * injection H as -> ->. rewrite Z.sub_diag. split; [lia|reflexivity].
      * split; [lia|]. replace (Z.to_nat (k - i)) with (S (Z.to_nat (k - (i + 1)))) by lia. exact H2.
    + intros [H1 H2]. destruct (Z.eq_dec k i) as [->|Hk].
      * left. rewrite Z.sub_diag in H2. cbn in H2. congruence.
      * right. split; [lia|]. replace (Z.to_nat (k - i)) with (S (Z.to_nat (k - (i + 1)))) in H2 by lia. exact H2.
Qed.

(** * Images *)

Record wf (e : elf) : Prop := Wf {
  wf_keys : NoDup (dkeys (e_symbols e));
  wf_name : forall k s, In (k, s) (e_symbols e) -> sym_name s = k;
  wf_fkeys : NoDup (dkeys (e_functions e));
  wf_fname : forall k s, In (k, s) (e_functions e) -> sym_name s = k;
  wf_ftype : forall k s, In (k, s) (e_functions e) -> sym_type s = $"FUNC";
  wf_freal : forall k s, In (k, s) (e_functions e) -> sym_real s = real_vaddr_of (e_machine e) (sym_type s) (sym_vaddr s);
  wf_off : forall k s, In (k, s) (e_sections e) -> 0 <= sec_off s
}.

Lemma dset_In {K V} (eqb : K -> K -> bool) k (v : V) d k' v' :
  In (k', v') (dset eqb k v d) -> In (k', v') d \/ (v' = v /\ (k' = k \/ eqb k k' = true)).
Proof.
  induction d as [|[k0 v0] d IH]; cbn.
  - intros [H|[]]. injection H as -> ->. auto.
  - destruct (eqb k k0) eqn:E; cbn.
    + intros [H|H]; [|tauto]. injection H as -> ->. auto.
    + intros [H|H]; [tauto|]. destruct (IH H); tauto.
Qed.

Definition wf_syms (machine : Z) (d : dict str symbol) : Prop :=
  NoDup (dkeys d) /\ forall k s, In (k, s) d -> sym_name s = k /\ sym_real s = real_vaddr_of machine (sym_type s) (sym_vaddr s).

Lemma wf_syms_dset m s d : wf_syms m d -> sym_real s = real_vaddr_of m (sym_type s) (sym_vaddr s) ->
  wf_syms m (dset str_eqb (sym_name s) s d).
Proof.
  intros [H1 H2] Hr. split; [apply dset_NoDup; [exact str_eqb_eq|exact H1]|].
  intros k x H. apply dset_In in H as [H|[-> H]]; [auto|]. split; [|exact Hr].
  destruct H as [->|H]; [reflexivity|]. now apply str_eqb_eq in H.
Qed.

Lemma parse_symbol_real m l s : parse_symbol_line m l = Some s ->
  sym_real s = real_vaddr_of m (sym_type s) (sym_vaddr s).
Proof. unfold parse_symbol_line. destruct (re_search symbols_re l); [|discriminate]. intros H. injection H as <-. reflexivity. Qed.

Lemma extract_wf m lines : forall acc, wf_syms m (fst acc) -> wf_syms m (snd acc) ->
  (forall k s, In (k, s) (snd acc) -> sym_type s = $"FUNC") ->
  let r := fold_left (add_symbol_line m) lines acc in
  wf_syms m (fst r) /\ wf_syms m (snd r) /\ forall k s, In (k, s) (snd r) -> sym_type s = $"FUNC".
Proof.
  induction lines as [|l lines IH]; intros acc H1 H2 H3; cbn [fold_left]; [auto|].
  apply IH; unfold add_symbol_line; destruct (parse_symbol_line m l) as [s|] eqn:E; auto; cbn [fst snd];
    pose proof (parse_symbol_real _ _ _ E) as Hr.
  - now apply wf_syms_dset.
  - destruct (str_eqb (sym_type s) $"FUNC"); [now apply wf_syms_dset|exact H2].
  - destruct (str_eqb (sym_type s) $"FUNC") eqn:T; [|exact H3]. intros k x H.
    apply dset_In in H as [H|[-> _]]; [eauto|]. now apply str_eqb_eq.
Qed.

Lemma loaded_wf e : loaded e -> wf e.
Proof.
  intros (file & oS & os & H). unfold elf_open in H.
  destruct (elf_ident file) as [[[[b big] m] f]| | |]; try discriminate H. cbn [bind] in H.
  assert (wf_syms m []) as W0 by (split; [constructor|intros k s []]).
  destruct (extract_wf m (splitlines os) ([], []) W0 W0 (fun k s (F : In (k, s) (snd (@nil (str * symbol), @nil (str * symbol)))) => match F with end))
    as (W1 & W2 & W3).
  unfold extract_symbols in H. destruct (fold_left (add_symbol_line m) (splitlines os) ([], [])) as [syms funcs].
  cbn [fst snd] in *. injection H as <-. destruct W1 as [K1 N1], W2 as [K2 N2].
  constructor; cbn [e_symbols e_functions e_machine e_sections]; auto.
  - intros k s Hi. apply (N1 k s Hi).
  - intros k s Hi. apply (N2 k s Hi).
  - intros k s Hi. apply (N2 k s Hi).
  - intros k s Hi. unfold parse_sections, dict_of in Hi.
    assert (forall l d, (forall k s, In (k, s) d -> 0 <= sec_off s) ->
       forall k s, In (k, s) (dupdate str_eqb d (map section_of_match l)) -> 0 <= sec_off s) as G.
    { induction l as [|x l IH]; intros d Hd; cbn; [exact Hd|].
      apply IH. intros k' s' Hs. apply dset_In in Hs as [Hs|[-> _]]; [eauto|]. cbn.
      apply int_of_digits_nonneg. lia. }
    eapply G; [|exact Hi]. intros k' s' [].
Qed.

Lemma wf_place e v off : wf e -> place e v off -> 0 <= off.
Proof.
  intros W (s1 & s & s2 & E & C & _ & ->).
  assert (In s (map snd (e_sections e))) as H by (rewrite E; apply in_or_app; right; now left).
  apply in_map_iff in H as ([k s'] & <- & H). pose proof (wf_off e W _ _ H). cbn in *. lia.
Qed.

Lemma wf_sym_in e s : wf e -> In s (map snd (e_symbols e)) <-> dget str_eqb (sym_name s) (e_symbols e) = Some s.
Proof.
  intros W. split.
  - intros H. apply in_map_iff in H as ([k s'] & <- & H). cbn.
    rewrite (wf_name e W _ _ H). apply dget_In_nodup; [exact str_eqb_eq|apply W|exact H].
  - intros H. apply dget_In in H; [|exact str_eqb_eq]. apply in_map_iff. now exists (sym_name s, s).
Qed.

Lemma wf_sym_nodup e : wf e -> NoDup (map sym_name (map snd (e_symbols e))).
Proof.
  intros W. replace (map sym_name (map snd (e_symbols e))) with (dkeys (e_symbols e)); [apply W|].
  unfold dkeys. rewrite map_map. apply map_ext_in. intros [k s] H. symmetry. apply (wf_name e W _ _ H).
Qed.
Lemma wf_fun_nodup e : wf e -> NoDup (map sym_name (map snd (e_functions e))).
Proof.
  intros W. replace (map sym_name (map snd (e_functions e))) with (dkeys (e_functions e)); [apply W|].
  unfold dkeys. rewrite map_map. apply map_ext_in. intros [k s] H. symmetry. apply (wf_fname e W _ _ H).
Qed.
