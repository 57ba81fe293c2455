(** Lemmas for C30: the symbol of a syscall has the highest rank of all symbols at its address. *)
From Coq Require Import List Bool Ascii String ZArith Lia Permutation Sorted.
From Verif Require Import PyBase PyFacts Regex M_Utils S_Utils M_Elf S_Elf L_Elf M_Syscall L_Syscall M_Arch S_Arch
  L_Arch L_Arch2 M_Emu M_Kconfig M_Kernel S_Kernel L_Kernel2 L_Kernel3 L_Kernel4 L_Kernel5 L_Kernel6 L_Kernel7 L_Kernel8
  S_Rank L_Rank.
Import ListNotations.
Open Scope Z_scope.
Open Scope list_scope.

Lemma preferred_max a x y : rank a (sym_name x) <= rank a (sym_name (preferred_symbol a x y)) /\
  rank a (sym_name y) <= rank a (sym_name (preferred_symbol a x y)).
Proof.
  destruct (Z.lt_total (rank a (sym_name x)) (rank a (sym_name y))) as [H|[H|H]].
  - destruct (preferred_rank a y x H) as [_ ->]. lia.
  - destruct (preferred_or a x y) as [-> | ->]; lia.
  - destruct (preferred_rank a x y H) as [-> _]. lia.
Qed.

Section Best.
  Context (a : arch) (ni : list symbol) (seen : list Z) (v : Z).
  Hypothesis Hv : In v seen.
  Hypothesis Hn : forall f, In f ni -> sym_vaddr f <> v.

  Definition best_ok (done : list symbol) (d : dict Z symbol) : Prop :=
    (forall c, dget Z.eqb v d = Some c -> sym_vaddr c = v) /\
    forall s, In s done -> sym_vaddr s = v -> exists c, dget Z.eqb v d = Some c /\ rank a (sym_name s) <= rank a (sym_name c).

  Lemma best_step done d s : best_ok done d -> best_ok (done ++ [s]) (pick_step a ni seen d s).
  Proof.
    intros [A B]. unfold pick_step. destruct (Z.eq_dec (sym_vaddr s) v) as [E|E].
    - assert (zin (sym_vaddr s) seen = true) as -> by (rewrite E; now apply zin_iff). cbn [negb].
      rewrite E. destruct (dget Z.eqb v d) as [o|] eqn:D.
      + destruct (symbol_eqb s o) eqn:Q.
        * apply symbol_eqb_eq in Q. subst o. split; [rewrite D; exact A|].
          intros t I T. apply in_app_or in I as [I|[<-|[]]]; [rewrite D; now apply B|].
          exists s. split; [exact D|lia].
        * assert (sym_in o ni = false) as ->.
          { destruct (sym_in o ni) eqn:X; [|reflexivity]. apply sym_in_iff in X. exfalso. apply (Hn o X). now apply A. }
          cbn [andb]. destruct (preferred_max a s o) as [M N].
          split.
          -- intros c C. rewrite dget_dset_eq in C by exact Z.eqb_eq. injection C as <-.
             destruct (preferred_or a s o) as [-> | ->]; [exact E|now apply A].
          -- intros t I T. exists (preferred_symbol a s o). rewrite dget_dset_eq by exact Z.eqb_eq. split; [reflexivity|].
             apply in_app_or in I as [I|[<-|[]]]; [|exact M].
             destruct (B t I T) as (c & C & R). injection C as <-. lia.
      + split.
        * intros c C. rewrite dget_dset_eq in C by exact Z.eqb_eq. now injection C as <-.
        * intros t I T. apply in_app_or in I as [I|[<-|[]]].
          -- destruct (B t I T) as (c & C & _). discriminate.
          -- exists s. rewrite dget_dset_eq by exact Z.eqb_eq. split; [reflexivity|lia].
    - assert (X : best_ok (done ++ [s]) d).
      { split; [exact A|]. intros t I T. apply in_app_or in I as [I|[<-|[]]]; [now apply B|contradiction]. }
      assert (Y : forall d', dget Z.eqb v d' = dget Z.eqb v d -> best_ok (done ++ [s]) d').
      { intros d' E'. unfold best_ok. rewrite E'. exact X. }
      destruct (negb (zin (sym_vaddr s) seen)); [exact X|].
      destruct (dget Z.eqb (sym_vaddr s) d) as [o|].
      + destruct (symbol_eqb s o); [exact X|]. destruct (sym_in o ni && negb (sym_in s ni)); [exact X|].
        apply Y, dget_dset_neq; [exact Z.eqb_eq|congruence].
      + apply Y, dget_dset_neq; [exact Z.eqb_eq|congruence].
  Qed.
  Lemma best_fold syms : forall done d, best_ok done d -> best_ok (done ++ syms) (fold_left (pick_step a ni seen) syms d).
  Proof.
    induction syms as [|s syms IH]; intros done d H; cbn [fold_left].
    - now rewrite app_nil_r.
    - replace (done ++ s :: syms) with ((done ++ [s]) ++ syms) by now rewrite <- app_assoc.
      apply IH. now apply best_step.
  Qed.
End Best.

Lemma chosen_best a e ni vaddrs v s t : Permutation ni (ni_functions e) -> In v (map snd vaddrs) ->
  ~ not_implemented e v -> chosen a e ni vaddrs v = Some s -> symbol_at e v t ->
  rank a (sym_name t) <= rank a (sym_name s).
Proof.
  intros P V N C [T1 T2]. unfold chosen, symbols_by_vaddr in C.
  assert (Hn : forall f, In f ni -> sym_vaddr f <> v).
  { intros f F E. apply N. exists f. apply ni_at_iff. split; [|exact E]. eapply Permutation_in; eauto. }
  destruct (best_fold a ni (map snd vaddrs) v V Hn (sort_by str_leb sym_name (dvalues (e_symbols e))) []
    (dict_of Z.eqb (map (fun s => (sym_vaddr s, s)) ni))) as [_ B].
  - split; [|intros ? []]. intros c H. apply seed_some in H as [H1 H2]. tauto.
  - destruct (B t) as (c & X & R).
    + cbn [app]. now apply sort_by_in.
    + exact T2.
    + rewrite C in X. injection X as <-. exact R.
Qed.

Section Result.
  Context (t : env) (k : klass) (ver : version) (abi : str) (b : bool) (a : arch) (e : elf) (v : version)
    (kdir : option path) (r : list syscall).
  Hypothesis Ha : arch_new k ver abi b = Ok a.
  Hypothesis Hp : forall l, Permutation (v_ni_order t l) l.
  Hypothesis Ht : annotates (v_annotate t).
  Hypothesis H : extract_syscalls t a e v kdir = Ok r.

  Lemma result_best s : In s r -> of_table s = true ->
    forall y, symbol_at e (sym_vaddr (sc_symbol s)) y ->
    rank (adjust_abi a e) (sym_name y) <= rank (adjust_abi a e) (sym_name (sc_symbol s)).
  Proof.
    intros Hs Hos. destruct (extract_cases _ _ _ _ _ _ H) as [->|(vaddrs & found & located & H1 & H2 & H3 & H4)]; [contradiction|].
    apply filterM_Ok in H4 as [-> _]. apply filter_In in Hs as [Hs _].
    destruct (same_In _ _ _ (Ht _ _ H3) Hs) as (s0 & Hs0 & Hsame).
    destruct (no_ni_found t a e v Hp _ _ H2) as [->|Hni]; [contradiction|].
    pose proof (ni_nonempty _ _ Hp Hni) as Hne.
    destruct (candidates_parts _ _ _ _ _ _ Hne H2) as (prefixes & eso & esl & ref & code & P).
    set (ni := v_ni_order t (ni_functions e)) in *.
    assert (Permutation ni (ni_functions e)) as Hpn by apply Hp.
    destruct Hsame as (S1 & S2 & S3 & S4 & S5 & S6 & S7).
    assert (of_table s0 = true) as Ho by (unfold of_table in *; now rewrite S7).
    rewrite (l_split _ _ _ _ _ _ _ _ _ _ _ P) in Hs0. apply in_app_or in Hs0 as [Hs0|Hs0].
    - apply (main_fields a e v ni vaddrs prefixes ref code) in Hs0 as (_ & i & x & w & I & C & X & -> & _).
      rewrite <- S5. cbn [sc_symbol make_syscall syscall_new].
      assert (In w (map snd vaddrs)) as W by (apply in_map_iff; exists (i, w); auto).
      intros y Y. change (sc_symbol (make_syscall (adjust_abi a e) v prefixes (i, x))) with x in *.
      rewrite (chosen_vaddr _ _ _ _ Hpn x w W C) in Y.
      eapply chosen_best; eauto. intros N. apply X. now apply (chosen_ni _ _ _ _ Hpn x w W C).
    - exfalso. apply filter_In in Hs0 as [Hs0 _]. 
      destruct (eso_fields _ _ _ _ _ _ _ _ _ _ _ P s0 Hs0) as [Q _]. unfold of_table in Ho. rewrite Q in Ho. discriminate.
  Qed.
End Result.
