(** Lemmas about the model of kernel.py: the reported syscalls (C22-C25, C28). *)
From Coq Require Import List Bool Ascii String ZArith Lia Permutation Sorted.
From Verif Require Import PyBase PyFacts Regex M_Utils S_Utils M_Elf S_Elf L_Elf M_Syscall L_Syscall M_Arch S_Arch
  L_Arch L_Arch2 M_Emu M_Kconfig M_Kernel S_Kernel L_Kernel2 L_Kernel3 L_Kernel4 L_Kernel5 L_Kernel6.
Import ListNotations.
Open Scope Z_scope.
Open Scope list_scope.

(** * The list before the locations *)

Lemma ni_nonempty ni_order e : (forall l, Permutation (ni_order l) l) -> (exists v, not_implemented e v) ->
  ni_order (ni_functions e) <> [].
Proof.
  intros Hp (v & f & Hf) E. apply ni_at_iff in Hf as [Hf _].
  pose proof (Hp (ni_functions e)) as P. rewrite E in P. apply Permutation_nil in P. rewrite P in Hf. exact Hf.
Qed.

Lemma match_ne {A B} (l : list A) (x y : B) : l <> [] -> match l with [] => x | _ :: _ => y end = y.
Proof. destruct l; congruence. Qed.

Lemma candidates_no_ni ni_order a e v vaddrs : (forall l, Permutation (ni_order l) l) ->
  (forall v, ~ not_implemented e v) -> candidates ni_order a e v vaddrs = Ok [].
Proof.
  intros Hp Hn. unfold candidates. destruct (ni_order (ni_functions e)) as [|f r] eqn:E; [reflexivity|].
  exfalso. apply (Hn (sym_vaddr f)). exists f. apply ni_functions_iff.
  eapply Permutation_in; [apply Hp|]. rewrite E. now left.
Qed.

Lemma candidates_exact k ver abi b a0 e v ni_order vaddrs l :
  arch_new k ver abi b = Ok a0 -> (forall l, Permutation (ni_order l) l) ->
  NoDup (map fst vaddrs) -> (exists v, not_implemented e v) ->
  candidates ni_order (adjust_abi a0 e) e v vaddrs = Ok l ->
  exists main eso choice ref code,
    l = main ++ eso /\
    chooses e vaddrs choice /\ reference e vaddrs choice ref code /\
    StronglySorted index_before main /\
    (forall s, In s main -> of_table s = true /\ exists i v', sc_index s = Some i /\ In (i, v') vaddrs /\
       choice v' = Some (sc_symbol s) /\ ~ not_implemented e v' /\ number_at k ver abi b i (sc_number s)) /\
    (forall s, In s eso -> of_table s = false /\ sc_index s = None) /\
    NoDup (map sc_number main) /\ NoDup (map sc_number eso) /\
    forall i v' x, In (i, v') vaddrs -> 0 <= i < 2 ^ 30 -> choice v' = Some x ->
      ((exists s, In s main /\ sc_index s = Some i /\ sc_symbol s = x) <->
       ~ not_implemented e v' /\ ~ foreign k ver abi b i /\
       is_dummy_syscall (adjust_abi a0 e) x e ref code = Ok false).
Proof.
  intros Ha Hp Hnd Hni Hc. pose proof (ni_nonempty _ _ Hp Hni) as Hne.
  destruct (candidates_parts _ _ _ _ _ _ Hne Hc) as (prefixes & eso & esl & ref & code & P).
  set (ni := ni_order (ni_functions e)) in *. set (a := adjust_abi a0 e) in *.
  assert (Permutation ni (ni_functions e)) as Hpn by apply Hp.
  pose proof (l_split _ _ _ _ _ _ _ _ _ _ _ P) as El.
  match type of El with _ = ?m ++ ?x => set (main := m) in *; set (es := x) in * end.
  pose proof (main_fields a0 e v ni vaddrs prefixes ref code) as Hm. fold a in Hm. fold main in Hm.
  pose proof (main_In a0 e v ni vaddrs prefixes ref code) as Hi. fold a in Hi. fold main in Hi.
  exists main, es, (chosen a e ni vaddrs), ref, code.
  split; [exact El|]. split; [exact (chooses_ok _ _ _ _ _ _ _ _ _ _ _ Hpn P)|].
  split; [exact (reference_ok _ _ _ _ _ _ _ _ _ _ _ Hpn P)|].
  pose proof (main_sorted a0 e v ni vaddrs prefixes ref code Hnd) as Hs. fold a in Hs. fold main in Hs.
  split; [exact Hs|].
  assert (forall s, In s main -> of_table s = true /\ exists i v', sc_index s = Some i /\ In (i, v') vaddrs /\
       chosen a e ni vaddrs v' = Some (sc_symbol s) /\ ~ not_implemented e v' /\ number_at k ver abi b i (sc_number s)) as H1.
  { intros s Hin. destruct (Hm s Hin) as (He & i & x & v' & G1 & G2 & G3 & -> & G4 & G5).
    split; [reflexivity|]. exists i, v'. split; [reflexivity|]. split; [exact G1|]. split; [exact G2|].
    assert (In v' (map snd vaddrs)) as Hvs by (apply in_map_iff; exists (i, v'); auto). split.
    - intros Hn. apply G3. now apply (chosen_ni _ _ _ _ Hpn x v' Hvs G2).
    - apply (number_iff _ _ _ _ _ e Ha). reflexivity. }
  split; [exact H1|].
  split.
  { intros s Hin. apply filter_In in Hin as [Hin _]. destruct (eso_fields _ _ _ _ _ _ _ _ _ _ _ P s Hin) as [G1 G2].
    split; [unfold of_table; now rewrite G1|exact G2]. }
  split.
  { assert (forall m, (forall s, In s m -> In s main) -> StronglySorted index_before m -> NoDup (map sc_number m)) as G.
    { induction m as [|s m IH]; intros Hsub Hso; [constructor|].
      inversion Hso as [|? ? Hso' Hf]; subst. cbn [map]. constructor; [|apply IH; auto; intros; apply Hsub; now right].
      intros Hin. apply in_map_iff in Hin as (t & E & Ht). rewrite Forall_forall in Hf.
      destruct (Hf t Ht) as (i & j & I1 & I2 & Hlt).
      destruct (Hm s (Hsub s (or_introl eq_refl))) as (_ & i' & x & w & _ & _ & _ & Es & Sk & _).
      destruct (Hm t (Hsub t (or_intror Ht))) as (_ & j' & y & u & _ & _ & _ & Et & Sk' & _).
      assert (i' = i) by (rewrite Es in I1; cbn in I1; congruence).
      assert (j' = j) by (rewrite Et in I2; cbn in I2; congruence). subst i' j'.
      assert (i = j); [|lia]. apply (number_inj _ _ _ _ _ e Ha i j (sc_number s)); auto.
      - apply (number_iff _ _ _ _ _ e Ha). rewrite Es. reflexivity.
      - apply (number_iff _ _ _ _ _ e Ha). rewrite <- E, Et. reflexivity. }
    apply G; auto. }
  split.
  { apply (NoDup_map_filter sc_number). exact (eso_numbers _ _ _ _ _ _ _ _ _ _ _ _ _ _ _ Ha P). }
  intros i v' x Hv Hb Hx.
  assert (In v' (map snd vaddrs)) as Hvs by (apply in_map_iff; exists (i, v'); auto).
  pose proof (foreign_iff _ _ _ _ _ e Ha i Hb) as Hf. fold a in Hf.
  split.
  - intros (s & Hin & Hidx & Hsym). destruct (Hm s Hin) as (_ & i' & x' & w & G1 & G2 & G3 & Es & Sk & Dm).
    rewrite Es in Hidx, Hsym. cbn in Hidx, Hsym. injection Hidx as ->. subst x'.
    assert (w = v') as -> by (eapply NoDup_fst_eq; eassumption).
    split; [|split; [|exact Dm]].
    + rewrite <- (chosen_ni _ _ _ _ Hpn x v' Hvs Hx). exact G3.
    + intros F. apply Hf in F. congruence.
  - intros (G1 & G2 & G3). exists (make_syscall a v prefixes (i, x)). split; [|split; reflexivity].
    apply (Hi i x v'); auto.
    + intros Hn. apply G1. now apply (chosen_ni _ _ _ _ Hpn x v' Hvs Hx).
    + destruct (skip_syscall a i _) eqn:E; [|reflexivity]. exfalso. apply G2, Hf. reflexivity.
Qed.

(** * Entries without symbol *)

Lemma candidates_missing ni_order a e v vaddrs i v' l : (forall l, Permutation (ni_order l) l) ->
  (exists v, not_implemented e v) -> In (i, v') vaddrs -> ~ has_symbol e v' -> ~ not_implemented e v' ->
  candidates ni_order a e v vaddrs <> Ok l.
Proof.
  intros Hp Hni Hi Hs Hn Hc. pose proof (ni_nonempty _ _ Hp Hni) as Hne.
  destruct (candidates_parts _ _ _ _ _ _ Hne Hc) as (prefixes & eso & esl & ref & code & P).
  apply (po_all _ _ _ _ _ _ _ _ _ _ _ P (i, v') Hi). cbn [snd].
  pose proof (chosen_cases a e _ vaddrs v' (Hp (ni_functions e))) as C. unfold chosen.
  destruct (dget Z.eqb v' _) as [s|]; [|reflexivity]. exfalso.
  destruct C as [[C _]|(C & _)]; [apply in_map_iff; exists (i, v'); auto| |].
  - apply Hn. now exists s.
  - apply Hs. now exists s.
Qed.

(** With the image in order otherwise. *)
Record sound_image (a : arch) (e : elf) : Prop := Sound {
  si_eso : exists eso, extract_esoteric_syscalls a e = Ok eso /\ forall x, In x eso -> sym_present e (eso_symbol x);
  si_code : forall v f, ni_at e v f -> exists c, read_symbol e f = Ok c;
  si_dummy0 : forall s, In s (map snd (e_symbols e)) -> exists d, is_dummy_syscall a s e None None = Ok d;
  si_dummy : forall v f c s, ni_at e v f -> read_symbol e f = Ok c -> In s (map snd (e_symbols e)) ->
    exists d, is_dummy_syscall a s e (Some f) (Some c) = Ok d
}.

Section Outcome.
  Context (ni_order : list symbol -> list symbol) (a : arch) (e : elf) (v : version) (vaddrs : list (Z * Z)).
  Hypothesis Hp : forall l, Permutation (ni_order l) l.
  Hypothesis Hni : exists v, not_implemented e v.
  Hypothesis Hs : sound_image a e.
  Hypothesis Himp : exists i v', In (i, v') vaddrs /\ has_symbol e v' /\ ~ not_implemented e v'.

  Let ni := ni_order (ni_functions e).
  Let symbols := filter (fun x : Z * symbol => negb (sym_in (snd x) ni)) (resolve (symbols_by_vaddr a e ni vaddrs) vaddrs).

  Lemma prefixes_ok : exists prefixes,
    common_syscall_symbol_prefixes (map (fun x => sym_name (snd x)) symbols) 20 = Ok prefixes.
  Proof.
    destruct Himp as (i & v' & Hi & (s0 & Hs0) & Hn).
    pose proof (chosen_cases a e ni vaddrs v' (Hp _)) as C.
    assert (In v' (map snd vaddrs)) as Hv by (apply in_map_iff; exists (i, v'); auto). specialize (C Hv).
    destruct (dget Z.eqb v' (symbols_by_vaddr a e ni vaddrs)) as [s|] eqn:E.
    2:{ exfalso. apply (proj1 C). now exists s0. }
    destruct C as [[C _]|(C1 & C2 & C3)]; [exfalso; apply Hn; now exists s|].
    assert (In (i, s) symbols) as Hin.
    { apply filter_In. split; [apply resolve_In; eauto|]. now apply negb_true_iff, sym_in_not. }
    destruct symbols as [|x r]; [contradiction|]. cbn [map common_syscall_symbol_prefixes]. eauto.
  Qed.

  Lemma esl_ok eso : (forall x, In x eso -> sym_present e (eso_symbol x)) ->
    exists esl, mapM (make_esoteric e) eso = Ok esl.
  Proof.
    induction eso as [|[[[[n nm] sn] sig] kc] r IH]; intros Hx; cbn [mapM]; [eauto|].
    specialize (Hx _ (or_introl eq_refl)) as Hx1. cbn in Hx1. unfold make_esoteric at 1.
    unfold sym_present in Hx1.
    destruct (dget str_eqb sn (e_symbols e)) as [s|] eqn:E; [|apply (dget_None str_eqb str_eqb_eq) in E; contradiction]. cbn [bind].
    destruct IH as [esl ->]; [intros x Hi; apply Hx; now right|]. cbn [bind]. eauto.
  Qed.

  Lemma candidates_asserts i v' : In (i, v') vaddrs -> ~ has_symbol e v' -> ~ not_implemented e v' ->
    candidates ni_order a e v vaddrs = Raise AssertionError.
  Proof.
    intros Hi H1 H2. pose proof (ni_nonempty _ _ Hp Hni) as Hne. destruct prefixes_ok as [prefixes Hpre].
    destruct (si_eso _ _ Hs) as (eso & Heso & Hpres). destruct (esl_ok eso Hpres) as [esl Hesl].
    unfold candidates. cbv zeta. rewrite match_ne by exact Hne. fold ni. unfold symbols in Hpre. rewrite Hpre. cbn [bind]. rewrite Heso. cbn [bind]. rewrite Hesl. cbn [bind].
    apply mapM_Ok in Hesl.
    match goal with |- bind (assert_ ?x) _ = _ => destruct x eqn:E end; [|reflexivity]. exfalso.
    pose proof (proj1 (assertion_iff a e v ni vaddrs prefixes eso esl Hesl) E (i, v') Hi) as F. cbn [snd] in F.
    pose proof (chosen_cases a e ni vaddrs v' (Hp (ni_functions e))) as C. unfold chosen in F.
    destruct (dget Z.eqb v' _) as [s|]; [|congruence].
    destruct C as [[C _]|(C & _)]; [apply in_map_iff; exists (i, v'); auto| |].
    - apply H2. now exists s.
    - apply H1. now exists s.
  Qed.

  Lemma candidates_total : (forall i v', In (i, v') vaddrs -> has_symbol e v' \/ not_implemented e v') ->
    exists l, candidates ni_order a e v vaddrs = Ok l.
  Proof.
    intros Hall. pose proof (ni_nonempty _ _ Hp Hni) as Hne. destruct prefixes_ok as [prefixes Hpre].
    destruct (si_eso _ _ Hs) as (eso & Heso & Hpres). destruct (esl_ok eso Hpres) as [esl Hesl].
    assert (forall s, In s esl -> In (sc_symbol s) (map snd (e_symbols e))) as Hes.
    { apply mapM_Ok in Hesl. clear -Hesl. induction Hesl as [|x y xs ys E F IH]; [intros s []|].
      intros s [<-|H]; [|auto]. destruct x as [[[[n nm] sn] sig] kc]. unfold make_esoteric in E.
      destruct (dget str_eqb sn (e_symbols e)) as [q|] eqn:G; [|discriminate]. injection E as <-. cbn.
      apply dget_In in G; [|exact str_eqb_eq]. apply in_map_iff. now exists (sn, q). }
    unfold candidates. cbv zeta. rewrite match_ne by exact Hne. fold ni. unfold symbols in Hpre. rewrite Hpre. cbn [bind]. rewrite Heso. cbn [bind]. rewrite Hesl. cbn [bind].
    apply mapM_Ok in Hesl.
    pose proof (proj2 (assertion_iff a e v ni vaddrs prefixes eso esl Hesl)) as A. rewrite A; clear A.
    2:{ intros [i v'] Hi. cbn [snd]. pose proof (chosen_cases a e ni vaddrs v' (Hp (ni_functions e))) as C. unfold chosen.
        destruct (dget Z.eqb v' _) as [s|]; [discriminate|]. intros _.
        assert (In v' (map snd vaddrs)) as Hv by (apply in_map_iff; exists (i, v'); auto). specialize (C Hv).
        specialize (Hall i v' Hi). tauto. }
    cbn [assert_ bind].
    match goal with |- exists l, bind (match ?r with _ => _ end) _ = _ => destruct r as [f|] eqn:Eref end.
    - assert (In f ni) as Hf.
      { match type of Eref with match dkeys ?d with _ => _ end = _ => destruct (dkeys d) as [|q0 q] eqn:Ek; [discriminate|] end.
        injection Eref as <-. match goal with |- In (max_by ?key _ _) _ => pose proof (max_by_in key q0 q) as M end.
        rewrite <- Ek in M. apply (proj1 (counter_keys _ _)) in M. apply in_map_iff in M as (x & <- & M).
        apply filter_In in M as [_ M]. now apply sym_in_iff. }
      assert (ni_at e (sym_vaddr f) f) as Hfa.
      { apply ni_functions_iff. eapply Permutation_in; [apply Hp|exact Hf]. }
      destruct (si_code _ _ Hs _ _ Hfa) as [c Hc]. rewrite Hc. cbn [bind].
      eexists. apply filterM_total. intros s Hin.
      destruct (si_dummy _ _ Hs _ _ _ (sc_symbol s) Hfa Hc) as [d Hd].
      + apply in_app_or in Hin as [Hin|Hin]; [|auto]. apply filter_In in Hin as [Hin _].
        apply in_map_iff in Hin as ([i x] & <- & Hin). apply filter_In in Hin as [Hin Hx]. cbn [snd] in Hx.
        apply resolve_In in Hin as (v' & G1 & G2). cbn.
        pose proof (chosen_cases a e ni vaddrs v' (Hp (ni_functions e))) as C. rewrite G2 in C.
        destruct C as [[_ C]|(C & _)]; [apply in_map_iff; exists (i, v'); auto| |apply C].
        apply sym_in_iff in C. rewrite C in Hx. discriminate.
      + rewrite Hd. cbn [bind]. eauto.
    - cbn [bind]. eexists. apply filterM_total. intros s Hin.
      destruct (si_dummy0 _ _ Hs (sc_symbol s)) as [d Hd].
      + apply in_app_or in Hin as [Hin|Hin]; [|auto]. apply filter_In in Hin as [Hin _].
        apply in_map_iff in Hin as ([i x] & <- & Hin). apply filter_In in Hin as [Hin Hx]. cbn [snd] in Hx.
        apply resolve_In in Hin as (v' & G1 & G2). cbn.
        pose proof (chosen_cases a e ni vaddrs v' (Hp (ni_functions e))) as C. rewrite G2 in C.
        destruct C as [[_ C]|(C & _)]; [apply in_map_iff; exists (i, v'); auto| |apply C].
        apply sym_in_iff in C. rewrite C in Hx. discriminate.
      + rewrite Hd. cbn [bind]. eauto.
  Qed.
End Outcome.

(** All entries "not implemented": the search for prefixes fails. *)
Lemma candidates_all_ni ni_order a e v vaddrs : (forall l, Permutation (ni_order l) l) -> vaddrs <> [] ->
  (forall i v', In (i, v') vaddrs -> not_implemented e v') ->
  candidates ni_order a e v vaddrs = Raise ValueError.
Proof.
  intros Hp Hne Hall. unfold candidates. set (ni := ni_order (ni_functions e)).
  assert (ni <> []) as Hn.
  { apply ni_nonempty; [exact Hp|]. destruct vaddrs as [|[i v'] r]; [congruence|]. exists v'. apply (Hall i). now left. }
  rewrite match_ne by exact Hn. cbv zeta.
  replace (filter (fun x : Z * symbol => negb (sym_in (snd x) ni)) (resolve (symbols_by_vaddr a e ni vaddrs) vaddrs)) with (@nil (Z * symbol)).
  - reflexivity.
  - symmetry. destruct (filter _ _) as [|[i x] r] eqn:E; [reflexivity|]. exfalso.
    assert (In (i, x) ((i, x) :: r)) as Hin by now left. rewrite <- E in Hin. apply filter_In in Hin as [Hin Hx].
    apply resolve_In in Hin as (v' & G1 & G2). cbn [snd] in Hx.
    pose proof (chosen_cases a e ni vaddrs v') as C. rewrite G2 in C.
    destruct C as [[_ C]|(_ & _ & C)]; [apply Hp|apply in_map_iff; exists (i, v'); auto| |].
    + apply sym_in_iff in C. rewrite C in Hx. discriminate.
    + apply C, (Hall i), G1.
Qed.
