(** Lemmas about the model of kernel.py: orders that do not matter (C26, C27). *)
From Coq Require Import List Bool Ascii String ZArith Lia Permutation Sorted.
From Verif Require Import PyBase PyFacts Regex M_Utils S_Utils M_Elf S_Elf L_Elf L_ElfText M_Syscall L_Syscall M_Arch S_Arch
  L_Arch L_Arch2 M_Emu S_Emu L_Emu3 M_Kconfig M_Kernel S_Kernel L_Kernel2 L_Kernel3 L_Kernel4 L_Kernel5 L_Kernel6 L_Kernel7 L_Kernel8.
Import ListNotations.
Open Scope Z_scope.
Open Scope list_scope.

(** * Sorting by names *)

Lemma NoDup_map_inj {A B} (f : A -> B) l x y : NoDup (map f l) -> In x l -> In y l -> f x = f y -> x = y.
Proof.
  induction l as [|z l IH]; cbn; intros H; [intros []|]. inversion H as [|? ? Hn Hd]; subst.
  intros [->|Hx] [->|Hy] E; auto; exfalso; apply Hn.
  - rewrite E. now apply in_map.
  - rewrite <- E. now apply in_map.
Qed.

Lemma sort_names_perm (l m : list symbol) : NoDup (map sym_name l) -> Permutation l m ->
  sort_by str_leb sym_name l = sort_by str_leb sym_name m.
Proof.
  intros Hn P. unfold sort_by. apply sort_perm_eq.
  - intros; apply str_leb_total.
  - intros x y z H1 H2. eapply str_leb_trans; eassumption.
  - exact P.
  - intros x y Hx Hy H1 H2. apply (NoDup_map_inj sym_name l x y Hn Hx Hy). now apply str_leb_antisym.
Qed.

Lemma sort_index_perm (l m : list (Z * Z)) : NoDup (map fst l) -> Permutation l m ->
  sort_by Z.leb fst l = sort_by Z.leb fst m.
Proof.
  intros Hn P. unfold sort_by. apply sort_perm_eq.
  - intros; apply Zleb_total.
  - intros x y z; lia.
  - exact P.
  - intros x y Hx Hy H1 H2. apply (NoDup_map_inj fst l x y Hn Hx Hy). lia.
Qed.

(** * C26 *)

Lemma by_vaddr_perm a e e' ni vaddrs : NoDup (map sym_name (map snd (e_symbols e))) ->
  Permutation (e_symbols e) (e_symbols e') ->
  symbols_by_vaddr a e ni vaddrs = symbols_by_vaddr a e' ni vaddrs.
Proof.
  intros Hn P. unfold symbols_by_vaddr. f_equal. apply sort_names_perm; [exact Hn|]. now apply Permutation_map.
Qed.

Lemma dupdate_new {V} (l : list (str * V)) : forall d, NoDup (map fst (d ++ l)) -> dupdate str_eqb d l = d ++ l.
Proof.
  induction l as [|[k v] l IH]; intros d H; [now rewrite app_nil_r|]. unfold dupdate. cbn [fold_left fst snd].
  assert (dset str_eqb k v d = d ++ [(k, v)]) as ->.
  { rewrite map_app in H. cbn in H. apply NoDup_remove_2 in H.
    assert (~ In k (map fst d)) as Hk by (intros X; apply H, in_or_app; auto). clear -Hk.
    induction d as [|[k' v'] d IH]; [reflexivity|]. cbn. destruct (str_eqb k k') eqn:E.
    - apply str_eqb_eq in E. subst. exfalso. apply Hk. now left.
    - rewrite IH; [reflexivity|]. intros X. apply Hk. now right. }
  change (dupdate str_eqb (d ++ [(k, v)]) l = d ++ (k, v) :: l). rewrite IH; rewrite <- app_assoc; [reflexivity|exact H].
Qed.

Lemma flat_map_perm {A B} (f : A -> list B) l m : Permutation l m -> Permutation (flat_map f l) (flat_map f m).
Proof.
  induction 1 as [|x l m P IH|x y l|l m n P1 IH1 P2 IH2]; cbn.
  - constructor.
  - now apply Permutation_app_head.
  - rewrite !app_assoc. apply Permutation_app_tail, Permutation_app_comm.
  - eapply Permutation_trans; eassumption.
Qed.

Lemma open_symbols file oS lines e : Forall row lines ->
  elf_open file oS (unlines lines) = Ok e ->
  exists m, m = e_machine e /\
   e_symbols e = dict_of str_eqb (map (fun s => (sym_name s, s)) (sym_list m lines)) /\
   e_functions e = dict_of str_eqb (map (fun s => (sym_name s, s)) (filter is_func (sym_list m lines))) /\
   e_file e = file /\ e_sections e = parse_sections oS /\ exists b big f, elf_ident file = Ok (b, big, m, f) /\
   e_bits32 e = b /\ e_big e = big /\ e_flags e = f.
Proof.
  intros Hl H. unfold elf_open in H.
  destruct (elf_ident file) as [[[[b big] m] f]| | |]; try discriminate. cbn [bind] in H.
  unfold extract_symbols in H. rewrite splitlines_unlines in H by exact Hl. rewrite extract_fold in H.
  injection H as <-. exists m. repeat split. exists b, big, f. auto.
Qed.

Lemma open_perm file oS lines lines' e e' : Forall row lines -> Permutation lines lines' ->
  elf_open file oS (unlines lines) = Ok e -> elf_open file oS (unlines lines') = Ok e' ->
  NoDup (map sym_name (sym_list (e_machine e) lines)) ->
  Permutation (e_symbols e) (e_symbols e') /\ Permutation (e_functions e) (e_functions e') /\
  NoDup (map sym_name (map snd (e_symbols e))) /\
  e_file e' = e_file e /\ e_sections e' = e_sections e /\ e_bits32 e' = e_bits32 e /\ e_big e' = e_big e /\
  e_machine e' = e_machine e /\ e_flags e' = e_flags e.
Proof.
  intros Hl P H H' Hn.
  assert (Forall row lines') as Hl' by (eapply Permutation_Forall; eassumption).
  destruct (open_symbols _ _ _ _ Hl H) as (m & Em & S1 & S2 & S3 & S4 & b & big & f & S5 & S6 & S7 & S8).
  destruct (open_symbols _ _ _ _ Hl' H') as (m' & Em' & T1 & T2 & T3 & T4 & b' & big' & f' & T5 & T6 & T7 & T8).
  rewrite S5 in T5. injection T5 as <- <- <- <-. rewrite <- Em in Hn.
  assert (Permutation (sym_list m lines) (sym_list m lines')) as P1 by now apply flat_map_perm.
  assert (forall l, NoDup (map sym_name l) -> dict_of str_eqb (map (fun s => (sym_name s, s)) l) = map (fun s => (sym_name s, s)) l) as D.
  { intros l Hd. unfold dict_of. apply (dupdate_new _ []). cbn [app]. now rewrite map_map. }
  assert (NoDup (map sym_name (sym_list m lines'))) as Hn' by (eapply Permutation_NoDup; [apply Permutation_map; exact P1|exact Hn]).
  rewrite (D _ Hn) in S1. rewrite (D _ Hn') in T1.
  rewrite (D _ (NoDup_map_filter sym_name is_func _ Hn)) in S2. rewrite (D _ (NoDup_map_filter sym_name is_func _ Hn')) in T2.
  rewrite S1, S2, T1, T2. split; [now apply Permutation_map|]. split; [apply Permutation_map, filter_perm, P1|].
  split; [rewrite !map_map; exact Hn|]. repeat split; congruence.
Qed.

(** * C27: the order of the set of ni_syscall symbols *)

Section Order.
  Context (a : arch) (e : elf) (v : version) (vaddrs : list (Z * Z)) (ni1 ni2 : list symbol).
  Hypothesis P1 : Permutation ni1 (ni_functions e).
  Hypothesis P2 : Permutation ni2 (ni_functions e).
  Hypothesis W : wf e.
  Hypothesis Hone : one_ni_size e.

  Let d1 := symbols_by_vaddr a e ni1 vaddrs.
  Let d2 := symbols_by_vaddr a e ni2 vaddrs.

  Lemma sym_in_same s : sym_in s ni1 = sym_in s ni2.
  Proof.
    assert (sym_in s ni1 = true <-> sym_in s ni2 = true) as E.
    { rewrite !sym_in_iff. split; intros H; eapply Permutation_in; try exact H.
      - eapply Permutation_trans; [exact P1|apply Permutation_sym; exact P2].
      - eapply Permutation_trans; [exact P2|apply Permutation_sym; exact P1]. }
    destruct (sym_in s ni1), (sym_in s ni2); try reflexivity; destruct E as [E1 E2]; [specialize (E1 eq_refl)|specialize (E2 eq_refl)]; congruence.
  Qed.

  (** Away from the ni_syscall addresses nothing depends on the order. *)
  Lemma by_vaddr_same w : ~ not_implemented e w -> dget Z.eqb w d1 = dget Z.eqb w d2.
  Proof.
    intros Hw. unfold d1, d2, symbols_by_vaddr.
    set (syms := sort_by str_leb sym_name (dvalues (e_symbols e))). clearbody syms.
    set (seen := map snd vaddrs). clearbody seen.
    assert (forall q1 q2, dget Z.eqb w q1 = dget Z.eqb w q2 ->
      dget Z.eqb w (fold_left (pick_step a ni1 seen) syms q1) = dget Z.eqb w (fold_left (pick_step a ni2 seen) syms q2)) as G.
    { induction syms as [|s syms IH]; intros q1 q2 E; cbn [fold_left]; [exact E|]. apply IH.
      unfold pick_step. cbv zeta. destruct (negb (zin (sym_vaddr s) seen)); [exact E|].
      destruct (Z.eq_dec w (sym_vaddr s)) as [Ew|Ew].
      - rewrite <- Ew, <- E. destruct (dget Z.eqb w q1) as [o|] eqn:Eo; [|now rewrite !(dget_dset_eq Z.eqb Z.eqb_eq)].
        destruct (symbol_eqb s o); [congruence|]. rewrite !sym_in_same.
        destruct (sym_in o ni2 && negb (sym_in s ni2)); [congruence|].
        now rewrite !(dget_dset_eq Z.eqb Z.eqb_eq).
      - assert (forall q ni, dget Z.eqb w match dget Z.eqb (sym_vaddr s) q with
            | Some other => if symbol_eqb s other then q else if sym_in other ni && negb (sym_in s ni) then q
                            else dset Z.eqb (sym_vaddr s) (preferred_symbol a s other) q
            | None => dset Z.eqb (sym_vaddr s) s q end = dget Z.eqb w q) as F.
        { intros q ni. destruct (dget Z.eqb (sym_vaddr s) q) as [o|]; [destruct (symbol_eqb s o); [reflexivity|];
            destruct (sym_in o ni && negb (sym_in s ni)); [reflexivity|]|]; now rewrite (dget_dset_neq Z.eqb Z.eqb_eq). }
        now rewrite !F. }
    apply G. assert (forall ni, Permutation ni (ni_functions e) ->
      dget Z.eqb w (dict_of Z.eqb (map (fun s => (sym_vaddr s, s)) ni)) = None) as N.
    { intros ni P. destruct (dget Z.eqb w _) as [s|] eqn:E; [|reflexivity]. exfalso. apply seed_some in E as [E1 E2].
      apply Hw. exists s. apply ni_at_iff. split; [eapply Permutation_in; [exact P|exact E1]|exact E2]. }
    now rewrite !N.
  Qed.

  (** Entries correspond: equal, or both "not implemented" at the same address. *)
  Definition matching (x y : Z * symbol) : Prop :=
    fst x = fst y /\ (x = y /\ sym_in (snd x) ni1 = false \/
      In (snd x) ni1 /\ In (snd y) ni1 /\ sym_vaddr (snd x) = sym_vaddr (snd y)).

  Lemma entries_match : Forall2 matching (resolve d1 vaddrs) (resolve d2 vaddrs).
  Proof.
    unfold resolve.
    assert (forall l, (forall x, In x l -> In x vaddrs) -> Forall2 matching
      (flat_map (fun x => match dget Z.eqb (snd x) d1 with Some s => [(fst x, s)] | None => [] end) l)
      (flat_map (fun x => match dget Z.eqb (snd x) d2 with Some s => [(fst x, s)] | None => [] end) l)) as G.
    { induction l as [|[i w] l IH]; intros Hl; [constructor|]. cbn [flat_map fst snd].
      assert (In w (map snd vaddrs)) as Hw by (apply in_map_iff; exists (i, w); split; [reflexivity|apply Hl; now left]).
      specialize (IH (fun x Hx => Hl x (or_intror Hx))).
      pose proof (chosen_cases a e ni1 vaddrs w P1 Hw) as C1. pose proof (chosen_cases a e ni2 vaddrs w P2 Hw) as C2.
      fold d1 in C1. fold d2 in C2.
      assert (not_implemented e w \/ ~ not_implemented e w) as [Hn|Hn].
      { destruct (dget Z.eqb w d1) as [s|]; [destruct C1 as [[C1 _]|(_ & _ & C1)]; [left; now exists s|now right]|right; tauto]. }
      - destruct (dget Z.eqb w d1) as [s|]; [|tauto]. destruct C1 as [[C1 C1']|(_ & _ & C1)]; [|contradiction].
        destruct (dget Z.eqb w d2) as [s'|]; [|tauto]. destruct C2 as [[C2 C2']|(_ & _ & C2)]; [|contradiction].
        cbn [app]. constructor; [|exact IH]. split; [reflexivity|]. right. cbn [snd].
        split; [exact C1'|]. split; [apply sym_in_iff; rewrite sym_in_same; now apply sym_in_iff|].
        apply ni_at_iff in C1 as [_ ->]. apply ni_at_iff in C2 as [_ ->]. reflexivity.
      - rewrite <- (by_vaddr_same w Hn). destruct (dget Z.eqb w d1) as [s|]; [|exact IH].
        cbn [app]. constructor; [|exact IH]. split; [reflexivity|]. left. split; [reflexivity|].
        destruct C1 as [[C1 _]|(_ & C1 & _)]; [exfalso; apply Hn; now exists s|]. now apply sym_in_not. }
    apply G. intros x Hx. now apply sort_by_in in Hx.
  Qed.

  Lemma symbols_same :
    filter (fun x => negb (sym_in (snd x) ni1)) (resolve d1 vaddrs) =
    filter (fun x => negb (sym_in (snd x) ni2)) (resolve d2 vaddrs).
  Proof.
    induction entries_match as [|x y l m [E M] F IH]; [reflexivity|]. cbn [filter].
    rewrite <- (sym_in_same (snd y)). destruct M as [[-> M]|(M1 & M2 & _)].
    - rewrite M. cbn [negb]. now rewrite IH.
    - apply sym_in_iff in M1. apply sym_in_iff in M2. now rewrite M1, M2.
  Qed.

  Definition same_place (s t : symbol) : Prop := In s ni1 /\ In t ni1 /\ sym_vaddr s = sym_vaddr t.
  Lemma ni_match : Forall2 same_place
    (map snd (filter (fun x => sym_in (snd x) ni1) (resolve d1 vaddrs)))
    (map snd (filter (fun x => sym_in (snd x) ni2) (resolve d2 vaddrs))).
  Proof.
    induction entries_match as [|x y l m [E M] F IH]; [constructor|]. cbn [filter].
    rewrite <- (sym_in_same (snd y)). destruct M as [[-> M]|(M1 & M2 & M3)].
    - now rewrite M.
    - apply sym_in_iff in M1 as M1'. apply sym_in_iff in M2 as M2'. rewrite M1', M2'. cbn [map]. constructor; [|exact IH].
      repeat split; assumption.
  Qed.

  (** In each list an address has one symbol. *)
  Definition by_place (l : list symbol) : Prop := forall s t, In s l -> In t l -> sym_vaddr s = sym_vaddr t -> s = t.
  Lemma ni_by_place ni d : d = symbols_by_vaddr a e ni vaddrs -> Permutation ni (ni_functions e) ->
    by_place (map snd (filter (fun x => sym_in (snd x) ni) (resolve d vaddrs))).
  Proof.
    intros -> P. assert (forall s, In s (map snd (filter (fun x => sym_in (snd x) ni) (resolve (symbols_by_vaddr a e ni vaddrs) vaddrs))) ->
      dget Z.eqb (sym_vaddr s) (symbols_by_vaddr a e ni vaddrs) = Some s) as G.
    { intros s Hs. apply in_map_iff in Hs as ([i x] & <- & Hx). apply filter_In in Hx as [Hx _]. cbn [snd].
      apply resolve_In in Hx as (w & G1 & G2). pose proof (chosen_cases a e ni vaddrs w P) as C. rewrite G2 in C.
      assert (In w (map snd vaddrs)) as Hw by (apply in_map_iff; exists (i, w); auto). specialize (C Hw).
      destruct C as [[C _]|([_ C] & _)].
      - apply ni_at_iff in C as [_ ->]. exact G2.
      - rewrite C. exact G2. }
    intros s t Hs Ht E. apply G in Hs. apply G in Ht. rewrite E in Hs. congruence.
  Qed.
End Order.

(** Counting corresponding lists gives corresponding counts. *)
Lemma counter_match (R : symbol -> symbol -> Prop) l m :
  (forall s t s' t', In s l -> In s' l -> In t m -> In t' m -> R s t -> R s' t' -> (s = s' <-> t = t')) ->
  Forall2 R l m ->
  Forall2 (fun x y => R (fst x) (fst y) /\ snd x = snd y) (sym_counter l) (sym_counter m).
Proof.
  intros Hinj F. unfold sym_counter.
  assert (forall q1 q2 l1 m1, (forall x, In x l1 -> In x l) -> (forall x, In x m1 -> In x m) ->
    (forall x, In x (dkeys q1) -> In x l) -> (forall x, In x (dkeys q2) -> In x m) -> Forall2 R l1 m1 ->
    Forall2 (fun x y => R (fst x) (fst y) /\ snd x = snd y) q1 q2 ->
    Forall2 (fun x y => R (fst x) (fst y) /\ snd x = snd y) (fold_left sym_count_add l1 q1) (fold_left sym_count_add m1 q2)) as G.
  { intros q1 q2 l1 m1 Hl Hm Hq1 Hq2 F1. revert q1 q2 Hq1 Hq2.
    induction F1 as [|s t l1 m1 E F1 IH]; intros q1 q2 Hq1 Hq2 Fq; cbn [fold_left]; [exact Fq|].
    assert (In s l) as Hs by (apply Hl; now left). assert (In t m) as Ht by (apply Hm; now left).
    apply IH; try (intros x Hx; (apply Hl || apply Hm); now right).
    - intros x Hx. unfold sym_count_add in Hx. apply (dkeys_dset_in _ symbol_eqb_eq) in Hx as [->|Hx]; auto.
    - intros x Hx. unfold sym_count_add in Hx. apply (dkeys_dset_in _ symbol_eqb_eq) in Hx as [->|Hx]; auto.
    - unfold sym_count_add. clear IH F1.
      assert (forall s' t', In s' l -> In t' m -> R s' t' -> symbol_eqb s s' = symbol_eqb t t') as Heq.
      { intros s' t' Hs' Ht' E'. pose proof (Hinj s t s' t' Hs Hs' Ht Ht' E E') as I.
        destruct (symbol_eqb s s') eqn:E1, (symbol_eqb t t') eqn:E2; try reflexivity.
        - apply symbol_eqb_eq in E1. apply I in E1. apply symbol_eqb_eq in E1. congruence.
        - apply symbol_eqb_eq in E2. apply I in E2. apply symbol_eqb_eq in E2. congruence. }
      assert (dget symbol_eqb s q1 = dget symbol_eqb t q2) as ->.
      { clear -Fq Heq Hq1 Hq2. induction Fq as [|[k1 n1] [k2 n2] q1 q2 [Ek En] Fq IH]; [reflexivity|]. cbn in Ek, En. subst n2.
        cbn [dget]. rewrite (Heq k1 k2); [|apply Hq1; now left|apply Hq2; now left|exact Ek].
        destruct (symbol_eqb t k2); [reflexivity|]. apply IH; intros x Hx; [apply Hq1|apply Hq2]; now right. }
      generalize (match dget symbol_eqb t q2 with Some n => n | None => 0 end + 1). intros c.
      clear -Fq Heq Hq1 Hq2 E. induction Fq as [|[k1 n1] [k2 n2] q1 q2 [Ek En] Fq IH]; cbn [dset].
      + constructor; [auto|constructor].
      + cbn in Ek, En. subst n2. rewrite (Heq k1 k2); [|apply Hq1; now left|apply Hq2; now left|exact Ek].
        destruct (symbol_eqb t k2); (constructor; [cbn; auto|]); [exact Fq|].
        apply IH; intros x Hx; [apply Hq1|apply Hq2]; now right. }
  apply G; auto; intros x [].
Qed.

Lemma max_match {A B} (R : A -> B -> Prop) f g l : forall m x y, R x y -> f x = g y ->
  Forall2 (fun x y => R x y /\ f x = g y) l m -> R (max_by f x l) (max_by g y m).
Proof.
  induction l as [|x' l IH]; intros m x y Hr E F; inversion F as [|? y' ? m' [Hr' E'] F']; subst; [exact Hr|].
  cbn [max_by]. rewrite E, E'. destruct (g y <? g y'); apply IH; auto.
Qed.

Definition best (d : dict symbol Z) : option symbol :=
  match dkeys d with
  | [] => None
  | s :: l => Some (max_by (fun k => match dget symbol_eqb k d with Some n => n | None => 0 end) s l)
  end.

Lemma best_match R (d1 d2 : dict symbol Z) : NoDup (dkeys d1) -> NoDup (dkeys d2) ->
  Forall2 (fun x y => R (fst x) (fst y) /\ snd x = snd y) d1 d2 ->
  match best d1, best d2 with Some s, Some t => R s t | None, None => True | _, _ => False end.
Proof.
  intros N1 N2 F. unfold best.
  set (f := fun k => match dget symbol_eqb k d1 with Some n => n | None => 0 end).
  set (g := fun k => match dget symbol_eqb k d2 with Some n => n | None => 0 end).
  assert (Forall2 (fun x y => R x y /\ f x = g y) (dkeys d1) (dkeys d2)) as K.
  { assert (forall x, In x d1 -> f (fst x) = snd x) as F1.
    { intros [k n] Hx. unfold f. cbn. now rewrite (dget_In_nodup symbol_eqb symbol_eqb_eq k n d1 N1 Hx). }
    assert (forall x, In x d2 -> g (fst x) = snd x) as F2.
    { intros [k n] Hx. unfold g. cbn. now rewrite (dget_In_nodup symbol_eqb symbol_eqb_eq k n d2 N2 Hx). }
    clearbody f g. clear N1 N2. unfold dkeys.
    induction F as [|x y q1 q2 [E1 E2] F IH]; cbn [map]; constructor.
    - split; [exact E1|]. rewrite F1, F2; [exact E2|now left|now left].
    - apply IH; intros z Hz; [apply F1|apply F2]; now right. }
  inversion K as [Ea Eb|x y l m [Hr E] K' Ea Eb]; [exact I|]. apply max_match; assumption.
Qed.

Lemma counter_NoDup l : NoDup (dkeys (sym_counter l)).
Proof.
  unfold sym_counter. assert (forall d, NoDup (dkeys d) -> NoDup (dkeys (fold_left sym_count_add l d))) as G.
  { induction l as [|s l IH]; intros d H; cbn [fold_left]; [exact H|]. apply IH. apply dset_NoDup; [exact symbol_eqb_eq|exact H]. }
  apply G. constructor.
Qed.

Lemma dummy_ref a sym e f g c : sym_real f = sym_real g ->
  is_dummy_syscall a sym e (Some f) c = is_dummy_syscall a sym e (Some g) c.
Proof. intros E. unfold is_dummy_syscall. now rewrite E. Qed.

Lemma filterM_ext {A} (f g : A -> outcome bool) l : (forall x, f x = g x) -> filterM f l = filterM g l.
Proof. intros H. induction l as [|x l IH]; cbn; [reflexivity|]. now rewrite H, IH. Qed.

Lemma candidates_order o1 o2 a e v vaddrs :
  (forall l, Permutation (o1 l) l) -> (forall l, Permutation (o2 l) l) -> wf e -> one_ni_size e ->
  candidates o1 a e v vaddrs = candidates o2 a e v vaddrs.
Proof.
  intros H1 H2 W Hone. unfold candidates.
  pose proof (H1 (ni_functions e)) as P1. pose proof (H2 (ni_functions e)) as P2.
  set (ni1 := o1 (ni_functions e)) in *. set (ni2 := o2 (ni_functions e)) in *. clearbody ni1 ni2. clear H1 H2. cbv zeta.
  destruct ni1 as [|x1 q1] eqn:E1.
  { apply Permutation_nil in P1. rewrite P1 in P2. apply Permutation_sym, Permutation_nil in P2. now rewrite P2. }
  destruct ni2 as [|x2 q2] eqn:E2.
  { apply Permutation_nil in P2. rewrite P2 in P1. apply Permutation_sym, Permutation_nil in P1. discriminate. }
  rewrite <- E1, <- E2 in *. clear x1 q1 E1 x2 q2 E2.
  rewrite (symbols_same a e vaddrs ni1 ni2 P1 P2).
  destruct (common_syscall_symbol_prefixes _ 20) as [prefixes| | |]; try reflexivity. cbn [bind].
  destruct (extract_esoteric_syscalls a e) as [eso| | |]; try reflexivity. cbn [bind].
  destruct (mapM (make_esoteric e) eso) as [esl| | |]; try reflexivity. cbn [bind].
  pose proof (ni_match a e vaddrs ni1 ni2 P1 P2) as M.
  pose proof (ni_by_place a e vaddrs ni1 _ eq_refl P1) as B1. pose proof (ni_by_place a e vaddrs ni2 _ eq_refl P2) as B2.
  set (l1 := map snd (filter (fun x => sym_in (snd x) ni1) (resolve (symbols_by_vaddr a e ni1 vaddrs) vaddrs))) in *.
  set (l2 := map snd (filter (fun x => sym_in (snd x) ni2) (resolve (symbols_by_vaddr a e ni2 vaddrs) vaddrs))) in *.
  assert (fold_left Z.add (dvalues (sym_counter l1)) 0 = fold_left Z.add (dvalues (sym_counter l2)) 0) as ->.
  { rewrite !counter_sum. exact (Forall2_len _ _ _ M). }
  match goal with |- bind (assert_ ?x) _ = _ => destruct x end; [|reflexivity]. cbn [assert_ bind].
  change (match dkeys (sym_counter l1) with [] => None | s :: l => Some (max_by (fun k => match dget symbol_eqb k (sym_counter l1) with Some n => n | None => 0 end) s l) end) with (best (sym_counter l1)).
  change (match dkeys (sym_counter l2) with [] => None | s :: l => Some (max_by (fun k => match dget symbol_eqb k (sym_counter l2) with Some n => n | None => 0 end) s l) end) with (best (sym_counter l2)).
  assert (Forall2 (fun x y => same_place ni1 (fst x) (fst y) /\ snd x = snd y) (sym_counter l1) (sym_counter l2)) as C.
  { apply counter_match; [|exact M]. intros s t s' t' Hs Hs' Ht Ht' (_ & _ & E) (_ & _ & E'). split.
    - intros ->. apply B2; congruence.
    - intros ->. apply B1; congruence. }
  pose proof (best_match _ _ _ (counter_NoDup l1) (counter_NoDup l2) C) as Hb.
  destruct (best (sym_counter l1)) as [f|], (best (sym_counter l2)) as [g|]; try contradiction; [|reflexivity].
  destruct Hb as (F1 & F2 & F3).
  assert (ni_at e (sym_vaddr f) f) as N1 by (apply ni_functions_iff; eapply Permutation_in; [exact P1|exact F1]).
  assert (ni_at e (sym_vaddr f) g) as N2 by (rewrite F3; apply ni_functions_iff; eapply Permutation_in; [exact P1|exact F2]).
  assert (forall x, ni_at e (sym_vaddr f) x -> sym_real x = real_vaddr_of (e_machine e) $"FUNC" (sym_vaddr f)) as R.
  { intros x (X1 & X2 & _ & X4). apply in_map_iff in X1 as ([kk y] & <- & X1). cbn [snd] in *.
    rewrite (wf_freal e W _ _ X1), X2, X4. reflexivity. }
  assert (sym_real f = sym_real g) as Er by (rewrite (R _ N1), (R _ N2); reflexivity).
  unfold read_symbol. rewrite Er, (Hone _ _ _ N1 N2).
  destruct (vaddr_read e (sym_real g) (sym_size g)) as [c| | |]; try reflexivity. cbn [bind].
  apply filterM_ext. intros s. now rewrite (dummy_ref a (sc_symbol s) e f g (Some c) Er).
Qed.

(** ** The order of the x86 instructions *)

Lemma dict_perm {V} (d1 d2 : list (Z * V)) : NoDup (map fst d1) -> NoDup (map fst d2) ->
  (forall n, dget Z.eqb n d1 = dget Z.eqb n d2) -> Permutation d1 d2.
Proof.
  intros N1 N2 H. apply NoDup_Permutation.
  - eapply NoDup_map_inv; exact N1.
  - eapply NoDup_map_inv; exact N2.
  - intros [k x]. split; intros Hi.
    + apply (dget_In Z.eqb Z.eqb_eq). rewrite <- H. now apply (dget_In_nodup Z.eqb Z.eqb_eq).
    + apply (dget_In Z.eqb Z.eqb_eq). rewrite H. now apply (dget_In_nodup Z.eqb Z.eqb_eq).
Qed.

Lemma zin_perm x l m : Permutation l m -> zin x l = zin x m.
Proof.
  intros P. assert (zin x l = true <-> zin x m = true) as E.
  { rewrite !zin_iff. split; apply Permutation_in; [exact P|now apply Permutation_sym]. }
  destruct (zin x l), (zin x m); try reflexivity; destruct E as [E1 E2]; [specialize (E1 eq_refl)|specialize (E2 eq_refl)]; congruence.
Qed.

Lemma candidates_perm o a e v l m : NoDup (map fst l) -> Permutation l m ->
  candidates o a e v l = candidates o a e v m.
Proof.
  intros N P. unfold candidates. cbv zeta.
  assert (forall ni, symbols_by_vaddr a e ni l = symbols_by_vaddr a e ni m) as S.
  { intros ni. unfold symbols_by_vaddr. generalize (dict_of Z.eqb (map (fun s => (sym_vaddr s, s)) ni)).
    induction (sort_by str_leb sym_name (dvalues (e_symbols e))) as [|s q IH]; intros d; cbn [fold_left]; [reflexivity|].
    rewrite IH. f_equal. unfold pick_step. cbv zeta.
    now rewrite (zin_perm _ _ _ (Permutation_map snd P)). }
  rewrite S. assert (forall d, resolve d l = resolve d m) as R.
  { intros d. unfold resolve. now rewrite (sort_index_perm _ _ N P). }
  rewrite R, (perm_len _ _ P). reflexivity.
Qed.

Lemma vaddrs_order t t' a e : v_decode t = v_decode t' -> v_same t = v_same t' ->
  (forall l, Permutation (v_insn_order t l) l) -> (forall l, Permutation (v_insn_order t' l) l) ->
  match syscall_vaddrs t a e, syscall_vaddrs t' a e with
  | Ok l, Ok m => Permutation l m
  | x, y => x = y
  end.
Proof.
  intros Ed Es H1 H2. pose proof (vaddrs_NoDup t a e) as N1. pose proof (vaddrs_NoDup t' a e) as N2.
  unfold syscall_vaddrs in *. destruct (a_table a) as [name|] eqn:Et.
  { destruct (vaddrs_from_table a e name); reflexivity || apply Permutation_refl. }
  destruct (a_class a); try apply Permutation_refl.
  unfold extract_syscall_vaddrs in *. rewrite Et in *. rewrite <- Ed, <- Es in *.
  destruct (dget str_eqb _ (e_functions e)) as [sym|]; [|apply Permutation_refl].
  destruct (sym_size sym <? 16); [apply Permutation_refl|].
  destruct (read_symbol e sym) as [code| | |]; try reflexivity. cbn [bind] in *.
  destruct (emulate _ _ _ _) as [res| | |]; try reflexivity. cbn [bind] in *.
  destruct res as [[m c]|]; [|apply Permutation_refl].
  apply dict_perm; [now apply N1|now apply N2|]. intros n. apply collect_order.
  eapply Permutation_trans; [apply H1|apply Permutation_sym, H2].
Qed.

Lemma extract_order t t' a e v kdir :
  v_decode t = v_decode t' -> v_same t = v_same t' -> v_annotate t = v_annotate t' ->
  (forall l, Permutation (v_insn_order t l) l) -> (forall l, Permutation (v_insn_order t' l) l) ->
  (forall l, Permutation (v_ni_order t l) l) -> (forall l, Permutation (v_ni_order t' l) l) ->
  loaded e -> one_ni_size e ->
  extract_syscalls t a e v kdir = extract_syscalls t' a e v kdir.
Proof.
  intros Ed Es Ea H1 H2 H3 H4 Hl Hone. unfold extract_syscalls. destruct (xorb _ _); [reflexivity|]. cbv zeta.
  pose proof (vaddrs_order t t' (adjust_abi a e) e Ed Es H1 H2) as P.
  pose proof (vaddrs_NoDup t (adjust_abi a e) e) as N.
  destruct (syscall_vaddrs t (adjust_abi a e) e) as [l| | |].
  2-4: destruct (syscall_vaddrs t' (adjust_abi a e) e) as [m| | |]; try discriminate P; first [reflexivity | injection P as ->; reflexivity].
  destruct (syscall_vaddrs t' (adjust_abi a e) e) as [m| | |]; try discriminate P. cbn [bind].
  destruct l as [|x l].
  { apply Permutation_nil in P. now rewrite P. }
  destruct m as [|y m]; [apply Permutation_sym, Permutation_nil in P; discriminate|].
  assert (Permutation (v_ni_order t (ni_functions e)) (v_ni_order t' (ni_functions e))) as Q.
  { eapply Permutation_trans; [apply H3|apply Permutation_sym, H4]. }
  destruct (v_ni_order t (ni_functions e)) as [|z zs] eqn:Z1.
  { apply Permutation_nil in Q. now rewrite Q. }
  destruct (v_ni_order t' (ni_functions e)) as [|u us] eqn:Z2; [apply Permutation_sym, Permutation_nil in Q; discriminate|].
  rewrite (candidates_perm _ _ _ _ _ _ (N _ eq_refl) P).
  rewrite (candidates_order (v_ni_order t) (v_ni_order t') (adjust_abi a e) e v (y :: m) H3 H4 (loaded_wf e Hl) Hone).
  now rewrite Ea.
Qed.
