(** Lemmas about the model of kernel.py: the list of syscalls. *)
From Coq Require Import List Bool Ascii String ZArith Lia Permutation Sorted.
From Verif Require Import PyBase PyFacts Regex M_Utils S_Utils M_Elf S_Elf L_Elf M_Syscall L_Syscall M_Arch S_Arch
  L_Arch L_Arch2 M_Emu M_Kconfig M_Kernel S_Kernel L_Kernel2 L_Kernel3 L_Kernel4.
Import ListNotations.
Open Scope Z_scope.
Open Scope list_scope.

(** * Generic facts *)

Definition okb (x : outcome bool) : bool := match x with Ok b => b | _ => false end.

Lemma filterM_Ok {A} (f : A -> outcome bool) l r : filterM f l = Ok r ->
  r = filter (fun x => okb (f x)) l /\ forall x, In x l -> exists b, f x = Ok b.
Proof.
  revert r. induction l as [|x l IH]; intros r H; cbn in H.
  - injection H as <-. split; [reflexivity|]. intros x [].
  - destruct (f x) as [b| | |] eqn:E; try discriminate. cbn [bind] in H.
    destruct (filterM f l) as [r'| | |]; try discriminate. cbn [bind] in H.
    destruct (IH r' eq_refl) as [-> H2]. injection H as <-. cbn [filter okb]. rewrite E. cbn [okb].
    split; [now destruct b|]. intros y [<-|Hy]; eauto.
Qed.
Lemma filterM_total {A} (f : A -> outcome bool) l : (forall x, In x l -> exists b, f x = Ok b) ->
  filterM f l = Ok (filter (fun x => okb (f x)) l).
Proof.
  induction l as [|x l IH]; intros H; cbn; [reflexivity|].
  destruct (H x (or_introl eq_refl)) as [b E]. rewrite E. cbn [bind okb].
  rewrite IH by (intros y Hy; apply H; now right). cbn [bind]. now destruct b.
Qed.

Lemma filter_part {A} (f : A -> bool) l : part_of (filter f l) l.
Proof. induction l as [|x l IH]; cbn; [constructor|]. destruct (f x); now constructor. Qed.

Lemma part_In {A} (l m : list A) x : part_of l m -> In x l -> In x m.
Proof. induction 1; cbn; tauto. Qed.

Lemma sorted_filter {A} (R : A -> A -> Prop) f l : StronglySorted R l -> StronglySorted R (filter f l).
Proof.
  induction 1 as [|x l Hs IH Hf]; cbn; [constructor|].
  destruct (f x); [|exact IH]. constructor; [exact IH|].
  rewrite Forall_forall in *. intros y Hy. apply filter_In in Hy as [Hy _]. auto.
Qed.

Lemma len_filter_split {A} (f : A -> bool) l : len l = len (filter f l) + len (filter (fun x => negb (f x)) l).
Proof.
  induction l as [|x l IH]; cbn [filter]; [reflexivity|].
  destruct (f x); cbn [negb]; rewrite !len_cons; lia.
Qed.

Lemma len_map {A B} (f : A -> B) l : len (map f l) = len l.
Proof. unfold len. now rewrite map_length. Qed.

Lemma filter_map {A B} (f : A -> B) p l : filter p (map f l) = map f (filter (fun x => p (f x)) l).
Proof. induction l as [|x l IH]; cbn; [reflexivity|]. rewrite IH. now destruct (p (f x)). Qed.

Lemma Forall2_len {A B} (R : A -> B -> Prop) l m : Forall2 R l m -> len l = len m.
Proof. induction 1 as [|x y l m H F IH]; [reflexivity|]. now rewrite !len_cons, IH. Qed.
Lemma perm_len {A} (l m : list A) : Permutation l m -> len l = len m.
Proof. intros P. unfold len. now rewrite (Permutation_length P). Qed.
Lemma filter_perm {A} (f : A -> bool) l m : Permutation l m -> Permutation (filter f l) (filter f m).
Proof.
  induction 1 as [|x l m P IH|x y l|l m n P1 IH1 P2 IH2]; cbn.
  - constructor.
  - destruct (f x); [now constructor|exact IH].
  - destruct (f x), (f y); try apply Permutation_refl. apply perm_swap.
  - eapply Permutation_trans; eassumption.
Qed.

Lemma NoDup_map_filter {A B} (f : A -> B) p l : NoDup (map f l) -> NoDup (map f (filter p l)).
Proof.
  induction l as [|x l IH]; cbn; intros H; [constructor|]. inversion H as [|? ? Hn Hd]; subst.
  destruct (p x); [|auto]. cbn. constructor; [|auto]. intros Hi. apply Hn.
  apply in_map_iff in Hi as (y & <- & Hy). apply filter_In in Hy as [Hy _]. now apply in_map.
Qed.
Lemma NoDup_fst_eq {A B} (l : list (A * B)) k x y : NoDup (map fst l) -> In (k, x) l -> In (k, y) l -> x = y.
Proof.
  induction l as [|[k' z] l IH]; cbn; intros H; [intros []|]. inversion H as [|? ? Hn Hd]; subst.
  intros [E1|H1] [E2|H2].
  - congruence.
  - injection E1 as -> ->. exfalso. apply Hn. apply in_map_iff. now exists (k, y).
  - injection E2 as -> ->. exfalso. apply Hn. apply in_map_iff. now exists (k, x).
  - auto.
Qed.

(** * Counting ni_syscall entries *)

Lemma fold_add l : forall z, fold_left Z.add l z = z + fold_left Z.add l 0.
Proof.
  induction l as [|x l IH]; intros z; cbn [fold_left]; [lia|]. rewrite IH, (IH (0 + x)). lia.
Qed.

Lemma sum_dset (s : symbol) n d :
  fold_left Z.add (dvalues (dset symbol_eqb s n d)) 0 =
  fold_left Z.add (dvalues d) 0 + n - (match dget symbol_eqb s d with Some m => m | None => 0 end).
Proof.
  induction d as [|[k m] d IH]; [cbn; lia|].
  cbn [dset dget]. unfold dvalues in *. destruct (symbol_eqb s k).
  - cbn [map snd fold_left]. rewrite (fold_add _ (0 + n)), (fold_add _ (0 + m)). lia.
  - cbn [map snd fold_left]. rewrite (fold_add _ (0 + m)), (fold_add (map snd d) (0 + m)). lia.
Qed.

Lemma counter_sum l : fold_left Z.add (dvalues (sym_counter l)) 0 = len l.
Proof.
  unfold sym_counter.
  assert (forall d, fold_left Z.add (dvalues (fold_left sym_count_add l d)) 0 =
                    fold_left Z.add (dvalues d) 0 + len l) as G.
  { induction l as [|s l IH]; intros d; cbn [fold_left].
    - change (len (@nil symbol)) with 0. lia.
    - rewrite IH. unfold sym_count_add at 1. rewrite sum_dset, len_cons. lia. }
  now rewrite G.
Qed.

Lemma counter_get l s :
  match dget symbol_eqb s (sym_counter l) with Some n => n | None => 0 end = len (filter (symbol_eqb s) l).
Proof.
  unfold sym_counter.
  assert (forall d, match dget symbol_eqb s (fold_left sym_count_add l d) with Some n => n | None => 0 end =
    match dget symbol_eqb s d with Some n => n | None => 0 end + len (filter (symbol_eqb s) l)) as G.
  { induction l as [|x l IH]; intros d; cbn [fold_left filter].
    - change (len (@nil symbol)) with 0. lia.
    - rewrite IH. unfold sym_count_add at 1. rewrite (dget_dset _ symbol_eqb_eq).
      destruct (symbol_eqb s x) eqn:E.
      + apply symbol_eqb_eq in E. subst x. rewrite len_cons. lia.
      + reflexivity. }
  now rewrite G.
Qed.

Lemma counter_keys l s : In s (dkeys (sym_counter l)) <-> In s l.
Proof.
  unfold sym_counter.
  assert (forall d, In s (dkeys (fold_left sym_count_add l d)) <-> In s (dkeys d) \/ In s l) as G.
  { induction l as [|x l IH]; intros d; cbn [fold_left In]; [tauto|].
    rewrite IH. unfold sym_count_add at 1. rewrite (dkeys_dset_in _ symbol_eqb_eq). intuition congruence. }
  rewrite G. cbn. tauto.
Qed.

(** * The entries with their symbols *)

Lemma resolve_In d vaddrs i s : In (i, s) (resolve d vaddrs) <->
  exists v, In (i, v) vaddrs /\ dget Z.eqb v d = Some s.
Proof.
  unfold resolve. rewrite in_flat_map. split.
  - intros ([i' v] & H1 & H2). apply sort_by_in in H1. cbn [fst snd] in H2.
    destruct (dget Z.eqb v d) as [x|] eqn:E; [|contradiction H2].
    destruct H2 as [H2|[]]. injection H2 as -> ->. eauto.
  - intros (v & H1 & H2). exists (i, v). split; [now apply sort_by_in|]. cbn [fst snd]. rewrite H2. now left.
Qed.

Lemma Zleb_total a b : Z.leb a b = true \/ Z.leb b a = true. Proof. lia. Qed.

Lemma sorted_strict (l : list (Z * Z)) : NoDup (map fst l) ->
  StronglySorted (fun a b => fst a < fst b) (sort_by Z.leb fst l).
Proof.
  intros Hn. set (m := sort_by Z.leb fst l).
  assert (StronglySorted (fun a b : Z * Z => Z.leb (fst a) (fst b) = true) m) as Hs.
  { unfold m, sort_by. apply sort_sorted; intros; lia. }
  assert (NoDup (map fst m)) as Hm.
  { eapply Permutation_NoDup; [|exact Hn]. apply Permutation_map. apply sort_by_perm. }
  clearbody m. clear Hn l. induction Hs as [|x l Hs IH Hf]; [constructor|].
  cbn in Hm. inversion Hm as [|? ? Hx Hm']; subst. constructor; [auto|].
  rewrite Forall_forall in *. intros y Hy. specialize (Hf y Hy).
  assert (fst x <> fst y) by (intros E; apply Hx; rewrite E; now apply in_map). lia.
Qed.

Lemma resolve_sorted d vaddrs : NoDup (map fst vaddrs) ->
  StronglySorted (fun a b => fst a < fst b) (resolve d vaddrs).
Proof.
  intros Hn. unfold resolve. pose proof (sorted_strict _ Hn) as Hs.
  induction Hs as [|x l Hs IH Hf]; [constructor|]. cbn [flat_map].
  destruct (dget Z.eqb (snd x) d) as [s|]; [|exact IH]. cbn [app]. constructor; [exact IH|].
  rewrite Forall_forall in *. intros [i y] Hy. apply in_flat_map in Hy as (z & Hz & Hy).
  destruct (dget Z.eqb (snd z) d); [|contradiction]. destruct Hy as [Hy|[]]. injection Hy as <- <-. cbn. auto.
Qed.

Lemma resolve_len d vaddrs : len (resolve d vaddrs) =
  len vaddrs - len (filter (fun x => match dget Z.eqb (snd x) d with Some _ => false | None => true end) vaddrs).
Proof.
  unfold resolve.
  assert (forall l, len (flat_map (fun x : Z * Z => match dget Z.eqb (snd x) d with
                                   | Some s => [(fst x, s)] | None => [] end) l) =
    len l - len (filter (fun x => match dget Z.eqb (snd x) d with Some _ => false | None => true end) l)) as G.
  { induction l as [|x l IH]; cbn [flat_map filter]; [reflexivity|].
    destruct (dget Z.eqb (snd x) d); cbn [app]; rewrite ?len_cons, IH; lia. }
  rewrite G. pose proof (sort_by_perm Z.leb fst vaddrs) as P.
  rewrite (perm_len _ _ P), (perm_len _ _ (filter_perm _ _ _ P)). reflexivity.
Qed.

(** * candidates() taken apart *)

Definition dummy_filter (a : arch) (e : elf) (ref : option symbol) (code : option bytes) (s : syscall) : bool :=
  okb (d <- is_dummy_syscall a (sc_symbol s) e ref code ;; Ok (negb d)).

Record parts_ok (a : arch) (e : elf) (v : version) (ni : list symbol) (vaddrs : list (Z * Z)) (l : list syscall)
    (prefixes : list str) (eso : list esoteric) (esl : list syscall)
    (ref : option symbol) (code : option bytes) : Prop := Parts {
  po_prefixes : common_syscall_symbol_prefixes
     (map (fun x => sym_name (snd x))
        (filter (fun x => negb (sym_in (snd x) ni)) (resolve (symbols_by_vaddr a e ni vaddrs) vaddrs))) 20 = Ok prefixes;
  po_eso : extract_esoteric_syscalls a e = Ok eso;
  po_esl : Forall2 (fun x y => make_esoteric e x = Ok y) eso esl;
  po_all : forall x, In x vaddrs -> chosen a e ni vaddrs (snd x) <> None;
  po_ref : ref = match dkeys (sym_counter (map snd (filter (fun x => sym_in (snd x) ni)
                        (resolve (symbols_by_vaddr a e ni vaddrs) vaddrs)))) with
                 | [] => None
                 | s :: l => Some (max_by (fun k => match dget symbol_eqb k (sym_counter (map snd (filter (fun x => sym_in (snd x) ni)
                        (resolve (symbols_by_vaddr a e ni vaddrs) vaddrs)))) with
                                                       | Some n => n | None => 0 end) s l)
                 end;
  po_code : match ref with Some s => exists c, read_symbol e s = Ok c /\ code = Some c | None => code = None end;
  po_list : l = filter (dummy_filter a e ref code)
     (filter (fun s => negb (skip a s)) (map (make_syscall a v prefixes)
        (filter (fun x => negb (sym_in (snd x) ni)) (resolve (symbols_by_vaddr a e ni vaddrs) vaddrs))) ++ esl);
  po_dummy : forall s, In s (filter (fun s => negb (skip a s)) (map (make_syscall a v prefixes)
        (filter (fun x => negb (sym_in (snd x) ni)) (resolve (symbols_by_vaddr a e ni vaddrs) vaddrs))) ++ esl) ->
     exists b, is_dummy_syscall a (sc_symbol s) e ref code = Ok b
}.

Lemma no_missing_iff (d : dict Z symbol) vaddrs :
  len (resolve d vaddrs) = len vaddrs <-> forall x, In x vaddrs -> dget Z.eqb (snd x) d <> None.
Proof.
  rewrite resolve_len. set (f := fun x : Z * Z => match dget Z.eqb (snd x) d with Some _ => false | None => true end).
  split.
  - intros H x Hx E. assert (In x (filter f vaddrs)) as Hi by (apply filter_In; unfold f; rewrite E; auto).
    destruct (filter f vaddrs) as [|y m]; [contradiction|]. rewrite len_cons in H. pose proof (len_nonneg m). lia.
  - intros H. assert (filter f vaddrs = []) as ->.
    { destruct (filter f vaddrs) as [|y m] eqn:E; [reflexivity|].
      assert (In y (filter f vaddrs)) as Hy by (rewrite E; now left).
      apply filter_In in Hy as [H1 H2]. unfold f in H2. specialize (H y H1).
      destruct (dget Z.eqb (snd y) d); [discriminate|congruence]. }
    change (len (@nil (Z * Z))) with 0. lia.
Qed.

Section Counts.
  Context (a : arch) (e : elf) (v : version) (ni : list symbol) (vaddrs : list (Z * Z)) (prefixes : list str)
    (eso : list esoteric) (esl : list syscall).
  Hypothesis He : Forall2 (fun x y => make_esoteric e x = Ok y) eso esl.
  Let entries := resolve (symbols_by_vaddr a e ni vaddrs) vaddrs.
  Let symbols := filter (fun x : Z * symbol => negb (sym_in (snd x) ni)) entries.
  Let all := map (make_syscall a v prefixes) symbols.
  Let counts := sym_counter (map snd (filter (fun x : Z * symbol => sym_in (snd x) ni) entries)).

  Lemma assertion_iff :
    (len (filter (fun s => negb (skip a s)) all ++ esl) =?
     len vaddrs - fold_left Z.add (dvalues counts) 0 - len (filter (skip a) all) + len eso) = true <->
    forall x, In x vaddrs -> chosen a e ni vaddrs (snd x) <> None.
  Proof.
    unfold chosen. rewrite <- (no_missing_iff (symbols_by_vaddr a e ni vaddrs) vaddrs). fold entries.
    unfold counts. rewrite counter_sum, len_map, len_app.
    pose proof (len_filter_split (skip a) all) as E1.
    assert (len entries = len (filter (fun x : Z * symbol => sym_in (snd x) ni) entries) + len symbols) as E2
      by exact (len_filter_split (fun x : Z * symbol => sym_in (snd x) ni) entries).
    assert (len all = len symbols) as E3 by apply len_map.
    assert (len eso = len esl) as E4 by (now apply Forall2_len in He).
    rewrite Z.eqb_eq. lia.
  Qed.
End Counts.

Lemma candidates_parts ni_order a e v vaddrs l : ni_order (ni_functions e) <> [] ->
  candidates ni_order a e v vaddrs = Ok l ->
  exists prefixes eso esl ref code, parts_ok a e v (ni_order (ni_functions e)) vaddrs l prefixes eso esl ref code.
Proof.
  intros Hne H. unfold candidates in H. set (ni := ni_order (ni_functions e)) in *.
  destruct ni as [|n0 ni'] eqn:En; [congruence|]. rewrite <- En in *. clearbody ni. clear n0 ni' En Hne.
  cbv zeta in H.
  destruct (common_syscall_symbol_prefixes _ 20) as [prefixes| | |] eqn:E1; try discriminate. cbn [bind] in H.
  destruct (extract_esoteric_syscalls a e) as [eso| | |] eqn:E2; try discriminate. cbn [bind] in H.
  destruct (mapM (make_esoteric e) eso) as [esl| | |] eqn:E3; try discriminate. cbn [bind] in H.
  apply mapM_Ok in E3.
  match type of H with bind (assert_ ?x) _ = _ => destruct x eqn:E4; [|discriminate H] end. cbn [assert_ bind] in H.
  pose proof (proj1 (assertion_iff a e v ni vaddrs prefixes eso esl E3) E4) as Hall.
  match type of H with bind (match ?r with _ => _ end) _ = _ => set (ref := r) in * end.
  destruct (match ref with Some s => c <- read_symbol e s ;; Ok (Some c) | None => Ok None end) as [code| | |] eqn:E5;
    try discriminate. cbn [bind] in H.
  apply filterM_Ok in H as [H1 H2].
  exists prefixes, eso, esl, ref, code. constructor; auto.
  - clear H1 H2. clearbody ref. destruct ref as [s|].
    + destruct (read_symbol e s) as [c| | |]; try discriminate. cbn [bind] in E5. exists c. split; congruence.
    + congruence.
  - intros s Hs. destruct (H2 s Hs) as [b Hb].
    destruct (is_dummy_syscall a (sc_symbol s) e ref code) as [d| | |]; try discriminate. eauto.
Qed.
