(** Lemmas about the model of kernel.py: the result of the extraction (C22-C28). *)
From Coq Require Import List Bool Ascii String ZArith Lia Permutation Sorted.
From Verif Require Import PyBase PyFacts Regex M_Utils S_Utils M_Elf S_Elf L_Elf M_Syscall L_Syscall M_Arch S_Arch
  L_Arch L_Arch2 M_Emu M_Kconfig M_Kernel S_Kernel L_Kernel2 L_Kernel3 L_Kernel4 L_Kernel5 L_Kernel6 L_Kernel7.
Import ListNotations.
Open Scope Z_scope.
Open Scope list_scope.

(** * The indices are different *)

Lemma enum_from_fst {A} (l : list A) : forall i, map fst (enum_from i l) = zrange i (i + len l).
Proof.
  induction l as [|x l IH]; intros i; cbn [enum_from map].
  - change (len (@nil A)) with 0. rewrite Z.add_0_r, zrange_empty by lia. reflexivity.
  - rewrite IH, len_cons. pose proof (len_nonneg l). rewrite (zrange_cons i) by lia.
    cbn [fst]. f_equal. f_equal. lia.
Qed.

Lemma enum_NoDup {A} (l : list A) i : NoDup (map fst (enum_from i l)).
Proof. rewrite enum_from_fst. apply NoDup_zrange. Qed.

Lemma put_NoDup v ns : forall d d', NoDup (map fst d) -> put_numbers v ns d = Some d' -> NoDup (map fst d').
Proof.
  induction ns as [|n ns IH]; intros d d' H E; cbn in E; [congruence|].
  destruct (dget Z.eqb n d) as [w|].
  - destruct (w =? v); [|discriminate]. eauto.
  - eapply IH; [|exact E]. apply (dset_NoDup Z.eqb Z.eqb_eq n v d H).
Qed.

Lemma collect_NoDup m l : forall d f, NoDup (map fst d) -> NoDup (map fst (collect m l d f)).
Proof.
  induction l as [|i l IH]; intros d f H; cbn [collect]; [exact H|]. cbv zeta.
  destruct (len (get m (target_of i)) =? 0); [constructor|].
  destruct (100 <? len (get m (target_of i))); [destruct f; [constructor|auto]|].
  destruct (put_numbers _ _ d) as [d'|] eqn:E; [|constructor]. apply IH. eapply put_NoDup; eassumption.
Qed.

Lemma vaddrs_NoDup t a e vaddrs : syscall_vaddrs t a e = Ok vaddrs -> NoDup (map fst vaddrs).
Proof.
  unfold syscall_vaddrs. destruct (a_table a) as [name|] eqn:Et.
  - unfold vaddrs_from_table. destruct (dget str_eqb name (e_symbols e)) as [tbl|]; [|intros H; injection H as <-; constructor].
    destruct (dget str_eqb _ (e_sections e)) as [text|]; [|discriminate].
    assert (bind (unpack_syscall_table e tbl text) (fun l => Ok (enum_from 0 l)) = Ok vaddrs -> NoDup (map fst vaddrs)) as D.
    { destruct (unpack_syscall_table e tbl text) as [l| | |]; try discriminate. cbn [bind]. intros H. injection H as <-. apply enum_NoDup. }
    cbv zeta. destruct (negb (a_fdesc a)); [exact D|].
    destruct (unpack_long e (sym_vaddr tbl)) as [f| | |]; try discriminate. cbn [bind].
    destruct (in_target text f); [exact D|].
    destruct (dget str_eqb _ (e_sections e)) as [opd|]; [|intros H; injection H as <-; constructor].
    destruct (unpack_syscall_table e tbl opd) as [ds| | |]; try discriminate. cbn [bind].
    destruct (mapM (unpack_long e) ds) as [l| | |]; try discriminate. cbn [bind].
    destruct l; [exact D|]. intros H. injection H as <-. apply (enum_NoDup (z :: l) 0).
  - destruct (a_class a); try (intros H; injection H as <-; constructor).
    unfold extract_syscall_vaddrs. rewrite Et.
    destruct (dget str_eqb _ (e_functions e)) as [sym|]; [|intros H; injection H as <-; constructor].
    destruct (sym_size sym <? 16); [intros H; injection H as <-; constructor|].
    destruct (read_symbol e sym) as [code| | |]; try discriminate. cbn [bind].
    destruct (emulate _ _ _ _) as [res| | |]; try discriminate. cbn [bind].
    destruct res as [[m c]|]; intros H; injection H as <-; [|constructor]. apply collect_NoDup. constructor.
Qed.

(** * From the list to the result *)

Lemma ni_order_some (o : list symbol -> list symbol) e : (forall l, Permutation (o l) l) -> (exists v, not_implemented e v) ->
  exists y ys, o (ni_functions e) = y :: ys.
Proof.
  intros Hp (v & f & Hf). assert (In f (ni_functions e)) as I.
  { apply ni_functions_iff. unfold ni_at in *. tauto. }
  apply (Permutation_in _ (Permutation_sym (Hp _))) in I. destruct (o (ni_functions e)) as [|y ys]; [contradiction|eauto].
Qed.

Lemma extract_cases t a e v kdir r : extract_syscalls t a e v kdir = Ok r ->
  r = [] \/
  exists vaddrs found located,
    syscall_vaddrs t (adjust_abi a e) e = Ok vaddrs /\
    candidates (v_ni_order t) (adjust_abi a e) e v vaddrs = Ok found /\
    v_annotate t found = Ok located /\ filterM (keep_located kdir) located = Ok r.
Proof.
  unfold extract_syscalls. destruct (xorb _ _); [intros H; injection H; auto|]. cbv zeta.
  destruct (syscall_vaddrs t (adjust_abi a e) e) as [vaddrs| | |]; try discriminate. cbn [bind].
  destruct vaddrs as [|x vaddrs]; [intros H; injection H; auto|].
  destruct (v_ni_order t (ni_functions e)) as [|y ys]; [intros H; injection H; auto|].
  destruct (candidates (v_ni_order t) (adjust_abi a e) e v (x :: vaddrs)) as [found| | |] eqn:E1; try discriminate. cbn [bind].
  destruct (v_annotate t found) as [located| | |] eqn:E2; try discriminate. cbn [bind].
  intros H. right. exists (x :: vaddrs), found, located. auto.
Qed.

Lemma extract_no_ni t a e v kdir vaddrs : (forall l, Permutation (v_ni_order t l) l) ->
  syscall_vaddrs t (adjust_abi a e) e = Ok vaddrs -> (forall v, ~ not_implemented e v) -> extract_syscalls t a e v kdir = Ok [].
Proof.
  intros Hp V N. unfold extract_syscalls. destruct (xorb _ _); [reflexivity|]. cbv zeta. rewrite V. cbn [bind]. destruct vaddrs; [reflexivity|].
  destruct (ni_functions e) as [|f fs] eqn:E; [|elim (N (sym_vaddr f)); exists f; apply ni_functions_iff; rewrite E; now left].
  specialize (Hp []). apply Permutation_sym, Permutation_nil in Hp. now rewrite Hp.
Qed.

Lemma is_sys_ni_iff p : is_sys_ni p = true <-> exists pre, parts p = pre ++ [$"kernel"; $"sys_ni.c"].
Proof.
  unfold is_sys_ni. split.
  - destruct (rev (parts p)) as [|f [|d r]] eqn:E; try discriminate. intros H.
    apply andb_true_iff in H as [H1 H2]. apply str_eqb_eq in H1. apply str_eqb_eq in H2. subst f d.
    exists (rev r). rewrite <- (rev_involutive (parts p)), E. cbn [rev]. now rewrite <- app_assoc.
  - intros [pre E]. rewrite E, rev_app_distr. reflexivity.
Qed.

Lemma keep_false kdir s : keep_located kdir s = Ok false ->
  sc_esoteric s = false /\ sc_good s = false /\ in_sys_ni kdir s.
Proof.
  unfold keep_located. destruct (sc_esoteric s), (sc_good s); cbn [negb andb]; try discriminate.
  intros H. split; [reflexivity|]. split; [reflexivity|].
  destruct (sc_file s) as [f|] eqn:Ef; [|discriminate].
  destruct (maybe_rel (Some f) kdir) as [p| | |] eqn:Ep; try discriminate. cbn [bind] in H.
  destruct p as [q|]; [|discriminate]. injection H as H. apply negb_false_iff in H.
  apply is_sys_ni_iff in H as [pre H]. exists f, q, pre. auto.
Qed.
Lemma keep_true kdir s : keep_located kdir s = Ok true ->
  sc_esoteric s = true \/ sc_good s = true \/ ~ in_sys_ni kdir s.
Proof.
  unfold keep_located. destruct (sc_esoteric s); [auto|]. destruct (sc_good s); [auto|]. cbn [negb andb].
  intros H. right. right. intros (f & p & pre & Hf & Hp & Hq). rewrite Hf, Hp in H. cbn [bind] in H.
  injection H as H. apply negb_true_iff in H. rewrite (proj2 (is_sys_ni_iff p)) in H by eauto. discriminate.
Qed.

(** * Facts about parts *)

Lemma part_filter {A} p (l m : list A) : part_of l m -> part_of (filter p l) (filter p m).
Proof.
  induction 1 as [|x l m P IH|x l m P IH]; cbn; [constructor| |]; destruct (p x); try exact IH; now constructor.
Qed.
Lemma part_NoDup {A B} (f : A -> B) (l m : list A) : part_of l m -> NoDup (map f m) -> NoDup (map f l).
Proof.
  induction 1 as [|x l m P IH|x l m P IH]; cbn; intros H; [constructor| |]; inversion H as [|? ? Hn Hd]; subst; auto.
  constructor; auto. intros Hi. apply Hn. apply in_map_iff in Hi as (y & <- & Hy). apply in_map.
  eapply part_In; eassumption.
Qed.
Lemma part_sorted {A} (R : A -> A -> Prop) (l m : list A) : part_of l m -> StronglySorted R m -> StronglySorted R l.
Proof.
  induction 1 as [|x l m P IH|x l m P IH]; intros H; [constructor| |]; inversion H as [|? ? Hs Hf]; subst; auto.
  constructor; auto. rewrite Forall_forall in *. intros y Hy. apply Hf. eapply part_In; eassumption.
Qed.

Lemma filter_true {A} (p : A -> bool) l : (forall x, In x l -> p x = true) -> filter p l = l.
Proof.
  induction l as [|x l IH]; intros H; cbn; [reflexivity|]. rewrite (H x (or_introl eq_refl)), IH; [reflexivity|].
  intros y Hy. apply H. now right.
Qed.
Lemma filter_false {A} (p : A -> bool) l : (forall x, In x l -> p x = false) -> filter p l = [].
Proof.
  induction l as [|x l IH]; intros H; cbn; [reflexivity|]. rewrite (H x (or_introl eq_refl)), IH; [reflexivity|].
  intros y Hy. apply H. now right.
Qed.

Lemma same_map {B} (f : syscall -> B) p (l r : list syscall) :
  (forall s t, same_syscall s t -> f s = f t) -> (forall s t, same_syscall s t -> p s = p t) ->
  Forall2 same_syscall l r -> map f (filter p l) = map f (filter p r).
Proof.
  intros Hf Hp. induction 1 as [|s t l r E F IH]; [reflexivity|]. cbn [filter].
  rewrite (Hp _ _ E). destruct (p t); cbn [map]; rewrite IH; [|reflexivity]. f_equal. auto.
Qed.
Lemma same_In (l r : list syscall) t : Forall2 same_syscall l r -> In t r -> exists s, In s l /\ same_syscall s t.
Proof.
  induction 1 as [|s t' l r E F IH]; [intros []|]. intros [<-|H]; [exists s; split; [now left|exact E]|].
  destruct (IH H) as (s' & H1 & H2). exists s'. split; [now right|exact H2].
Qed.

(** * C22, C23, C25, C28 *)

Section Result.
  Context (t : env) (k : klass) (ver : version) (abi : str) (b : bool) (a : arch) (e : elf) (v : version)
    (kdir : option path) (r : list syscall).
  Hypothesis Ha : arch_new k ver abi b = Ok a.
  Hypothesis Hp : forall l, Permutation (v_ni_order t l) l.
  Hypothesis Ht : annotates (v_annotate t).
  Hypothesis H : extract_syscalls t a e v kdir = Ok r.

  Lemma no_ni_found vaddrs found : candidates (v_ni_order t) (adjust_abi a e) e v vaddrs = Ok found ->
    found = [] \/ exists v, not_implemented e v.
  Proof.
    intros Hc. destruct (ni_functions e) as [|f q] eqn:E.
    - left. unfold candidates in Hc. rewrite E in Hc. pose proof (Hp []) as P.
      apply Permutation_sym, Permutation_nil in P. rewrite P in Hc. congruence.
    - right. exists (sym_vaddr f), f. apply ni_functions_iff. rewrite E. now left.
  Qed.

  Lemma result_provenance s : In s r -> of_table s = true ->
    exists vaddrs i v', syscall_vaddrs t (adjust_abi a e) e = Ok vaddrs /\ In (i, v') vaddrs /\
      sc_index s = Some i /\ number_at k ver abi b i (sc_number s) /\
      symbol_at e v' (sc_symbol s) /\ ~ not_implemented e v'.
  Proof.
    intros Hs Hos. destruct (extract_cases _ _ _ _ _ _ H) as [->|(vaddrs & found & located & H1 & H2 & H3 & H4)]; [contradiction|].
    apply filterM_Ok in H4 as [-> _]. apply filter_In in Hs as [Hs _].
    destruct (same_In _ _ _ (Ht _ _ H3) Hs) as (s0 & Hs0 & Hsame).
    destruct (no_ni_found _ _ H2) as [->|Hni]; [contradiction|].
    pose proof (vaddrs_NoDup _ _ _ _ H1) as Hnd.
    destruct (candidates_exact _ _ _ _ _ _ _ _ _ _ Ha Hp Hnd Hni H2)
      as (main & eso & choice & ref & code & -> & C1 & C2 & C3 & C4 & C5 & C6 & C7 & C8).
    destruct Hsame as (S1 & S2 & S3 & S4 & S5 & S6 & S7).
    assert (of_table s0 = true) as Ho by (unfold of_table in *; now rewrite S7).
    apply in_app_or in Hs0 as [Hs0|Hs0]; [|destruct (C5 s0 Hs0); congruence].
    destruct (C4 s0 Hs0) as (_ & i & v' & E1 & E2 & E3 & E4 & E5).
    exists vaddrs, i, v'. rewrite <- S1, <- S2, <- S5.
    split; [exact H1|]. split; [exact E2|]. split; [exact E1|]. split; [exact E5|]. split; [|exact E4].
    destruct (C1 i v' E2) as (x & Ex & _ & Hx). rewrite E3 in Ex. injection Ex as <-. auto.
  Qed.

  Lemma result_unique :
    NoDup (map sc_number (filter of_table r)) /\
    NoDup (map sc_number (filter (fun s => negb (of_table s)) r)) /\
    StronglySorted index_before (filter of_table r).
  Proof.
    destruct (extract_cases _ _ _ _ _ _ H) as [->|(vaddrs & found & located & H1 & H2 & H3 & H4)].
    { repeat split; constructor. }
    apply filterM_Ok in H4 as [-> _].
    destruct (no_ni_found _ _ H2) as [->|Hni].
    { pose proof (Ht _ _ H3) as F. inversion F; subst. repeat split; constructor. }
    pose proof (vaddrs_NoDup _ _ _ _ H1) as Hnd.
    destruct (candidates_exact _ _ _ _ _ _ _ _ _ _ Ha Hp Hnd Hni H2)
      as (main & eso & choice & ref & code & -> & C1 & C2 & C3 & C4 & C5 & C6 & C7 & C8).
    pose proof (Ht _ _ H3) as F.
    assert (filter of_table (main ++ eso) = main /\ filter (fun s => negb (of_table s)) (main ++ eso) = eso) as [F1 F2].
    { rewrite !filter_app. split.
      - rewrite (filter_true of_table main) by (intros; now apply C4).
        rewrite (filter_false of_table eso) by (intros; now apply C5). apply app_nil_r.
      - rewrite (filter_false _ main) by (intros s Hs; now rewrite (proj1 (C4 s Hs))).
        rewrite (filter_true _ eso) by (intros s Hs; now rewrite (proj1 (C5 s Hs))). reflexivity. }
    assert (forall s t, same_syscall s t -> of_table s = of_table t) as Ho.
    { intros s u (_ & _ & _ & _ & _ & _ & E). unfold of_table. now rewrite E. }
    assert (forall s t, same_syscall s t -> sc_number s = sc_number t) as Hn by (intros s u (_ & E & _); exact E).
    assert (forall s t, same_syscall s t -> negb (of_table s) = negb (of_table t)) as Ho' by (intros s u E; now rewrite (Ho s u E)).
    split; [|split].
    - eapply part_NoDup; [apply part_filter, filter_part|].
      rewrite <- (same_map sc_number of_table _ _ Hn Ho F), F1. exact C6.
    - eapply part_NoDup; [apply part_filter, filter_part|].
      rewrite <- (same_map sc_number _ _ _ Hn Ho' F), F2. exact C7.
    - eapply part_sorted; [apply part_filter, filter_part|].
      assert (Forall2 same_syscall main (filter of_table located)) as F3.
      { rewrite <- F1. clear -F Ho. induction F as [|s u l m E F IH]; [constructor|]. cbn [filter].
        rewrite (Ho _ _ E). destruct (of_table u); [constructor|]; auto. }
      clear -F3 C3. induction F3 as [|s u l m E F IH]; [constructor|]. inversion C3 as [|? ? Hs Hf]; subst.
      constructor; [auto|]. rewrite Forall_forall in *. intros y Hy.
      destruct (same_In _ _ _ F Hy) as (y0 & Hy0 & Ey). destruct (Hf y0 Hy0) as (i & j & I1 & I2 & I3).
      exists i, j. destruct E as (E & _), Ey as (Ey & _). rewrite <- E, <- Ey. auto.
  Qed.

  (** The final list: what was found, annotated, without what is in kernel/sys_ni.c *)
  Lemma result_part : exists found located,
    (found = [] \/ exists vaddrs, syscall_vaddrs t (adjust_abi a e) e = Ok vaddrs /\
       candidates (v_ni_order t) (adjust_abi a e) e v vaddrs = Ok found) /\
    Forall2 same_syscall found located /\ part_of r located /\
    (forall s, In s located -> In s r \/ (of_table s = true /\ sc_good s = false /\ in_sys_ni kdir s)) /\
    (forall s, In s r -> of_table s = false \/ sc_good s = true \/ ~ in_sys_ni kdir s).
  Proof.
    destruct (extract_cases _ _ _ _ _ _ H) as [->|(vaddrs & found & located & H1 & H2 & H3 & H4)].
    { exists [], []. repeat split; auto; try constructor; intros s []. }
    apply filterM_Ok in H4 as [-> Hk]. exists found, located.
    split; [right; eauto|]. split; [exact (Ht _ _ H3)|]. split; [apply filter_part|]. split.
    - intros s Hs. destruct (Hk s Hs) as [[|] E].
      + left. apply filter_In. split; [exact Hs|]. now rewrite E.
      + right. destruct (keep_false _ _ E) as (G1 & G2 & G3). unfold of_table. rewrite G1. auto.
    - intros s Hs. apply filter_In in Hs as [Hs E]. destruct (keep_located kdir s) as [[|]| | |] eqn:Ek; try discriminate.
      unfold of_table. destruct (keep_true _ _ Ek) as [G|[G|G]]; rewrite ?G; auto.
  Qed.

  Lemma result_no_ni vaddrs i v' s : syscall_vaddrs t (adjust_abi a e) e = Ok vaddrs -> In (i, v') vaddrs ->
    not_implemented e v' -> In s r -> of_table s = true -> sc_index s <> Some i.
  Proof.
    intros Hv Hi Hn Hs Ho E.
    destruct (result_provenance s Hs Ho) as (vaddrs' & i' & v2 & G1 & G2 & G3 & G4 & G5 & G6).
    rewrite Hv in G1. injection G1 as <-. rewrite E in G3. injection G3 as <-.
    rewrite (NoDup_fst_eq _ _ _ _ (vaddrs_NoDup _ _ _ _ Hv) Hi G2) in Hn. contradiction.
  Qed.
End Result.

Lemma result_missing t a e v kdir vaddrs i v' r : (forall l, Permutation (v_ni_order t l) l) ->
  a_bits32 a = e_bits32 e -> syscall_vaddrs t (adjust_abi a e) e = Ok vaddrs -> (exists v, not_implemented e v) ->
  In (i, v') vaddrs -> ~ has_symbol e v' -> ~ not_implemented e v' ->
  extract_syscalls t a e v kdir <> Ok r.
Proof.
  intros Hp Hb Hv Hni Hi H1 H2 H. unfold extract_syscalls in H. rewrite Hb, xorb_nilpotent in H. cbv zeta in H.
  rewrite Hv in H. cbn [bind] in H. destruct vaddrs as [|x q]; [contradiction|].
  destruct (ni_order_some _ _ Hp Hni) as (y & ys & No). rewrite No in H.
  destruct (candidates (v_ni_order t) (adjust_abi a e) e v (x :: q)) as [l| | |] eqn:E; try discriminate.
  exact (candidates_missing _ _ _ _ _ _ _ _ Hp Hni Hi H1 H2 E).
Qed.
