(** Lemmas about the model of kernel.py: the symbol chosen for each address. *)
From Coq Require Import List Bool Ascii String ZArith Lia Permutation Sorted.
From Verif Require Import PyBase PyFacts Regex M_Utils S_Utils M_Elf S_Elf L_Elf M_Syscall M_Arch S_Arch
  L_Arch L_Arch2 M_Emu M_Kconfig M_Kernel S_Kernel L_Kernel2 L_Kernel3.
Import ListNotations.
Open Scope Z_scope.
Open Scope list_scope.

Lemma symbol_eqb_eq a b : symbol_eqb a b = true <-> a = b.
Proof.
  destruct a as [v r z t n], b as [v' r' z' t' n']. unfold symbol_eqb. cbn.
  rewrite !andb_true_iff, !Z.eqb_eq, !str_eqb_eq. split.
  - intros [[[[-> ->] ->] ->] ->]. reflexivity.
  - intros H. injection H. tauto.
Qed.

Lemma sym_in_iff s l : sym_in s l = true <-> In s l.
Proof.
  unfold sym_in. rewrite existsb_exists. split.
  - intros (x & H & E). apply symbol_eqb_eq in E. now subst.
  - intros H. exists s. split; [exact H|now apply symbol_eqb_eq].
Qed.
Lemma sym_in_not s l : sym_in s l = false <-> ~ In s l.
Proof. rewrite <- sym_in_iff. destruct (sym_in s l); split; congruence. Qed.

Lemma ni_functions_iff e f : In f (ni_functions e) <-> ni_at e (sym_vaddr f) f.
Proof.
  unfold ni_functions, ni_at. rewrite filter_In, ni_symbol_iff. unfold dvalues. tauto.
Qed.
Lemma ni_at_iff e v f : ni_at e v f <-> In f (ni_functions e) /\ sym_vaddr f = v.
Proof.
  rewrite ni_functions_iff. unfold ni_at. split.
  - intros (H1 & H2 & H3 & <-). auto.
  - intros [(H1 & H2 & H3 & _) <-]. auto.
Qed.

(** The dictionary before the loop *)
Lemma seed_get ni : forall v,
  dget Z.eqb v (dict_of Z.eqb (map (fun s => (sym_vaddr s, s)) ni)) =
  last_binding Z.eqb v (map (fun s => (sym_vaddr s, s)) ni).
Proof. intros v. unfold dict_of. rewrite dget_dupdate; [|exact Z.eqb_eq]. now destruct (last_binding _ _ _). Qed.

Lemma seed_some ni v s :
  dget Z.eqb v (dict_of Z.eqb (map (fun s => (sym_vaddr s, s)) ni)) = Some s -> In s ni /\ sym_vaddr s = v.
Proof.
  rewrite seed_get. intros H. apply last_binding_In in H; [|exact Z.eqb_eq].
  apply in_map_iff in H as (x & E & H). injection E as <- <-. auto.
Qed.
Lemma seed_none ni v :
  dget Z.eqb v (dict_of Z.eqb (map (fun s => (sym_vaddr s, s)) ni)) = None -> forall s, In s ni -> sym_vaddr s <> v.
Proof.
  rewrite seed_get. intros H s Hs E. pose proof (proj1 (last_binding_None Z.eqb Z.eqb_eq v _) H s) as G. apply G.
  apply in_map_iff. exists s. now subst.
Qed.

Section Pick.
  Context (a : arch) (ni : list symbol) (seen : list Z).

  (** Invariant of the loop, after the symbols [done] *)
  Definition pick_ok (done : list symbol) (d : dict Z symbol) : Prop :=
    forall v,
      match dget Z.eqb v d with
      | Some s => sym_vaddr s = v /\
          (In s ni \/ ((forall f, In f ni -> sym_vaddr f <> v) /\ In v seen /\ In s done))
      | None => (forall f, In f ni -> sym_vaddr f <> v) /\
          (In v seen -> forall s, In s done -> sym_vaddr s <> v)
      end.

  Lemma pick_step_ok done d s : pick_ok done d -> pick_ok (done ++ [s]) (pick_step a ni seen d s).
  Proof.
    intros H v. unfold pick_step. pose proof (H (sym_vaddr s)) as Hs. specialize (H v).
    assert (zin (sym_vaddr s) seen = true <-> In (sym_vaddr s) seen) as Z1 by apply zin_iff.
    destruct (zin (sym_vaddr s) seen); cbn [negb].
    2:{ destruct (dget Z.eqb v d) as [x|].
        - destruct H as [H1 [H2|(H2 & H3 & H4)]]; split; auto. right. repeat split; auto. apply in_or_app. auto.
        - destruct H as [H1 H2]. split; auto. intros Hv y Hy. apply in_app_or in Hy as [Hy|[<-|[]]]; auto.
          intros E. subst v. apply Z1 in Hv. discriminate. }
    assert (In (sym_vaddr s) seen) as Hin by now apply Z1. clear Z1.
    assert (forall d', (forall k, k <> sym_vaddr s -> dget Z.eqb k d' = dget Z.eqb k d) -> v <> sym_vaddr s ->
      match dget Z.eqb v d' with
      | Some s0 => sym_vaddr s0 = v /\ (In s0 ni \/ (forall f, In f ni -> sym_vaddr f <> v) /\ In v seen /\ In s0 (done ++ [s]))
      | None => (forall f, In f ni -> sym_vaddr f <> v) /\ (In v seen -> forall s0, In s0 (done ++ [s]) -> sym_vaddr s0 <> v)
      end) as Other.
    { intros d' Hd Hv. rewrite (Hd v Hv). destruct (dget Z.eqb v d) as [x|].
      - destruct H as [H1 [H2|(H2 & H3 & H4)]]; split; auto. right. repeat split; auto. apply in_or_app. auto.
      - destruct H as [H1 H2]. split; auto. intros Hv' y Hy. apply in_app_or in Hy as [Hy|[<-|[]]]; auto. }
    destruct (Z.eq_dec v (sym_vaddr s)) as [->|Hv].
    2:{ apply Other; [|exact Hv]. intros k Hk.
        destruct (dget Z.eqb (sym_vaddr s) d) as [o|].
        - destruct (symbol_eqb s o); [reflexivity|]. destruct (sym_in o ni && negb (sym_in s ni)); [reflexivity|].
          apply dget_dset_neq; [exact Z.eqb_eq|exact Hk].
        - apply dget_dset_neq; [exact Z.eqb_eq|exact Hk]. }
    clear Other H. destruct (dget Z.eqb (sym_vaddr s) d) as [o|] eqn:E.
    - destruct (symbol_eqb s o) eqn:Es.
      { apply symbol_eqb_eq in Es. subst o. rewrite E. destruct Hs as [H1 [H2|(H2 & H3 & H4)]]; split; auto.
        right. repeat split; auto. apply in_or_app. auto. }
      destruct Hs as [Ho Hs]. destruct (sym_in o ni && negb (sym_in s ni)) eqn:En.
      { rewrite E. split; [exact Ho|]. destruct Hs as [Hs|(H2 & H3 & H4)]; [auto|].
        right. repeat split; auto. apply in_or_app. auto. }
      rewrite dget_dset_eq; [|exact Z.eqb_eq].
      destruct (preferred_or a s o) as [-> | ->].
      + split; [reflexivity|]. destruct Hs as [Hs|(H2 & H3 & H4)].
        * apply sym_in_iff in Hs. rewrite Hs in En. cbn in En. left. apply sym_in_iff. now destruct (sym_in s ni).
        * right. repeat split; auto. apply in_or_app. right. now left.
      + split; [exact Ho|]. destruct Hs as [Hs|(H2 & H3 & H4)]; [auto|].
        right. repeat split; auto. apply in_or_app. auto.
    - rewrite dget_dset_eq; [|exact Z.eqb_eq]. destruct Hs as [H1 _]. split; [reflexivity|].
      right. repeat split; auto. apply in_or_app. right. now left.
  Qed.

  Lemma pick_fold_ok syms : forall done d, pick_ok done d ->
    pick_ok (done ++ syms) (fold_left (pick_step a ni seen) syms d).
  Proof.
    induction syms as [|s syms IH]; intros done d H; cbn [fold_left].
    - now rewrite app_nil_r.
    - replace (done ++ s :: syms) with ((done ++ [s]) ++ syms) by now rewrite <- app_assoc.
      apply IH. now apply pick_step_ok.
  Qed.

  Lemma seed_ok : pick_ok [] (dict_of Z.eqb (map (fun s => (sym_vaddr s, s)) ni)).
  Proof.
    intros v. destruct (dget Z.eqb v _) as [s|] eqn:E.
    - apply seed_some in E as [H1 H2]. auto.
    - split; [now apply seed_none|]. intros _ s [].
  Qed.
End Pick.

(** What is chosen for an address of the table *)
Lemma chosen_cases a e ni vaddrs v : Permutation ni (ni_functions e) -> In v (map snd vaddrs) ->
  match dget Z.eqb v (symbols_by_vaddr a e ni vaddrs) with
  | Some s => (ni_at e v s /\ In s ni) \/ (symbol_at e v s /\ ~ In s ni /\ ~ not_implemented e v)
  | None => ~ has_symbol e v /\ ~ not_implemented e v
  end.
Proof.
  intros Hp Hv. unfold symbols_by_vaddr.
  pose proof (pick_fold_ok a ni (map snd vaddrs) (sort_by str_leb sym_name (dvalues (e_symbols e))) []
    (dict_of Z.eqb (map (fun s => (sym_vaddr s, s)) ni)) (seed_ok _ _) v) as H.
  assert (forall f, In f ni <-> In f (ni_functions e)) as Hni.
  { intros f. split; apply Permutation_in; [exact Hp|now apply Permutation_sym]. }
  assert ((forall f, In f ni -> sym_vaddr f <> v) -> ~ not_implemented e v) as Hn.
  { intros Hf [f Hx]. apply ni_at_iff in Hx as [H1 H2]. apply Hni in H1. apply (Hf f H1 H2). }
  destruct (dget Z.eqb v _) as [s|].
  - destruct H as [H1 [H2|(H2 & _ & H4)]].
    + left. split; [apply ni_at_iff; split; [now apply Hni|exact H1]|exact H2].
    + right. cbn [app] in H4. apply sort_by_in in H4. repeat split; auto.
      intros Hc. apply (H2 s Hc H1).
  - destruct H as [H1 H2]. split; [|auto]. intros [s [Hs Hv']]. apply (H2 Hv s); [|exact Hv'].
    cbn [app]. now apply sort_by_in.
Qed.

Definition chosen (a : arch) (e : elf) (ni : list symbol) (vaddrs : list (Z * Z)) (v : Z) : option symbol :=
  dget Z.eqb v (symbols_by_vaddr a e ni vaddrs).
