(** Annotation without kernel sources. *)
From Coq Require Import List Bool Ascii String ZArith Lia.
From Verif Require Import PyBase PyFacts M_Utils M_Elf M_Syscall M_Arch M_Signature M_Location M_Annotate
  S_Elf S_Signature S_Location L_Signature3 L_Location3 L_Location7.
Import ListNotations.

Lemma mapM_ext {A B} (f g : A -> outcome B) l : (forall x, f x = g x) -> mapM f l = mapM g l.
Proof. intros E. induction l as [|x l I]; [reflexivity|]. cbn [mapM]. now rewrite E, I. Qed.
Lemma sign_nosource files files' big meta s : sign files big false meta s = sign files' big false meta s.
Proof. unfold sign. destruct (sc_esoteric s); [reflexivity|]. destruct (sc_good s); reflexivity. Qed.
Lemma search_nosource w w' a elf rdir kres scs : w_addr2line w = w_addr2line w' ->
  search_locations w a elf None rdir kres scs = search_locations w' a elf None rdir kres scs.
Proof. intros E. unfold search_locations, ask. now rewrite E. Qed.
Lemma annotate_sourceless w w' have a e p rdir kres scs : w_addr2line w = w_addr2line w' ->
  annotate w have a e p None rdir kres scs = annotate w' have a e p None rdir kres scs.
Proof.
  intros E. unfold annotate, extract_syscall_locations, extract_syscall_signatures.
  rewrite (search_nosource w w' a p rdir kres scs E).
  match goal with |- (bind ?x ?f) = (bind ?x ?g) => enough (forall y, f y = g y) as H by (destruct x; cbn [bind]; auto) end.
  intros l. destruct (read_metadata e); cbn [bind]; try reflexivity; apply mapM_ext; intros s; apply sign_nosource.
Qed.
Lemma sourceless_chosen w have a e p rdir kres rs scs out : metadata e rs -> Forall clean_rec rs ->
  Forall (fun s => sc_good s = false) scs -> annotate w have a e p None rdir kres scs = Ok out ->
  Forall2 (fun s s' => chosen (fun _ _ _ => False) (recorded rs) s (sc_signature s')) scs out.
Proof.
  intros M C G H. unfold annotate in H. apply bind_Ok in H as (m & L & H).
  pose proof (no_sources_bad _ _ _ _ _ _ _ _ G L) as B. apply extract_same in L.
  apply (proj1 (signatures_nosource (w_file w) m e (w_file w) out (Forall_impl (fun s => sc_esoteric s = false -> sc_good s = false) (fun s K _ => K) B))) in H.
  apply (proj1 (signatures_meta _ _ _ _ _ M C)) in H. clear M C. revert out B G H. induction L as [|s s' l m Hs L IH]; intros out B G H; inversion H as [|? y ? r' (_ & Hy) K']; subst; constructor.
  - inversion B as [|? ? B1 B2]; subst. inversion G as [|? ? G1 G2]; subst. inversion Hy as [E|f n sig E1 E2|sig E1 E2 E3|sig E1 E2 E3 E4|E1 E2 E3 E4].
    + rewrite Hs in E |- *. cbn in *. now constructor.
    + congruence.
    + rewrite Hs in E1, E3. cbn in *. now constructor 3.
    + rewrite Hs in E1, E3, E4. cbn in *. now constructor 4.
    + rewrite Hs in E1, E3, E4 |- *. cbn in *. now constructor 5.
  - apply IH; [now inversion B|now inversion G|exact K'].
Qed.
