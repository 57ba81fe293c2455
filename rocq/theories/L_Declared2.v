(** Lemmas for C97: from the specification to the code, and up to the whole extraction. *)
From Coq Require Import List Bool Ascii String ZArith Lia Permutation Sorted.
From Verif Require Import PyBase PyFacts Regex M_Utils M_Elf M_Syscall M_Arch M_Build M_Signature M_Location M_Annotate M_Kernel
  S_Elf S_Build S_Signature S_Kernel S_Location S_Declared L_Utils L_ElfText L_Arch L_Signature L_Signature2 L_Signature3 L_Kernel5 L_Kernel8 L_Location L_Location2 L_Location3
  L_Location4 L_Location5 L_Location6 L_Location7 L_Location8 L_Location9 L_Print L_Declared.
Import ListNotations.
Open Scope Z_scope.
Open Scope list_scope.

Lemma stands_hit w ans elf kdir rdir a s v f l :
  stands_at (w_file w) ans (path_parent elf) kdir rdir a s v f l -> hit w ans elf kdir rdir a s v f l.
Proof.
  intros (n & content & ls & text & P & W & L & A & T & D). exists n. split; [exact P|]. split; [congruence|]. intros x X.
  assert (n <= len ls) as B.
  { pose proof (adjust_line_bound _ _ _ _ X) as (c & E & B). assert (c = content) as -> by congruence. rewrite (lines_of_keep content ls L) in B. exact B. }
  apply (adjust_line_spec w f content ls n W L B) in A. assert (x = l) as -> by congruence. split; [reflexivity|].
  destruct (good_total w f n l a s X) as (g & G). rewrite G. f_equal. unfold good_location in G. rewrite W in G. change bytes with str in G. rewrite (lines_of_keep content ls L) in G.
  destruct (_ <? _)%nat; [discriminate|]. injection G as G. pose proof (nth_error_nth _ _ [] T) as X'. match type of G with context [nth ?n ?l ?d] => replace (nth n l d) with text in * by (symmetry; exact X') end.
  rewrite <- G. apply orb_true_iff. destruct D as [D|D]; [left|right]; apply good_definition_accepts; assumption.
Qed.
Lemma declares_text content l big sig : declares content l big sig -> signature_from_text content l big = Ok (Some sig).
Proof.
  intros [m name ps text before ls rest D T I B O P -> ->|head ps text before ls rest D T I V L B O P -> ->].
  - exact (eq_trans (from_text_lines text before ls rest big O P B) (define_signature m name ps text big D T I)).
  - exact (eq_trans (from_text_lines text before ls rest big O P B) (asmlinkage_signature head ps text big D T I V L)).
Qed.

(** After the annotation: a good location is the place the signature comes from. *)
Lemma sign_good files big have meta s s' : sign files big have meta s = Ok s' -> sc_esoteric s = false -> sc_good s = true ->
  exists f l, sc_file s' = Some f /\ sc_line s' = Some l /\ syscall_signature_from_source files f l big = Ok (sc_signature s').
Proof.
  intros H E G. unfold sign in H. rewrite E, G in H. apply bind_Ok in H as (_ & _ & H). destruct (sc_file s) as [f|] eqn:F; [|discriminate]. destruct (sc_line s) as [l|] eqn:L; [|discriminate].
  apply bind_Ok in H as (sig & Sg & H). injection H as <-. exists f, l. cbn. auto.
Qed.
Lemma sign_same files big have meta s s' : sign files big have meta s = Ok s' -> same_but_signature s s'.
Proof.
  intros H. unfold sign in H. assert (forall x, same_but_signature x x) as R by (intros []; reflexivity).
  destruct (sc_esoteric s); [injection H as <-; apply R|]. destruct (sc_good s) eqn:G.
  - apply bind_Ok in H as (_ & _ & H). destruct (sc_file s) eqn:F; [|discriminate]. destruct (sc_line s) eqn:L; [|discriminate]. apply bind_Ok in H as (sig & _ & H). injection H as <-. reflexivity.
  - destruct meta as [d|]; [|injection H as <-; apply R]. destruct (dget str_eqb (sc_origname s) d); [injection H as <-; reflexivity|]. destruct (dget str_eqb (sc_name s) d); injection H as <-; [reflexivity|apply R].
Qed.
Lemma annotate_parts w have a e p kdir rdir kres scs out : annotate w have a e p kdir rdir kres scs = Ok out ->
  exists m meta, extract_syscall_locations w have a p kdir rdir kres scs = Ok m /\
    Forall2 (fun s s' => sign (w_file w) (e_big e) (match kdir with Some _ => true | None => false end) meta s = Ok s') m out.
Proof.
  intros H. unfold annotate in H. apply bind_Ok in H as (m & L & H). unfold extract_syscall_signatures in H. apply bind_Ok in H as (meta & _ & H). apply mapM_Ok in H. eauto.
Qed.
Lemma Forall2_nth_r {A B} (P : A -> B -> Prop) l m i y : Forall2 P l m -> nth_error m i = Some y -> exists x, nth_error l i = Some x /\ P x y.
Proof.
  intros F. revert i. induction F as [|x z l m H F IH]; intros [|i] E; cbn in E; try discriminate; [|apply (IH i E)].
  injection E as <-. exists x. auto.
Qed.

Section Annotated.
  Context (w : world) (a : arch) (e : elf) (p : path) (rdir : option path) (kres : path) (scs out : list syscall).

  Lemma annotated_declared have kdir s : annotate w have a e p kdir rdir kres scs = Ok out -> In s out -> sc_esoteric s = false -> sc_good s = true ->
    exists f l content, sc_file s = Some f /\ sc_line s = Some l /\ w_file w f = Some content /\
      forall sig, declares content l (e_big e) sig -> sc_signature s = Some sig.
  Proof.
    intros H I Es G. apply annotate_parts in H as (m & meta & _ & F). apply In_nth_error in I as (i & I). destruct (Forall2_nth_r _ _ _ _ _ F I) as (s1 & _ & Sg).
    pose proof (sign_same _ _ _ _ _ _ Sg) as Sm. rewrite Sm in Es, G. cbn in Es, G. destruct (sign_good _ _ _ _ _ _ Sg Es G) as (f & l & E1 & E2 & E3).
    unfold syscall_signature_from_source in E3. destruct (w_file w f) as [content|] eqn:W; [|discriminate]. exists f, l, content. repeat (split; [assumption|]).
    intros sig D. apply declares_text in D. congruence.
  Qed.
  Lemma annotated_located have kdir s : Forall (fun s => sc_good s = false) scs ->
    annotate w have a e p kdir rdir kres scs = Ok out -> In s out -> sc_good s = true -> fit_names s -> well_located (w_file w) a s.
  Proof.
    intros B H I G N. apply annotate_parts in H as (m & meta & L & F). apply extract_found in L; [|exact B]. apply In_nth_error in I as (i & I).
    destruct (Forall2_nth_r _ _ _ _ _ F I) as (s1 & I1 & Sg). destruct (Forall2_nth_r _ _ _ _ _ L I1) as (s0 & _ & (Sm & W)). apply sign_same in Sg. rewrite Sg in G. cbn in G.
    specialize (W G). destruct W as (f & l & c & tx & W). rewrite Sg. exists f, l, c, tx. exact W.
  Qed.
  Lemma annotated_placed ans dir kdir s f l : addr2line_says (w_addr2line w) ans -> parent_of p dir -> annotate w true a e p (Some kdir) rdir kres scs = Ok out ->
    In s out -> sc_esoteric s = false -> fit_names s -> stands_at (w_file w) ans dir kdir rdir a s (sym_real (sc_symbol s)) f l ->
    sc_file s = Some f /\ sc_line s = Some l /\ sc_good s = true.
  Proof.
    intros S D H I Es N St. apply parent_eq in D. subst dir. apply annotate_parts in H as (m & meta & L & F). apply In_nth_error in I as (i & I).
    destruct (Forall2_nth_r _ _ _ _ _ F I) as (s1 & I1 & Sg). apply sign_same in Sg. destruct (Forall2_nth_r _ _ _ _ _ (extract_same _ _ _ _ _ _ _ _ _ L) I1) as (s0 & I0 & E0).
    assert (sc_esoteric s0 = false) as Es0 by (rewrite Sg, E0 in Es; exact Es).
    assert (sc_origname s0 = sc_origname s /\ sc_name s0 = sc_name s /\ sc_symbol s0 = sc_symbol s) as (Q1 & Q2 & Q3) by (rewrite Sg, E0; auto).
    assert (hit w ans p kdir rdir a s0 (sym_real (sc_symbol s0)) f l) as Hi.
    { apply stands_hit. rewrite Q3. unfold stands_at in *. now rewrite Q1, Q2. }
    destruct (extract_hit w ans p kdir rdir a S kres scs m i s0 f l L I0 Es0 Hi) as (G1 & G2 & G3).
    assert (at_ m i = s1) as E1 by (unfold at_; now apply nth_error_nth). rewrite E1 in *. rewrite Sg. cbn. auto.
  Qed.
End Annotated.

(** * The whole extraction *)

Lemma candidates_not_good a e v ni_order vaddrs l : M_Kernel.candidates ni_order a e v vaddrs = Ok l -> Forall (fun s => sc_good s = false) l.
Proof.
  intros H. destruct (ni_order (ni_functions e)) as [|x y] eqn:Ne.
  { unfold M_Kernel.candidates in H. rewrite Ne in H. injection H as <-. constructor. }
  destruct (candidates_parts ni_order a e v vaddrs l) as (prefixes & eso & esl & ref & code & P); [rewrite Ne; discriminate|exact H|].
  apply Forall_forall. intros s I. rewrite (po_list _ _ _ _ _ _ _ _ _ _ _ P) in I. apply filter_In in I as [I _]. apply in_app_or in I as [I|I].
  - apply filter_In in I as [I _]. apply in_map_iff in I as ((i & z) & <- & I). reflexivity.
  - pose proof (po_esl _ _ _ _ _ _ _ _ _ _ _ P) as F. clear -F I. induction F as [|x s' xs ss E F IH]; [destruct I|]. destruct I as [->|I]; [|auto].
    unfold make_esoteric in E. destruct x as ((((num & name) & sn) & sig) & kc). destruct (dget str_eqb sn (e_symbols e)); [|discriminate]. now injection E as <-.
Qed.

Section Extracted.
  Context (t : env) (a : arch) (e : elf) (v : version) (w : world) (p : path) (rdir : option path) (kres : path) (r : list syscall).

  Lemma extracted_declared have kdir s : v_annotate t = annotate w have (adjust_abi a e) e p kdir rdir kres ->
    extract_syscalls t a e v kdir = Ok r -> In s r -> of_table s = true -> sc_good s = true ->
    exists f l content, sc_file s = Some f /\ sc_line s = Some l /\ w_file w f = Some content /\
      forall sig, declares content l (e_big e) sig -> sc_signature s = Some sig.
  Proof.
    intros T H I Es G. destruct (extract_cases _ _ _ _ _ _ H) as [->|(vaddrs & found & located & H1 & H2 & H3 & H4)]; [contradiction|].
    apply filterM_Ok in H4 as [-> _]. apply filter_In in I as [I _]. rewrite T in H3. apply negb_true_iff in Es.
    exact (annotated_declared _ _ _ _ _ _ _ _ _ _ _ H3 I Es G).
  Qed.
  Lemma extracted_placed ans dir kdir s f l : v_annotate t = annotate w true (adjust_abi a e) e p (Some kdir) rdir kres ->
    addr2line_says (w_addr2line w) ans -> parent_of p dir -> extract_syscalls t a e v (Some kdir) = Ok r -> In s r -> of_table s = true -> fit_names s ->
    stands_at (w_file w) ans dir kdir rdir (adjust_abi a e) s (sym_real (sc_symbol s)) f l ->
    sc_file s = Some f /\ sc_line s = Some l /\ sc_good s = true /\
    forall content sig, w_file w f = Some content -> declares content l (e_big e) sig -> sc_signature s = Some sig.
  Proof.
    intros T S D H I Es N St. pose proof (extracted_declared _ _ s T H I Es) as DC. destruct (extract_cases _ _ _ _ _ _ H) as [->|(vaddrs & found & located & H1 & H2 & H3 & H4)]; [contradiction|].
    apply filterM_Ok in H4 as [-> _]. apply filter_In in I as [I _]. rewrite T in H3. apply negb_true_iff in Es.
    destruct (annotated_placed _ _ _ _ _ _ _ _ ans dir kdir s f l S D H3 I Es N St) as (G1 & G2 & G3). repeat (split; [assumption|]).
    intros content sig W Dc. destruct (DC G3) as (f' & l' & c & E1 & E2 & E3 & E4). apply E4. replace f' with f in * by congruence. replace l' with l in * by congruence. now replace c with content by congruence.
  Qed.
  Lemma extracted_located have kdir s : v_annotate t = annotate w have (adjust_abi a e) e p kdir rdir kres ->
    extract_syscalls t a e v kdir = Ok r -> In s r -> sc_good s = true -> fit_names s -> well_located (w_file w) (adjust_abi a e) s.
  Proof.
    intros T H I G N. destruct (extract_cases _ _ _ _ _ _ H) as [->|(vaddrs & found & located & H1 & H2 & H3 & H4)]; [contradiction|].
    apply filterM_Ok in H4 as [-> _]. apply filter_In in I as [I _]. rewrite T in H3.
    exact (annotated_located _ _ _ _ _ _ _ _ _ _ _ (candidates_not_good _ _ _ _ _ _ H2) H3 I G N).
  Qed.
  (** No candidate that is located is dropped. *)
  Lemma extracted_kept ans dir kdir vaddrs found s f l : v_annotate t = annotate w true (adjust_abi a e) e p (Some kdir) rdir kres ->
    addr2line_says (w_addr2line w) ans -> parent_of p dir -> extract_syscalls t a e v (Some kdir) = Ok r -> a_bits32 a = e_bits32 e ->
    syscall_vaddrs t (adjust_abi a e) e = Ok vaddrs -> vaddrs <> [] -> M_Kernel.candidates (v_ni_order t) (adjust_abi a e) e v vaddrs = Ok found ->
    In s found -> of_table s = true -> fit_names s -> stands_at (w_file w) ans dir kdir rdir (adjust_abi a e) s (sym_real (sc_symbol s)) f l ->
    exists s', In s' r /\ same_syscall s s' /\ sc_file s' = Some f /\ sc_line s' = Some l.
  Proof.
    intros T S D H B V NE C I Es N St. unfold extract_syscalls in H. rewrite B, xorb_nilpotent in H. rewrite V in H. cbn [bind] in H. destruct vaddrs as [|x vaddrs]; [contradiction|].
    destruct (v_ni_order t (ni_functions e)) as [|y ys] eqn:No; [exfalso; unfold M_Kernel.candidates in C; rewrite No in C; injection C as <-; contradiction|]. rewrite C in H. cbn [bind] in H. apply bind_Ok in H as (located & H3 & H4). apply filterM_Ok in H4 as [-> K]. rewrite T in H3.
    pose proof (annotate_annotates _ _ _ _ _ _ _ _ _ _ H3) as Sm. apply In_nth_error in I as (i & I).
    assert (exists s', nth_error located i = Some s' /\ same_syscall s s') as (s' & I' & Q).
    { clear -Sm I. revert i I. induction Sm as [|x y l m H F IH]; intros [|i] E; cbn in E; try discriminate; [|apply (IH i E)]. injection E as ->. exists y. auto. }
    pose proof Q as (_ & _ & Q3 & Q4 & Q5 & _ & Q7). apply nth_error_In in I'. apply negb_true_iff in Es. rewrite Q7 in Es.
    assert (fit_names s') as N' by (unfold fit_names in *; now rewrite <- Q3, <- Q4).
    assert (stands_at (w_file w) ans dir kdir rdir (adjust_abi a e) s' (sym_real (sc_symbol s')) f l) as St' by (unfold stands_at in *; now rewrite <- Q3, <- Q4, <- Q5).
    destruct (annotated_placed _ _ _ _ _ _ _ _ ans dir kdir s' f l S D H3 I' Es N' St') as (G1 & G2 & G3). exists s'. split; [|auto].
    apply filter_In. split; [exact I'|]. unfold keep_located. rewrite Es, G3. reflexivity.
  Qed.
End Extracted.
