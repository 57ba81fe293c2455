(** Lemmas for C98: the whole extraction succeeds. *)
From Coq Require Import List Bool Ascii String ZArith Lia Permutation Sorted.
From Verif Require Import PyBase PyFacts Regex M_Utils M_Elf M_Syscall M_Arch M_Signature M_Location M_Annotate M_Kernel
  S_Elf S_Signature S_Kernel S_Location S_Declared S_Whole L_Utils L_ElfText L_Signature L_Signature2 L_Signature3 L_Kernel2 L_Kernel3 L_Kernel4 L_Kernel5 L_Kernel7 L_Kernel8 L_Location L_Location2 L_Location3
  L_Location4 L_Location5 L_Location6 L_Location7 L_Location8 L_Location9 L_Declared L_Declared2 L_Whole L_Sound P_Kernel.
Import ListNotations.
Open Scope Z_scope.
Open Scope list_scope.

Lemma signature_first content l big : signature_from_text content l big = signature_from_text content (Z.max 1 l) big.
Proof. unfold signature_from_text, skip_lines. replace (Z.to_nat (Z.max 1 l - 1)) with (Z.to_nat (l - 1)) by lia. reflexivity. Qed.
Lemma metadata_total e : metadata_fine e -> exists m, read_metadata e = Ok m.
Proof.
  intros [H|(rs & M & C)]; [unfold read_metadata; rewrite H; eauto|]. destruct (metadata_read e rs M C) as (d & E & _). eauto.
Qed.
Lemma mapM_total {A B} (f : A -> outcome B) l : (forall x, In x l -> exists y, f x = Ok y) -> exists r, mapM f l = Ok r.
Proof.
  induction l as [|x l IH]; intros H; cbn [mapM]; [eauto|]. destruct (H x (or_introl eq_refl)) as (y & ->). destruct IH as (r & ->); [intros z Z; apply H; now right|]. cbn. eauto.
Qed.
Lemma sign_total files big have meta s : (sc_esoteric s = false -> sc_good s = true -> have = true /\ exists f l content sig,
    sc_file s = Some f /\ sc_line s = Some l /\ files f = Some content /\ declares content (Z.max 1 l) big sig) ->
  exists s', sign files big have meta s = Ok s'.
Proof.
  intros H. unfold sign. destruct (sc_esoteric s); [eauto|]. destruct (sc_good s).
  - destruct (H eq_refl eq_refl) as (-> & f & l & content & sig & -> & -> & W & D). cbn [assert_ bind]. unfold syscall_signature_from_source. rewrite W, signature_first, (declares_text _ _ _ _ D). cbn. eauto.
  - destruct meta as [d|]; [|eauto]. destruct (dget str_eqb (sc_origname s) d); [eauto|]. destruct (dget str_eqb (sc_name s) d); eauto.
Qed.

Section Annotation.
  Context (w : world) (ans : Z -> answer) (a : arch) (e : elf) (p dir kdir : path) (rdir : option path) (kres : path) (out : list str).
  Hypothesis S : addr2line_says (w_addr2line w) ans.
  Hypothesis P : parent_of p dir.
  Hypothesis G : w_grep w = Ok out.
  Hypothesis H : Forall (honest_line (w_file w) kdir) out.
  Hypothesis Fi : answers_fit (w_file w) ans dir kdir rdir.
  Hypothesis De : definitions_fine (w_file w) ans dir kdir rdir out a (e_big e).
  Hypothesis M : metadata_fine e.

  Lemma annotate_total have scs : Forall fresh_syscall scs -> Forall fit_names scs ->
    Forall (fun s => steady_symbol (w_file w) ans dir kdir rdir (sc_symbol s)) scs ->
    exists r, annotate w have a e p (Some kdir) rdir kres scs = Ok r.
  Proof.
    intros Fr N St. unfold annotate. destruct (locations_total w ans have p dir kdir rdir a kres scs out S P G H Fi St) as (m & L). rewrite L. cbn [bind].
    assert (Forall (fun s => sc_good s = false) scs) as B by (revert Fr; apply Forall_impl; intros s Q; apply Q).
    unfold extract_syscall_signatures. destruct (metadata_total e M) as (meta & ->). cbn [bind]. apply mapM_total. intros s I. apply sign_total. intros Es Gd. split; [reflexivity|].
    pose proof (extract_found _ _ _ _ _ _ _ _ _ B L) as X. apply In_nth_error in I as (i & I). destruct (Forall2_nth_r _ _ _ _ _ X I) as (s0 & I0 & (Sm & W)).
    destruct (W Gd) as (f & l & content & text & E1 & E2 & E3 & T & D). exists f, l, content.
    assert (fit_names s) as (N1 & N2).
    { rewrite Forall_forall in N. specialize (N s0 (nth_error_In _ _ I0)). red in Sm. rewrite Sm. exact N. }
    assert (referred (w_file w) ans dir kdir rdir out f l) as R.
    { destruct have; [|injection L as <-; assert (s = s0) as -> by congruence; rewrite Forall_forall in B; rewrite (B s0 (nth_error_In _ _ I0)) in Gd; discriminate].
      destruct (sc_grepped s) eqn:Gp.
      - assert (Forall (fun s : syscall => sc_grepped s = false) scs) as B2 by (revert Fr; apply Forall_impl; intros z Q; apply Q).
        pose proof (extract_from w p kdir rdir a kres scs m out G H B2 L) as Y. rewrite Forall_forall in Y. destruct (Y s (nth_error_In _ _ I) Gp) as (f' & l' & Q1 & Q2 & line & Q3 & Q4). cbn in Q4.
        apply (ref_search _ _ _ _ _ _ _ _ line Q3). replace f with f' by congruence. replace l with l' by congruence. exact Q4.
      - pose proof (provenance w ans a p dir kdir rdir kres scs m S P B L) as Y. destruct (Forall2_nth_r _ _ _ _ _ Y I) as (s0' & _ & (_ & Q)). destruct (Q Gd Gp) as (v & f' & n & l' & c & ls & Q1 & Q2 & _ & Q4 & Q5 & Q6 & Q7).
        apply (ref_debug _ _ _ _ _ _ _ _ v n c ls); replace f with f' by congruence; [exact Q4|exact Q5|exact Q6|]. replace l with l' by congruence. exact Q7. }
    assert (exists sig, declares content (Z.max 1 l) (e_big e) sig) as (sig & Dc) by (destruct D as [D|D]; [apply (De f l content text (sc_origname s))|apply (De f l content text (sc_name s))]; assumption). exists sig. repeat (split; [assumption|]). exact Dc.
  Qed.
End Annotation.

(** * Candidates *)
Lemma candidates_fresh a e v ni_order vaddrs l : M_Kernel.candidates ni_order a e v vaddrs = Ok l -> Forall fresh_syscall l.
Proof.
  intros H. destruct (ni_order (ni_functions e)) as [|x y] eqn:Ne.
  { unfold M_Kernel.candidates in H. rewrite Ne in H. injection H as <-. constructor. }
  destruct (candidates_parts ni_order a e v vaddrs l) as (prefixes & eso & esl & ref & code & P); [rewrite Ne; discriminate|exact H|].
  apply Forall_forall. intros s I. rewrite (po_list _ _ _ _ _ _ _ _ _ _ _ P) in I. apply filter_In in I as [I _]. apply in_app_or in I as [I|I].
  - apply filter_In in I as [I _]. apply in_map_iff in I as ((i & z) & <- & I). repeat split.
  - pose proof (po_esl _ _ _ _ _ _ _ _ _ _ _ P) as F. clear -F I. induction F as [|x s' xs ss E F IH]; [destruct I|]. destruct I as [->|I]; [|auto].
    unfold make_esoteric in E. destruct x as ((((num & name) & sn) & sig) & kc). destruct (dget str_eqb sn (e_symbols e)); [|discriminate]. injection E as <-. repeat split.
Qed.
Lemma candidates_symbols a e v ni_order vaddrs l : (forall l, Permutation (ni_order l) l) -> M_Kernel.candidates ni_order a e v vaddrs = Ok l ->
  Forall (fun s => In (sc_symbol s) (map snd (e_symbols e))) l.
Proof.
  intros Hp H. destruct (ni_order (ni_functions e)) as [|x y] eqn:Ne.
  { unfold M_Kernel.candidates in H. rewrite Ne in H. injection H as <-. constructor. }
  destruct (candidates_parts ni_order a e v vaddrs l) as (prefixes & eso & esl & ref & code & P); [rewrite Ne; discriminate|exact H|].
  apply Forall_forall. intros s I. rewrite (po_list _ _ _ _ _ _ _ _ _ _ _ P) in I. apply filter_In in I as [I _]. apply in_app_or in I as [I|I].
  - apply filter_In in I as [I _]. apply in_map_iff in I as ((i & z) & <- & I). apply filter_In in I as [I J]. cbn [snd] in J. apply resolve_In in I as (v' & Iv & D).
    pose proof (chosen_cases a e _ vaddrs v' (Hp (ni_functions e)) (in_map snd _ _ Iv)) as C. rewrite D in C. destruct C as [(_ & C)|((C & _) & _)]; [|exact C].
    apply negb_true_iff in J. apply sym_in_iff in C. congruence.
  - pose proof (po_esl _ _ _ _ _ _ _ _ _ _ _ P) as F. clear -F I. induction F as [|x s' xs ss E F IH]; [destruct I|]. destruct I as [->|I]; [|auto].
    unfold make_esoteric in E. destruct x as ((((num & name) & sn) & sig) & kc). destruct (dget str_eqb sn (e_symbols e)) as [sy|] eqn:D; [|discriminate]. injection E as <-. cbn.
    apply in_map_iff. exists (sn, sy). split; [reflexivity|]. apply (dget_In str_eqb str_eqb_eq _ _ _ D).
Qed.

(** * The whole extraction *)
Lemma enum_In {A} (l : list A) : forall i j x, In (j, x) (enum_from i l) -> In x l.
Proof. induction l as [|y l IH]; intros i j x H; cbn in H; [contradiction|]. destruct H as [H|H]; [injection H as _ ->; now left|right; now apply (IH _ _ _ H)]. Qed.
Lemma In_enum {A} (l : list A) : forall i x, In x l -> exists j, In (j, x) (enum_from i l).
Proof. induction l as [|y l IH]; intros i x H; cbn; [contradiction|]. destruct H as [->|H]; [exists i; now left|destruct (IH (i + 1) x H) as (j & J); exists j; now right]. Qed.
Lemma snd_enum {A} (l : list A) : forall i, map snd (enum_from i l) = l.
Proof. induction l as [|x l IH]; intros i; cbn; [reflexivity|]. now rewrite IH. Qed.
Lemma table_of_vaddrs t a e name ps : a_table a = Some name -> table_of a e name ps -> syscall_vaddrs t a e = Ok (enum_from 0 ps).
Proof.
  intros N T. unfold syscall_vaddrs. rewrite N. destruct T as [tbl text ps A B C D|tbl text p ps A B C D E|tbl text opd p ds vs A B C D E F G H I].
  - exact (C21_without_descriptors a e name tbl text A B ps C D).
  - exact (C21_direct a e name tbl text A B p ps C D E).
  - exact (C21_descriptors a e name tbl text A B p opd ds vs C D E F G H I).
Qed.

Section Whole.
  Context (t : env) (a : arch) (e : elf) (v : version) (vaddrs : list (Z * Z)).
  Let b := adjust_abi a e.
  Hypothesis Hp : forall l, Permutation (v_ni_order t l) l.
  Hypothesis V : syscall_vaddrs t b e = Ok vaddrs.
  Hypothesis So : sound_input b e (map snd vaddrs).
  Hypothesis Im : exists i v', In (i, v') vaddrs /\ has_symbol e v' /\ ~ not_implemented e v'.
  Hypothesis Al : forall i v', In (i, v') vaddrs -> has_symbol e v' \/ not_implemented e v'.

  Lemma candidates_some : exists found, M_Kernel.candidates (v_ni_order t) b e v vaddrs = Ok found.
  Proof.
    destruct (ni_functions e) as [|f fs] eqn:E.
    - exists []. unfold M_Kernel.candidates. rewrite E. specialize (Hp []). apply Permutation_sym, Permutation_nil in Hp. now rewrite Hp.
    - apply sound_candidates; [exact Hp| |now apply sound_input_for|exact Im|exact Al]. destruct Im as (i & v' & _). exists (sym_vaddr f). exists f. apply ni_functions_iff. rewrite E. now left.
  Qed.
  Lemma extract_total kdir : (forall found, M_Kernel.candidates (v_ni_order t) b e v vaddrs = Ok found -> exists r, v_annotate t found = Ok r) ->
    exists r, extract_syscalls t a e v kdir = Ok r.
  Proof.
    intros An. unfold extract_syscalls. destruct (xorb _ _); [eauto|]. cbv zeta. fold b. rewrite V. cbn [bind]. destruct vaddrs as [|x xs] eqn:Ev; [eauto|]. rewrite <- Ev in *. destruct (v_ni_order t (ni_functions e)) as [|y ys]; [eauto|].
    destruct candidates_some as (found & C). rewrite C. cbn [bind]. destruct (An found C) as (located & ->). cbn [bind]. eexists. apply filterM_total. intros s _. unfold keep_located.
    destruct (_ && _); [|eauto]. destruct (sc_file s) as [f|]; [|eauto]. destruct (maybe_rel_total f kdir) as (q & ->). cbn. eauto.
  Qed.
End Whole.

Lemma whole_total t a e v vaddrs w have p rdir kres ans dir kdir out : v_annotate t = annotate w have (adjust_abi a e) e p (Some kdir) rdir kres ->
  (forall l, Permutation (v_ni_order t l) l) -> syscall_vaddrs t (adjust_abi a e) e = Ok vaddrs -> sound_input (adjust_abi a e) e (map snd vaddrs) ->
  (exists i v', In (i, v') vaddrs /\ has_symbol e v' /\ ~ not_implemented e v') ->
  (forall i v', In (i, v') vaddrs -> has_symbol e v' \/ not_implemented e v') ->
  addr2line_says (w_addr2line w) ans -> parent_of p dir -> w_grep w = Ok out -> Forall (honest_line (w_file w) kdir) out ->
  answers_fit (w_file w) ans dir kdir rdir -> definitions_fine (w_file w) ans dir kdir rdir out (adjust_abi a e) (e_big e) -> metadata_fine e ->
  (forall s, In s (map snd (e_symbols e)) -> steady_symbol (w_file w) ans dir kdir rdir s) ->
  (forall found, M_Kernel.candidates (v_ni_order t) (adjust_abi a e) e v vaddrs = Ok found -> Forall fit_names found) ->
  exists r, extract_syscalls t a e v (Some kdir) = Ok r.
Proof.
  intros T Hp V So Im Al S P G H Fi De M St N. apply (extract_total t a e v vaddrs Hp V So Im Al). intros found C. rewrite T.
  apply (annotate_total w ans (adjust_abi a e) e p dir kdir rdir kres out S P G H Fi De M have found (candidates_fresh _ _ _ _ _ _ C) (N found C)).
  pose proof (candidates_symbols _ _ _ _ _ _ Hp C) as Sy. revert Sy. apply Forall_impl. intros s I. now apply St.
Qed.
Lemma table_total t a e v name ps w have p rdir kres ans dir kdir out : v_annotate t = annotate w have (adjust_abi a e) e p (Some kdir) rdir kres ->
  (forall l, Permutation (v_ni_order t l) l) -> a_table (adjust_abi a e) = Some name -> table_of (adjust_abi a e) e name ps -> sound_input (adjust_abi a e) e ps ->
  (exists v', In v' ps /\ has_symbol e v' /\ ~ not_implemented e v') ->
  (forall v', In v' ps -> has_symbol e v' \/ not_implemented e v') ->
  addr2line_says (w_addr2line w) ans -> parent_of p dir -> w_grep w = Ok out -> Forall (honest_line (w_file w) kdir) out ->
  answers_fit (w_file w) ans dir kdir rdir -> definitions_fine (w_file w) ans dir kdir rdir out (adjust_abi a e) (e_big e) -> metadata_fine e ->
  (forall s, In s (map snd (e_symbols e)) -> steady_symbol (w_file w) ans dir kdir rdir s) ->
  (forall found, M_Kernel.candidates (v_ni_order t) (adjust_abi a e) e v (enum_from 0 ps) = Ok found -> Forall fit_names found) ->
  exists r, extract_syscalls t a e v (Some kdir) = Ok r.
Proof.
  intros T Hp A Tb So (v' & I & Im) Al S P G H Fi De M St N. pose proof (table_of_vaddrs t _ e name ps A Tb) as V.
  apply (whole_total t a e v (enum_from 0 ps) w have p rdir kres ans dir kdir out); try assumption.
  - now rewrite snd_enum.
  - destruct (In_enum ps 0 v' I) as (j & J). exists j, v'. auto.
  - intros i u U. apply Al. now apply (enum_In ps 0 i).

Qed.
(** Without sources. *)
Lemma sourceless_total t a e v vaddrs w have p rdir kres ans : v_annotate t = annotate w have (adjust_abi a e) e p None rdir kres ->
  (forall l, Permutation (v_ni_order t l) l) -> syscall_vaddrs t (adjust_abi a e) e = Ok vaddrs -> sound_input (adjust_abi a e) e (map snd vaddrs) ->
  (exists i v', In (i, v') vaddrs /\ has_symbol e v' /\ ~ not_implemented e v') ->
  (forall i v', In (i, v') vaddrs -> has_symbol e v' \/ not_implemented e v') ->
  addr2line_says (w_addr2line w) ans -> metadata_fine e ->
  exists r, extract_syscalls t a e v None = Ok r.
Proof.
  intros T Hp V So Im Al S M. apply (extract_total t a e v vaddrs Hp V So Im Al). intros found C. rewrite T. unfold annotate.
  assert (exists m, extract_syscall_locations w have (adjust_abi a e) p None rdir kres found = Ok m /\ Forall (fun s => sc_good s = false) m) as (m & -> & B).
  { destruct have.
    - destruct (no_sources_paired w ans (adjust_abi a e) p rdir kres found S) as (m & L & F). exists m. split; [exact L|]. clear -F. induction F as [|x y l m (_ & _ & H) F IH]; constructor; assumption.
    - exists found. split; [reflexivity|]. exact (candidates_not_good _ _ _ _ _ _ C). }
  cbn [bind]. unfold extract_syscall_signatures. destruct (metadata_total e M) as (meta & ->). cbn [bind]. apply mapM_total. intros s I. apply sign_total. intros _ Gd. rewrite Forall_forall in B. rewrite (B s I) in Gd. discriminate.
Qed.
