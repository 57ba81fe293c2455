(** Property C97: locations and signatures of the result are those of the sources. *)
From Coq Require Import List Bool Ascii String ZArith Lia Permutation.
From Verif Require Import PyBase PyFacts M_Utils M_Elf S_Elf M_Syscall M_Arch M_Emu M_Kconfig M_Kernel S_Kernel M_Location M_Annotate
  S_Build S_Signature S_Location S_Declared L_Declared2 P_Kernel.
Import ListNotations.
Open Scope Z_scope.
Open Scope list_scope.

(** A syscall of the result whose first address is, according to the debug information, in a
    definition of it: that definition is its location, and its signature is what is declared there. *)
Theorem C97_placed : forall t a e v w p rdir kres r ans dir kdir s f l,
  v_annotate t = annotate w true (adjust_abi a e) e p (Some kdir) rdir kres ->
  addr2line_says (w_addr2line w) ans -> parent_of p dir -> extract_syscalls t a e v (Some kdir) = Ok r ->
  In s r -> of_table s = true -> fit_names s ->
  stands_at (w_file w) ans dir kdir rdir (adjust_abi a e) s (sym_real (sc_symbol s)) f l ->
  sc_file s = Some f /\ sc_line s = Some l /\ sc_good s = true /\
  forall content sig, w_file w f = Some content -> declares content l (e_big e) sig -> sc_signature s = Some sig.
Proof. exact extracted_placed. Qed.
Print Assumptions C97_placed.

(** Such a syscall is never dropped. *)
Theorem C97_kept : forall t a e v w p rdir kres r ans dir kdir vaddrs found s f l,
  v_annotate t = annotate w true (adjust_abi a e) e p (Some kdir) rdir kres ->
  addr2line_says (w_addr2line w) ans -> parent_of p dir -> extract_syscalls t a e v (Some kdir) = Ok r -> a_bits32 a = e_bits32 e ->
  syscall_vaddrs t (adjust_abi a e) e = Ok vaddrs -> vaddrs <> [] ->
  candidates (v_ni_order t) (adjust_abi a e) e v vaddrs = Ok found ->
  In s found -> of_table s = true -> fit_names s ->
  stands_at (w_file w) ans dir kdir rdir (adjust_abi a e) s (sym_real (sc_symbol s)) f l ->
  exists s', In s' r /\ same_syscall s s' /\ sc_file s' = Some f /\ sc_line s' = Some l.
Proof. exact extracted_kept. Qed.
Print Assumptions C97_kept.

(** However a location was found: if it is marked good, it is a definition of the syscall ... *)
Theorem C97_located : forall t a e v w p rdir kres r have kdir s,
  v_annotate t = annotate w have (adjust_abi a e) e p kdir rdir kres ->
  extract_syscalls t a e v kdir = Ok r -> In s r -> sc_good s = true -> fit_names s ->
  well_located (w_file w) (adjust_abi a e) s.
Proof. exact extracted_located. Qed.
Print Assumptions C97_located.

(** ... with a name as it is, if the names are words. *)
Theorem C97_words : forall t a e v w p rdir kres r have kdir s,
  v_annotate t = annotate w have (adjust_abi a e) e p kdir rdir kres ->
  extract_syscalls t a e v kdir = Ok r -> In s r -> sc_good s = true -> word_names s ->
  exists f l content text, sc_file s = Some f /\ sc_line s = Some l /\ w_file w f = Some content /\ line_text content l text /\
    (defines (adjust_abi a e) (sc_origname s) text \/ defines (adjust_abi a e) (sc_name s) text).
Proof.
  intros t a e v w p rdir kres r have kdir s An X I G N.
  destruct (C97_located t a e v w p rdir kres r have kdir s An X I G (L_Location2.word_fit s N)) as (f & l & content & text & F & L & W & T & D).
  exists f, l, content, text. repeat split; auto. destruct N as [N N']. destruct D as [D|D]; [left|right]; now apply L_Location2.accepts_defines in D.
Qed.
Print Assumptions C97_words.

(** ... and the signature is what is declared there. *)
Theorem C97_declared : forall t a e v w p rdir kres r have kdir s,
  v_annotate t = annotate w have (adjust_abi a e) e p kdir rdir kres ->
  extract_syscalls t a e v kdir = Ok r -> In s r -> of_table s = true -> sc_good s = true ->
  exists f l content, sc_file s = Some f /\ sc_line s = Some l /\ w_file w f = Some content /\
    forall sig, declares content l (e_big e) sig -> sc_signature s = Some sig.
Proof. exact extracted_declared. Qed.
Print Assumptions C97_declared.

(** An image with one syscall, debug information that names a line of its body, and the source. *)
Definition ex_fork_e : elf := from_ok (elf_open (ex_header ++ ex_code ++ ex_words [4112; 4096; 0]) ex_sections (unlines
  [ex_line "0000000000002000" "0" "OBJECT" "sys_call_table";
   ex_line "0000000000001000" "16" "FUNC" "sys_ni_syscall";
   ex_line "0000000000001010" "16" "FUNC" "stub_fork";
   ex_line "0000000000002100" "0" "OBJECT" "after_table"])) ex_e.
Definition ex_fork_l1 : str := $"SYSCALL_DEFINE2(fork, int, flags,".
Definition ex_fork_l2 : str := $"		char __user *, p)".
Definition ex_fork_c : str := unlines [$"#include <linux/syscalls.h>"; []; ex_fork_l1; ex_fork_l2] ++ unlines [$"{"; $"	return 0;"; $"}"].
Definition ex_fork_f : path := path_of_str $"/k/kernel/fork.c".
Definition ex_fork_ans (v : Z) : answer := if v =? 4112 then At $"/k/kernel/fork.c" 6 else Nowhere.
Definition ex_fork_w : world :=
  World (fun p => if str_eqb (str_of_path p) $"/k/kernel/fork.c" then Some ex_fork_c else None)
    (fun l => Ok (unlines (map (fun v => answer_text (ex_fork_ans v)) l))) (Ok []).
Definition ex_fork_t : env := Env (v_decode ex_env) (v_same ex_env) (v_insn_order ex_env) (v_ni_order ex_env)
  (annotate ex_fork_w true (adjust_abi ex_a ex_fork_e) ex_fork_e (path_of_str $"/b/vmlinux") (Some (path_of_str $"/k")) None (path_of_str $"/k")).
Example C97_example : exists s, extract_syscalls ex_fork_t ex_a ex_fork_e [5;10] (Some (path_of_str $"/k")) = Ok [s] /\
  sc_name s = $"fork" /\ of_table s = true /\ sym_real (sc_symbol s) = 4112 /\ sc_file s = Some ex_fork_f /\ sc_line s = Some 3 /\
  sc_signature s = Some [$"int flags"; $"char *p"] /\ fit_names s /\
  stands_at (w_file ex_fork_w) ex_fork_ans (path_of_str $"/b") (path_of_str $"/k") None (adjust_abi ex_a ex_fork_e) s 4112 ex_fork_f 3.
Proof.
  eexists. split; [vm_compute; reflexivity|]. do 6 (split; [vm_compute; reflexivity|]). split; [apply L_Location2.word_fit; split; (split; [vm_compute; discriminate|vm_compute; reflexivity])|].
  exists 6, ex_fork_c, (lines_keep ex_fork_c), (ex_fork_l1 ++ [NL]). 
  split; [apply (po _ _ _ _ _ ex_fork_f); [apply moved_other; intros t H; discriminate|apply rm_absolute; [exact I|discriminate]]|].
  split; [reflexivity|]. split; [apply L_Location.lines_of_ex|]. split; [|split; [vm_compute; reflexivity|]].
  - assert (w_file ex_fork_w ex_fork_f = Some ex_fork_c) as W by reflexivity.
    apply (L_Location.adjust_line_spec ex_fork_w ex_fork_f ex_fork_c (lines_keep ex_fork_c) 6 W (L_Location.lines_of_ex _)); [vm_compute; discriminate|vm_compute; reflexivity].
  - left. apply L_Location2.accepts_defines; [split; [vm_compute; discriminate|vm_compute; reflexivity]|]. apply def_new. exists [], [], "2"%char, [], ($", int, flags," ++ [NL]). repeat split; left; reflexivity.
Qed.
Example C97_example_says : addr2line_says (w_addr2line ex_fork_w) ex_fork_ans /\ parent_of (path_of_str $"/b/vmlinux") (path_of_str $"/b").
Proof.
  split; [|now exists $"vmlinux"]. split; [|reflexivity]. intros v. unfold ex_fork_ans. destruct (v =? 4112); [|exact I]. cbn.
  repeat split; try lia; try discriminate; try (now apply L_Location6.row_literal); intros H; repeat destruct H as [H|H]; try discriminate; contradiction.
Qed.
Lemma tidy_ok f : negb (str_eqb f []) && forallb (fun c => negb (is_space c) || Ascii.eqb c SP) f && negb (contains f [SP; SP]) &&
  negb (startswith f [SP]) && negb (endswith f [SP]) && forallb (fun c => negb (Ascii.eqb c COMMA)) f &&
  negb (contains (SP :: f) $" __user") && negb (contains f $"* *") = true -> tidy f.
Proof.
  rewrite !andb_true_iff, !negb_true_iff. intros (((((((H1 & H2) & H3) & H4) & H5) & H6) & H7) & H8). rewrite contains_false in H3, H7, H8. rewrite forallb_forall in H2, H6.
  split; [intros ->; discriminate|]. split; [intros c I Sp; specialize (H2 c I); rewrite Sp in H2; now apply Ascii.eqb_eq|]. split; [intros x y E; exact (H3 _ _ E)|].
  split; [intros x ->; discriminate|]. split; [intros x E; rewrite E, (proj2 (endswith_iff (x ++ [SP]) [SP])) in H5; [discriminate|eauto]|].
  split; [intros I; specialize (H6 _ I); discriminate|]. split; [intros x y E; exact (H7 _ _ E)|intros x y E; exact (H8 _ _ E)].
Qed.
Example C97_example_declares : declares ex_fork_c 3 false [$"int flags"; $"char *p"].
Proof.
  apply (declares_macro ex_fork_c 3 false $"SYSCALL_DEFINE" $"fork" [Param $"int" $"flags"; Param $"char *" $"p"] $"SYSCALL_DEFINE2(fork, int, flags,char __user *, p)"
    [$"#include <linux/syscalls.h>"; []] [ex_fork_l1; ex_fork_l2] (unlines [$"{"; $"	return 0;"; $"}"])).
  - split; [left; reflexivity|]. split; [split; [discriminate|reflexivity]|]. exists [], [], []. repeat (split; [reflexivity|]).
    exists $" int, flags,char *, p", $" int, flags,char __user *, p". split; [reflexivity|]. split.
    + apply (listed_cons $"int" _ [SP] []); [right; reflexivity|left; reflexivity|].
      apply (listed_cons $"flags" _ [SP] []); [right; reflexivity|left; reflexivity|].
      apply (listed_cons $"char *" _ [] []); [left; reflexivity|left; reflexivity|].
      apply (listed_one $"p" [SP] []); [right; reflexivity|left; reflexivity].
    + apply (sp_blank [SP]); [apply gap_one; reflexivity|]. do 4 (apply sp_char; [reflexivity|]). apply (sp_blank [SP]); [apply gap_one; reflexivity|].
      do 10 (apply sp_char; [reflexivity|]). apply sp_user; [reflexivity|]. apply (sp_blank [SP]); [apply gap_one; reflexivity|].
      do 2 (apply sp_char; [reflexivity|]). apply (sp_blank [SP]); [apply gap_one; reflexivity|]. apply sp_char; [reflexivity|]. apply sp_nil.
  - vm_compute. discriminate.
  - repeat constructor; try (apply tidy_ok; vm_compute; reflexivity); intros H; cbn in H; repeat destruct H as [H|H]; try discriminate; contradiction.
  - apply (broken_more $"SYSCALL_DEFINE2(fork, int, flags" [] [] $"char __user *, p)" [ex_fork_l2]); [reflexivity|reflexivity|intros c x H; injection H as <- _; reflexivity|].
    apply (broken_last $"char __user *, p" $"		" []); [reflexivity|reflexivity|intros c x H; injection H as <- _; reflexivity].
  - repeat constructor; intros H; cbn in H; repeat destruct H as [H|H]; try discriminate; contradiction.
  - intros H; cbn in H; repeat destruct H as [H|H]; try discriminate; contradiction.
  - reflexivity.
  - reflexivity.
Qed.
