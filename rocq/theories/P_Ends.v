(** Property C99: when the analysis ends. *)
From Coq Require Import List Bool Ascii String ZArith Lia Permutation.
From Verif Require Import PyBase PyFacts M_Utils M_Elf S_Elf M_Syscall M_Arch M_Emu M_Kconfig M_Kernel S_Kernel M_Location M_Annotate
  S_Build S_Signature S_Location S_Declared S_Ends L_Location L_Ends P_Kernel P_Declared P_Whole.
Import ListNotations.
Open Scope Z_scope.
Open Scope list_scope.

(** The loops of the analysis (decoding, emulation, tables, lines of a file, going up or searching)
    all end. It only goes on for ever for one of the reasons in [hang], or if nothing at all was found
    and addr2line waits when it is given no address. *)
Theorem C99_ends : forall t a e v w have p rdir kdir kres,
  v_annotate t = annotate w have (adjust_abi a e) e p kdir rdir kres ->
  (forall l, Permutation (v_ni_order t l) l) ->
  (forall vaddrs found, syscall_vaddrs t (adjust_abi a e) e = Ok vaddrs -> v_ni_order t (ni_functions e) <> [] -> candidates (v_ni_order t) (adjust_abi a e) e v vaddrs = Ok found ->
    Forall fit_names found /\ (found = [] -> w_addr2line w [] <> Diverge)) ->
  ~ hang w (adjust_abi a e) e kdir -> extract_syscalls t a e v kdir <> Diverge.
Proof. exact extraction_ends. Qed.
Print Assumptions C99_ends.

(** Without sources and without recorded metadata only addr2line is left. *)
Theorem C99_bare_image : forall t a e v w have p rdir kres,
  v_annotate t = annotate w have (adjust_abi a e) e p None rdir kres ->
  (forall l, Permutation (v_ni_order t l) l) ->
  (forall vaddrs found, syscall_vaddrs t (adjust_abi a e) e = Ok vaddrs -> v_ni_order t (ni_functions e) <> [] -> candidates (v_ni_order t) (adjust_abi a e) e v vaddrs = Ok found ->
    Forall fit_names found /\ (found = [] -> w_addr2line w [] <> Diverge)) ->
  dget str_eqb $"__start_syscalls_metadata" (e_symbols e) = None -> (forall addrs, addrs <> [] -> w_addr2line w addrs <> Diverge) ->
  extract_syscalls t a e v None <> Diverge.
Proof. exact bare_ends. Qed.
Print Assumptions C99_bare_image.

(** The example of C97, with the body opened on the line of the definition, as an ill-kept driver
    might: nothing is wrong with the image, but the analysis does not end. *)
Definition ex_open_c : str := unlines [$"#include <linux/syscalls.h>"; []; $"SYSCALL_DEFINE0(fork) /* never */"; $"{"; $"	return 0;"; $"}"].
Definition ex_open_w : world :=
  World (fun p => if str_eqb (str_of_path p) $"/k/kernel/fork.c" then Some ex_open_c else None)
    (fun l => Ok (unlines (map (fun v => answer_text (if v =? 4112 then At $"/k/kernel/fork.c" 5 else Nowhere)) l))) (Ok []).
Definition ex_open_t : env := Env (v_decode ex_env) (v_same ex_env) (v_insn_order ex_env) (v_ni_order ex_env)
  (annotate ex_open_w true ex_fork_a ex_fork_e (path_of_str $"/b/vmlinux") (Some (path_of_str $"/k")) None (path_of_str $"/k")).
Lemma ex_open_hangs : extract_syscalls ex_open_t ex_a ex_fork_e [5;10] (Some (path_of_str $"/k")) = Diverge.
Proof. vm_compute. reflexivity. Qed.
Theorem C99_always_refuted : exists t a e v kdir, extract_syscalls t a e v kdir = Diverge.
Proof. eexists _, _, _, _, _. exact ex_open_hangs. Qed.
Print Assumptions C99_always_refuted.

(** Its reason is one of the reasons listed. *)
Example C99_example_hang : hang ex_open_w ex_fork_a ex_fork_e (Some (path_of_str $"/k")).
Proof.
  apply (hang_source _ _ _ _ ex_fork_f 3 ex_open_c $"fork" ($"SYSCALL_DEFINE0(fork) /* never */" ++ [NL])); [discriminate|reflexivity| | |].
  - exists (lines_keep ex_open_c). split; [apply lines_of_ex|]. vm_compute. reflexivity.
  - apply L_Location2.accepts_defines; [split; [discriminate|reflexivity]|]. apply def_new. exists [], [], "0"%char, [], ($") /* never */" ++ [NL]). split; [vm_compute; reflexivity|]. split; [now left|]. repeat split; vm_compute; reflexivity.
  - exists (M_Build.universal ex_open_c), (lines_keep (M_Build.universal ex_open_c)). split; [apply reads_universal|]. split; [apply lines_of_ex|]. split; [vm_compute; discriminate|].
    intros x I C. apply L_Signature2.closes_strip in C. vm_compute in I. repeat destruct I as [<-|I]; try contradiction; vm_compute in C; discriminate.
Qed.
(** And C97's own example has none. *)
Example C99_example_none : ~ hang ex_fork_w ex_fork_a ex_fork_e (Some (path_of_str $"/k")).
Proof.
  intros [addrs _ D|s _ _ _ D|_ D|start v D U|f l content name text _ W T D U]; [discriminate D|discriminate D|discriminate D|vm_compute in D; discriminate D|].
  cbn [w_file ex_fork_w] in W. destruct (str_eqb _ _); [|discriminate]. injection W as <-.
  apply L_Location2.accepts_starts in D as (c & r & -> & D). destruct T as (ls & L & T). apply lines_of_keep in L as <-. destruct U as (t & ls & R & L & _ & U).
  apply reads_as_universal in R as ->. apply lines_of_keep in L as <-. remember (Z.to_nat (l - 1)) as i eqn:I. clear I l.
  assert (nth_error (lines_keep ex_fork_c) i <> None) as B by congruence. apply nth_error_Some in B. change (List.length (lines_keep ex_fork_c)) with 7%nat in B.
  destruct (Nat.eq_dec i 2) as [->|Ne].
  - apply (U (ex_fork_l2 ++ [NL])); [vm_compute; auto|]. apply L_Signature2.closes_strip. vm_compute. reflexivity.
  - do 7 (destruct i as [|i]; [exfalso; vm_compute in T; injection T as <- _; cbn in D; repeat destruct D as [D|D]; discriminate || contradiction || lia|]). lia.
Qed.
Example C99_example : extract_syscalls ex_fork_t ex_a ex_fork_e [5;10] (Some (path_of_str $"/k")) <> Diverge.
Proof.
  apply (C99_ends ex_fork_t ex_a ex_fork_e [5;10] ex_fork_w true (path_of_str $"/b/vmlinux") None (Some (path_of_str $"/k")) (path_of_str $"/k")); [reflexivity|intros l; apply Permutation_refl| |exact C99_example_none].
  intros vaddrs found V _ C. split; [|intros _; discriminate]. vm_compute in V. injection V as <-. revert C. apply C98_example_names.
Qed.
