(** Property C101: addr2line is not run without an address. *)
From Coq Require Import List Bool Ascii String ZArith Lia Permutation.
From Verif Require Import PyBase PyFacts M_Utils M_Elf S_Elf M_Syscall M_Arch M_Emu M_Kconfig M_Kernel S_Kernel M_Location M_Annotate
  S_Build S_Signature S_Location S_Declared S_Whole S_Blind S_Ends L_Location L_Blind L_Ends P_Kernel P_Declared P_Whole P_Ends.
Import ListNotations.
Open Scope Z_scope.
Open Scope list_scope.

(** If there is a syscall and, when sources are given, no symbol of three bytes, then what addr2line
    does without addresses does not matter. *)
Theorem C101_not_run : forall w w' have a elf kdir rdir kres scs, same_but_idle w w' -> scs <> [] ->
  (kdir <> None -> Forall (fun s => ~ no_inner (sc_symbol s)) scs) ->
  extract_syscall_locations w have a elf kdir rdir kres scs = extract_syscall_locations w' have a elf kdir rdir kres scs.
Proof. exact locations_idle. Qed.
Print Assumptions C101_not_run.

(** Without any syscall it is run, and the program waits with it. *)
Theorem C101_no_syscall : forall w a elf kdir rdir kres, w_addr2line w [] = Diverge ->
  extract_syscall_locations w true a elf kdir rdir kres [] = Diverge.
Proof. exact locations_empty. Qed.
Print Assumptions C101_no_syscall.

(** An image like C97's with one more syscall, whose function has three bytes and no debug
    information. *)
Definition ex_short_lines : list str :=
  [ex_line "0000000000002000" "0" "OBJECT" "sys_call_table"; ex_line "0000000000001000" "16" "FUNC" "sys_ni_syscall";
   ex_line "0000000000001010" "16" "FUNC" "stub_fork"; ex_line "0000000000001020" "3" "FUNC" "sys_pause"; ex_line "0000000000002100" "0" "OBJECT" "after_table"].
Definition ex_short_e : elf :=
  match elf_open (ex_header ++ ex_code ++ ex_words [4112; 4128; 4096; 0]) ex_sections (unlines ex_short_lines) with Ok e => e | _ => ex_fork_e end.
Definition ex_short_w (idle : outcome str) : world :=
  World (w_file ex_fork_w) (fun l => match l with [] => idle | _ => w_addr2line ex_fork_w l end) (Ok []).
Definition ex_short_t (idle : outcome str) : env := Env (v_decode ex_env) (v_same ex_env) (v_insn_order ex_env) (v_ni_order ex_env)
  (annotate (ex_short_w idle) true (adjust_abi ex_a ex_short_e) ex_short_e (path_of_str $"/b/vmlinux") (Some (path_of_str $"/k")) None (path_of_str $"/k")).
Lemma ex_short_open : elf_open (ex_header ++ ex_code ++ ex_words [4112; 4128; 4096; 0]) ex_sections (unlines ex_short_lines) = Ok ex_short_e.
Proof. vm_compute. reflexivity. Qed.
Lemma ex_short_hangs : extract_syscalls (ex_short_t Diverge) ex_a ex_short_e [5;10] (Some (path_of_str $"/k")) = Diverge.
Proof. vm_compute. reflexivity. Qed.
Lemma ex_short_goes_on : exists l, extract_syscalls (ex_short_t (Ok [])) ex_a ex_short_e [5;10] (Some (path_of_str $"/k")) = Ok l /\ map sc_name l = [$"fork"; $"sys_pause"].
Proof. eexists. split; [vm_compute; reflexivity|vm_compute; reflexivity]. Qed.
(** addr2line answers for every address, the search ends, the image is not broken: but the analysis
    waits. *)
Theorem C101_always_refuted : exists t t' w w' have a e v p kdir kres ans r,
  v_annotate t = annotate w have (adjust_abi a e) e p (Some kdir) None kres /\
  v_annotate t' = annotate w' have (adjust_abi a e) e p (Some kdir) None kres /\
  same_but_idle w w' /\ addr2line_says (w_addr2line w') ans /\ w_grep w = Ok [] /\
  extract_syscalls t' a e v (Some kdir) = Ok r /\ r <> [] /\ extract_syscalls t a e v (Some kdir) = Diverge.
Proof.
  destruct ex_short_goes_on as (r & R & N). exists (ex_short_t Diverge), (ex_short_t (Ok [])), (ex_short_w Diverge), (ex_short_w (Ok [])), true, ex_a, ex_short_e, [5;10],
    (path_of_str $"/b/vmlinux"), (path_of_str $"/k"), (path_of_str $"/k"), ex_fork_ans, r.
  split; [reflexivity|]. split; [reflexivity|]. split; [split; [reflexivity|]; split; [reflexivity|]; intros [|x l] E; [congruence|reflexivity]|].
  split; [split; [apply C97_example_says|]; intros [|x l]; reflexivity|]. split; [reflexivity|]. split; [exact R|]. split; [|exact ex_short_hangs]. intros ->. discriminate N.
Qed.
Print Assumptions C101_always_refuted.
(** The reason is the one listed. *)
Example C101_example_reason : hang (ex_short_w Diverge) (adjust_abi ex_a ex_short_e) ex_short_e (Some (path_of_str $"/k")).
Proof.
  apply (hang_idle _ _ _ _ (Symbol 4128 4128 3 $"FUNC" $"sys_pause")); [discriminate|vm_compute; auto 10|reflexivity|reflexivity].
Qed.

(** The whole analysis of sound input succeeds even on a terminal if there is no such symbol. *)
Theorem C101_succeeds : forall t a e v vaddrs w have p rdir kres ans dir kdir out,
  v_annotate t = annotate w have (adjust_abi a e) e p (Some kdir) rdir kres ->
  (forall l, Permutation (v_ni_order t l) l) -> syscall_vaddrs t (adjust_abi a e) e = Ok vaddrs -> sound_input (adjust_abi a e) e (map snd vaddrs) ->
  (exists i v', In (i, v') vaddrs /\ has_symbol e v' /\ ~ not_implemented e v') ->
  (forall i v', In (i, v') vaddrs -> has_symbol e v' \/ not_implemented e v') ->
  addr2line_answers (w_addr2line w) ans -> parent_of p dir -> w_grep w = Ok out -> Forall (honest_line (w_file w) kdir) out ->
  answers_fit (w_file w) ans dir kdir rdir -> definitions_fine (w_file w) ans dir kdir rdir out (adjust_abi a e) (e_big e) -> metadata_fine e ->
  (forall s, In s (map snd (e_symbols e)) -> steady_symbol (w_file w) ans dir kdir rdir s /\ ~ no_inner s) ->
  (forall found, candidates (v_ni_order t) (adjust_abi a e) e v vaddrs = Ok found -> Forall fit_names found /\ (found = [] -> ni_functions e = [])) ->
  exists r, extract_syscalls t a e v (Some kdir) = Ok r.
Proof. exact terminal_total. Qed.
Print Assumptions C101_succeeds.
(** C98's example on a terminal. *)
Example C101_example : exists r, extract_syscalls (with_annotation ex_fork_t (annotate (ex_short_w Diverge) true ex_fork_a ex_fork_e (path_of_str $"/b/vmlinux") (Some (path_of_str $"/k")) None (path_of_str $"/k")))
  ex_a ex_fork_e [5;10] (Some (path_of_str $"/k")) = Ok r.
Proof.
  destruct C98_example_image as (H1 & H2 & H3 & H4 & H5). destruct C98_example_sources as (S1 & S2 & S3 & S4). destruct C97_example_says as (A1 & A2).
  apply (C101_succeeds _ ex_a ex_fork_e [5;10] [(0, 4112); (1, 4096)] (ex_short_w Diverge) true (path_of_str $"/b/vmlinux") None (path_of_str $"/k")
    ex_fork_ans (path_of_str $"/b") (path_of_str $"/k") []); try assumption; try reflexivity.
  - destruct H4 as (v' & I & Q). destruct I as [<-|[<-|[]]]; [exists 0, 4112|exists 1, 4096]; (split; [cbn; auto|exact Q]).
  - intros i v' [E|[E|[]]]; injection E as <- <-; apply H5; cbn; auto.
  - split; [apply A1|]. intros [|x l] E; [congruence|reflexivity].
  - constructor.
  - intros s I. split; [now apply S4|]. vm_compute in I. repeat destruct I as [<-|I]; try contradiction; discriminate.
  - intros found C. split; [now apply C98_example_names|]. vm_compute in C. injection C as <-. discriminate.
Qed.
