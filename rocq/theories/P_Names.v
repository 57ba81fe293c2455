(** Property C86 (names of the reported syscalls). *)
From Coq Require Import List Bool Ascii String ZArith Lia Permutation.
From Verif Require Import PyBase PyFacts M_Utils M_Elf S_Elf M_Syscall S_Syscall M_Arch S_Arch M_Emu M_Kconfig M_Kernel S_Kernel S_Names L_Names P_Kernel.
Import ListNotations.
Open Scope Z_scope.
Open Scope list_scope.

(** What the architecture makes of the name of a symbol. *)
Theorem C86_symbol : forall a s t, translate_syscall_symbol_name a s = t <-> symbol_part (a_class a) s t.
Proof. exact translate_iff. Qed.
Print Assumptions C86_symbol.

(** All syscalls of the table that are extracted. *)
Theorem C86_names : forall k ver abi b t a e v kdir r, arch_new k ver abi b = Ok a ->
  (forall l, Permutation (v_ni_order t l) l) -> annotates (v_annotate t) -> extract_syscalls t a e v kdir = Ok r -> r <> [] ->
  exists vaddrs choice names, syscall_vaddrs t (adjust_abi a e) e = Ok vaddrs /\
    chooses e vaddrs choice /\ implemented_names e choice vaddrs names /\
    forall s, In s r -> of_table s = true ->
      (exists i v', sc_index s = Some i /\ In (i, v') vaddrs /\ choice v' = Some (sc_symbol s)) /\
      reported_as a names (sym_name (sc_symbol s)) (sc_origname s) (sc_name s).
Proof. exact extracted_names. Qed.
Print Assumptions C86_names.

(** The specification leaves no choice. *)
Theorem C86_determined : forall k ver abi b a names sym o n o' n', arch_new k ver abi b = Ok a ->
  reported_as a names sym o n -> reported_as a names sym o' n' -> o = o' /\ n = n'.
Proof. exact reported_fun. Qed.
Print Assumptions C86_determined.

(** Twenty entries share a prefix and one has that of a stub. *)
Definition ex_names_lines : list str :=
  [ex_line "0000000000002000" "0" "OBJECT" "sys_call_table";
   ex_line "0000000000001000" "16" "FUNC" "sys_ni_syscall";
   ex_line "0000000000001010" "16" "FUNC" "__x64_sys_x86_clock_gettime32";
   ex_line "0000000000001020" "16" "FUNC" "__x64_sys_old_stat";
   ex_line "0000000000001030" "16" "FUNC" "stub_fork";
   ex_line "0000000000002100" "0" "OBJECT" "after_table"].
Definition ex_names_elf : outcome elf :=
  elf_open (ex_header ++ repeat (chr 15) 16 ++ repeat (chr 1) 16 ++ repeat (chr 2) 16 ++ repeat (chr 3) 16 ++
            ex_words (repeat 4112 10 ++ 4096 :: repeat 4128 10 ++ [4144; 0])) ex_sections (unlines ex_names_lines).
Example C86_example : exists e r, ex_names_elf = Ok e /\ extract_syscalls ex_env ex_a e [5;10] None = Ok r /\
  map (fun s => (sc_number s, sc_origname s, sc_name s)) r =
    map (fun i => (i, $"x86_clock_gettime32", $"clock_gettime")) (zrange 0 10) ++
    map (fun i => (i, $"old_stat", $"stat")) (zrange 11 21) ++ [(21, $"fork", $"fork")] /\
  arch_new KX86 [5;10] $"x64" false = Ok ex_a /\ forallb of_table r = true.
Proof.
  eexists _, _. split; [vm_compute; reflexivity|]. split; [vm_compute; reflexivity|]. split; [vm_compute; reflexivity|].
  split; vm_compute; reflexivity.
Qed.
Example C86_symbols :
  map (translate_syscall_symbol_name (from_ok (arch_new KPowerPC [5;10] $"ppc64" false) ex_a)) [$".sys_read"; $".compat_sys_read"; $"..sys_x"; $"__se_sys_y"] =
    [$"read"; $"read"; $".sys_x"; $"y"] /\
  map (translate_syscall_symbol_name (from_ok (arch_new KArm [5;10] $"eabi" true) ex_a)) [$"sys_sigreturn_wrapper"; $"__sys_fork_wrapper"] =
    [$"sys_sigreturn"; $"fork"].
Proof. split; vm_compute; reflexivity. Qed.
