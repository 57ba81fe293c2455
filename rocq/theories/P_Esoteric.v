(** Property C90 (syscalls outside the table). *)
From Coq Require Import List Bool Ascii String ZArith Lia Permutation Sorted.
From Verif Require Import PyBase PyFacts M_Utils M_Elf S_Elf M_Syscall M_Arch S_Arch S_Dummy M_Kernel S_Kernel M_Location M_Annotate
  S_Esoteric L_Esoteric P_Kernel.
Import ListNotations.
Open Scope Z_scope.
Open Scope list_scope.

(** They follow those of the table, in the order of their numbers, and each is as documented. *)
Theorem C90_outside k ver abi b a t e v kdir w have p rdir kres r : arch_new k ver abi b = Ok a ->
  (forall l, Permutation (v_ni_order t l) l) -> v_annotate t = annotate w have (adjust_abi a e) e p kdir rdir kres ->
  loaded e -> extract_syscalls t a e v kdir = Ok r ->
  exists main eso, r = main ++ eso /\ (forall s, In s main -> sc_esoteric s = false) /\
    StronglySorted number_before eso /\ (forall s, In s eso -> described k ver abi e s).
Proof. exact (result_outside k ver abi b a t e v kdir w have p rdir kres r). Qed.
Print Assumptions C90_outside.

(** And each documented one is reported unless its function is a dummy. *)
Theorem C90_complete k ver abi b a t e v kdir w have p rdir kres r vaddrs : arch_new k ver abi b = Ok a ->
  (forall l, Permutation (v_ni_order t l) l) -> v_annotate t = annotate w have (adjust_abi a e) e p kdir rdir kres ->
  loaded e -> extract_syscalls t a e v kdir = Ok r -> a_bits32 a = e_bits32 e ->
  syscall_vaddrs t (adjust_abi a e) e = Ok vaddrs -> vaddrs <> [] -> (exists v, not_implemented e v) ->
  exists choice ref code, chooses e vaddrs choice /\ reference e vaddrs choice ref code /\
    forall n name sym kc sig, outside k ver abi e n name sym kc sig ->
      ((exists s, In s r /\ sc_esoteric s = true /\ sc_number s = n /\ sc_name s = name /\ sc_symbol s = sym /\
          sc_kconfig s = kc /\ sc_signature s = Some sig) <->
       is_dummy_syscall (adjust_abi a e) sym e ref code = Ok false).
Proof. exact (fun A P T L H => result_outside_all k ver abi b a t e v kdir w have p rdir kres r A P T L H vaddrs). Qed.
Print Assumptions C90_complete.

(** A 32-bit ARM image with one syscall in its table. *)
Definition ex_arm_file : bytes := bts [127;69;76;70;1;1] ++ repeat (chr 0) 12 ++ bts [40;0] ++ repeat (chr 0) 16 ++ bts [0;0;0;5] ++ repeat (chr 0) 24 ++
  repeat (chr 15) 16 ++ repeat (chr 1) 16 ++ repeat (chr 2) 16 ++ repeat (chr 3) 16 ++ List.concat (map (enc_uint false 4) [4112; 4096; 0]).
Definition ex_arm_lines : list str :=
  [ex_line "00002000" "0" "OBJECT" "sys_call_table";
   ex_line "00001000" "16" "FUNC" "sys_ni_syscall";
   ex_line "00001010" "16" "FUNC" "sys_read";
   ex_line "00001020" "16" "FUNC" "arm_syscall";
   ex_line "00002100" "0" "OBJECT" "after_table"].
Definition ex_arm_elf : outcome elf := elf_open ex_arm_file ex_sections (unlines ex_arm_lines).
Definition ex_arm_a : arch := from_ok (arch_new KArm [5;10] $"eabi" true) ex_a.
Definition ex_arm_env (e : elf) : env := Env (v_decode ex_env) (v_same ex_env) (v_insn_order ex_env) (v_ni_order ex_env)
  (annotate (World (fun _ => None) (fun l => Ok (unlines (map (fun _ => $"??:?") l))) (Ok [])) true (adjust_abi ex_arm_a e) e (path_of_str $"/b/vmlinux") None None (path_of_str $"/")).
Example C90_example : exists e r, ex_arm_elf = Ok e /\ arch_new KArm [5;10] $"eabi" true = Ok ex_arm_a /\
  extract_syscalls (ex_arm_env e) ex_arm_a e [5;10] None = Ok r /\
  map (fun s => (sc_number s, sc_name s, sym_name (sc_symbol s), sc_signature s)) r =
    [(0, $"sys_read", $"sys_read", None);
     (983041, $"breakpoint", $"arm_syscall", Some []);
     (983042, $"cacheflush", $"arm_syscall", Some [$"unsigned long start"; $"unsigned long end"; $"int flags"]);
     (983043, $"usr26", $"arm_syscall", Some []); (983044, $"usr32", $"arm_syscall", Some []);
     (983045, $"set_tls", $"arm_syscall", Some [$"unsigned long val"]); (983046, $"get_tls", $"arm_syscall", Some [])] /\
  a_bits32 ex_arm_a = e_bits32 e /\ (exists vaddrs, syscall_vaddrs (ex_arm_env e) (adjust_abi ex_arm_a e) e = Ok vaddrs /\ vaddrs <> []) /\
  loaded e /\ not_implemented e 4096.
Proof.
  eexists _, _. split; [vm_compute; reflexivity|]. split; [vm_compute; reflexivity|]. split; [vm_compute; reflexivity|].
  split; [vm_compute; reflexivity|]. split; [vm_compute; reflexivity|]. split; [eexists; split; [vm_compute; reflexivity|discriminate]|].
  split; [exists ex_arm_file, ex_sections, (unlines ex_arm_lines); vm_compute; reflexivity|].
  exists (Symbol 4096 4096 16 $"FUNC" $"sys_ni_syscall"). split; [vm_compute; auto|]. split; [reflexivity|]. split; [|reflexivity].
  split; [left; exists []; reflexivity|]. repeat split; intros [t H]; discriminate H.
Qed.

(** And a big-endian 64-bit PowerPC image. *)
Definition ex_ppc_words : list Z := [cmpdi_r0_1ebe; 1103233032; nop; mfsrr1_r12; xori_r12_1; mtsrr1_r12; rfid; nop].
Definition ex_ppc_file : bytes := bts [127;69;76;70;2;2] ++ repeat (chr 0) 12 ++ bts [0;21] ++ repeat (chr 0) 28 ++ bts [0;0;0;2] ++ repeat (chr 0) 12 ++
  repeat (chr 15) 16 ++ repeat (chr 1) 16 ++ ppc_code true ex_ppc_words ++ List.concat (map (enc_uint true 8) [4112; 4096; 0]).
Definition ex_ppc_lines : list str :=
  [ex_line "0000000000002000" "0" "OBJECT" "sys_call_table";
   ex_line "0000000000001000" "16" "FUNC" "sys_ni_syscall";
   ex_line "0000000000001010" "16" "FUNC" "sys_read";
   ex_line "0000000000001020" "0" "NOTYPE" "exc_real_0xc00_system_call";
   ex_line "0000000000001040" "0" "NOTYPE" "next";
   ex_line "0000000000002100" "0" "OBJECT" "after_table"].
Definition ex_ppc_elf : outcome elf := elf_open ex_ppc_file ex_sections (unlines ex_ppc_lines).
Definition ex_ppc_a : arch := from_ok (arch_new KPowerPC [5;10] $"ppc64" false) ex_a.
Definition ex_ppc_env (e : elf) : env := Env (v_decode ex_env) (v_same ex_env) (v_insn_order ex_env) (v_ni_order ex_env)
  (annotate (World (fun _ => None) (fun l => Ok (unlines (map (fun _ => $"??:?") l))) (Ok [])) true (adjust_abi ex_ppc_a e) e (path_of_str $"/b/vmlinux") None None (path_of_str $"/")).
Example C90_ppc : exists e r, ex_ppc_elf = Ok e /\ arch_new KPowerPC [5;10] $"ppc64" false = Ok ex_ppc_a /\
  extract_syscalls (ex_ppc_env e) ex_ppc_a e [5;10] None = Ok r /\
  map (fun s => (sc_number s, sc_name s, sym_name (sc_symbol s), sc_kconfig s, sc_signature s)) r =
    [(0, $"sys_read", $"sys_read", None, None);
     (7870, $"switch_endian", $"exc_real_0xc00_system_call", Some $"PPC_FAST_ENDIAN_SWITCH", Some [])].
Proof. eexists _, _. split; [vm_compute; reflexivity|]. split; [vm_compute; reflexivity|]. split; vm_compute; reflexivity. Qed.
