(** Specifications for the properties of arch/ (C05, C09, C29-C39, C44-C47), stated without
    the functions of the model (only its record types). *)
From Coq Require Import List Bool Ascii String ZArith.
From Verif Require Import PyBase M_Utils S_Utils M_Elf M_Arch.
Import ListNotations.
Open Scope Z_scope.
Open Scope list_scope.

(** [v] is version [w] or newer. *)
Definition since (w v : list Z) : Prop := lexle w v.
Definition before (w v : list Z) : Prop := lexlt v w.

(** ** Images *)

Definition sym_present (e : elf) (name : str) : Prop := In name (map fst (e_symbols e)).
Definition fun_present (e : elf) (name : str) : Prop := In name (map fst (e_functions e)).

(** The class and word size of each ELF machine number (System V ABI, e_machine). *)
Inductive machine_of : Z -> klass -> Prop :=
| mo_386 : machine_of 3 KX86
| mo_mips : machine_of 8 KMips
| mo_ppc : machine_of 20 KPowerPC
| mo_ppc64 : machine_of 21 KPowerPC
| mo_arm : machine_of 40 KArm
| mo_x86_64 : machine_of 62 KX86
| mo_aarch64 : machine_of 183 KArm64
| mo_riscv : machine_of 243 KRiscV.

(** Machines with one word size only; [true] is 32 bits. *)
Inductive machine_bits : Z -> bool -> Prop :=
| mb_386 : machine_bits 3 true
| mb_x86_64 : machine_bits 62 false
| mb_ppc : machine_bits 20 true
| mb_ppc64 : machine_bits 21 false
| mb_arm : machine_bits 40 true
| mb_aarch64 : machine_bits 183 false
| mb_mips b : machine_bits 8 b
| mb_riscv b : machine_bits 243 b.

(** The ABIs an image supports: the native one first, others by their marker symbols. *)
Inductive native_abi (e : elf) : str -> Prop :=
| na_386 : e_machine e = 3 -> native_abi e $"ia32"
| na_x86_64 : e_machine e = 62 -> native_abi e $"x64"
| na_ppc : e_machine e = 20 -> native_abi e $"ppc32"
| na_ppc64 : e_machine e = 21 -> native_abi e $"ppc64"
| na_aarch64 : e_machine e = 183 -> native_abi e $"aarch64"
| na_mips32 : e_machine e = 8 -> e_bits32 e = true -> native_abi e $"o32"
| na_mips64 : e_machine e = 8 -> e_bits32 e = false -> native_abi e $"n64"
| na_riscv32 : e_machine e = 243 -> e_bits32 e = true -> native_abi e $"rv32"
| na_riscv64 : e_machine e = 243 -> e_bits32 e = false -> native_abi e $"rv64".

(** Optional ABI, machine, and the symbols of which one must be present. *)
Definition optional_abi : list (Z * str * list str) :=
  [ (62, $"ia32", [$"ia32_sys_call_table"; $"ia32_sys_call"]);
    (62, $"x32", [$"x32_sys_call_table"; $"x32_sys_call"]);
    (21, $"ppc32", [$"compat_sys_call_table"; $"compat_sys_execve"; $".compat_sys_execve"]);
    (21, $"spu", [$"spu_syscall_table"]);
    (183, $"aarch32", [$"compat_sys_call_table"]);
    (8, $"o32", [$"sys32_call_table"]);
    (8, $"n32", [$"sysn32_call_table"]);
    (243, $"rv32", [$"compat_sys_call_table"]) ].
Inductive supports_abi (e : elf) : str -> Prop :=
| sa_native abi : native_abi e abi -> supports_abi e abi
| sa_marker m abi ms s : In (m, abi, ms) optional_abi -> e_machine e = m -> e_bits32 e = false ->
    In s ms -> sym_present e s -> supports_abi e abi
  (* before v5.4 x32 has no table of its own *)
| sa_x32 s a b : e_machine e = 62 -> sym_present e s -> s = a ++ $"x32_compat_sys" ++ b ->
    supports_abi e $"x32".

(** 32-bit ARM: an OABI table means both; otherwise the EABI version in e_flags decides. *)
Inductive arm_abis (e : elf) : list str -> Prop :=
| aa_both : sym_present e $"sys_oabi_call_table" -> arm_abis e [$"eabi"; $"oabi"]
| aa_eabi : ~ sym_present e $"sys_oabi_call_table" -> Z.land (e_flags e) 4278190080 <> 0 ->
    arm_abis e [$"eabi"]
| aa_oabi : ~ sym_present e $"sys_oabi_call_table" -> Z.land (e_flags e) 4278190080 = 0 ->
    arm_abis e [$"oabi"].

(** ** Documented architectures: arch/__init__.py 79-118 (the help text) *)
Record doc_arch := DocArch {
  d_names : list str;          (* value and aliases *)
  d_class : klass;
  d_kernel32 : bool;
  d_abi : str;
  d_abi32 : bool;
  d_since : list Z             (* oldest kernel *)
}.
Definition documented : list doc_arch :=
  [ DocArch [$"arm"; $"arm-eabi"; $"eabi"] KArm true $"eabi" true [];
    DocArch [$"arm-oabi"; $"oabi"] KArm true $"oabi" true [];
    DocArch [$"arm64"; $"aarch64"] KArm64 false $"aarch64" false [3;7];
    DocArch [$"arm64-aarch32"; $"aarch32"] KArm64 false $"aarch32" true [3;7];
    DocArch [$"mips"; $"mips32"; $"o32"] KMips true $"o32" true [];
    DocArch [$"mips64"; $"n64"] KMips false $"n64" false [];
    DocArch [$"mips64-n32"; $"n32"] KMips false $"n32" false [];
    DocArch [$"mips64-o32"; $"o32-64"] KMips false $"o32" true [];
    DocArch [$"powerpc"; $"ppc"; $"ppc32"] KPowerPC true $"ppc32" true [2;6;31];
    DocArch [$"powerpc64"; $"ppc64"] KPowerPC false $"ppc64" false [2;6;15];
    DocArch [$"powerpc64-32"; $"ppc64-32"] KPowerPC false $"ppc32" true [2;6;15];
    DocArch [$"powerpc64-spu"; $"ppc64-spu"; $"spu"] KPowerPC false $"spu" false [2;6;16];
    DocArch [$"riscv"; $"riscv32"; $"rv32"] KRiscV true $"rv32" true [4;15];
    DocArch [$"riscv64"; $"rv64"] KRiscV false $"rv64" false [4;15];
    DocArch [$"riscv64-32"; $"rv64-32"] KRiscV false $"rv32" true [5;19];
    DocArch [$"x86"; $"i386"; $"ia32"] KX86 true $"ia32" true [2;6;24];
    DocArch [$"x86-64"; $"x64"] KX86 false $"x64" false [2;6;24];
    DocArch [$"x86-64-x32"; $"x32"] KX86 false $"x32" false [2;6;24];
    DocArch [$"x86-64-ia32"; $"ia32-64"] KX86 false $"ia32" true [2;6;24] ].

(** ** The syscall table to look at *)
Inductive table_for (e : elf) (v : list Z) : klass -> str -> bool -> option str -> Prop :=
| tf_arm_compat b : sym_present e $"sys_oabi_call_table" ->
    table_for e v KArm $"oabi" b (Some $"sys_oabi_call_table")
| tf_arm_oabi b : ~ sym_present e $"sys_oabi_call_table" ->
    table_for e v KArm $"oabi" b (Some $"sys_call_table")
| tf_arm_eabi b : table_for e v KArm $"eabi" b (Some $"sys_call_table")
| tf_aarch64 b : table_for e v KArm64 $"aarch64" b (Some $"sys_call_table")
| tf_aarch32 b : table_for e v KArm64 $"aarch32" b (Some $"compat_sys_call_table")
| tf_mips : table_for e v KMips $"o32" true (Some $"sys_call_table")
| tf_mips_n64 : table_for e v KMips $"n64" false (Some $"sys_call_table")
| tf_mips_n32 : table_for e v KMips $"n32" false (Some $"sysn32_call_table")
| tf_mips_o32 : table_for e v KMips $"o32" false (Some $"sys32_call_table")
| tf_ppc abi : table_for e v KPowerPC abi true (Some $"sys_call_table")
| tf_ppc64 : table_for e v KPowerPC $"ppc64" false (Some $"sys_call_table")
| tf_ppc64_32_old : before [5;0] v -> table_for e v KPowerPC $"ppc32" false (Some $"sys_call_table")
| tf_ppc64_32 : since [5;0] v -> table_for e v KPowerPC $"ppc32" false (Some $"compat_sys_call_table")
| tf_spu : table_for e v KPowerPC $"spu" false (Some $"spu_syscall_table")
| tf_riscv abi : table_for e v KRiscV abi true (Some $"sys_call_table")
| tf_rv64 : table_for e v KRiscV $"rv64" false (Some $"sys_call_table")
| tf_rv32 : table_for e v KRiscV $"rv32" false (Some $"compat_sys_call_table")
| tf_x86_32 : before [6;9] v -> table_for e v KX86 $"ia32" true (Some $"sys_call_table")
| tf_x64 : before [6;9] v -> table_for e v KX86 $"x64" false (Some $"sys_call_table")
| tf_ia32 : before [6;9] v -> table_for e v KX86 $"ia32" false (Some $"ia32_sys_call_table")
| tf_x32_old : before [5;4] v -> table_for e v KX86 $"x32" false (Some $"sys_call_table")
| tf_x32 : since [5;4] v -> before [6;9] v -> table_for e v KX86 $"x32" false (Some $"x32_sys_call_table")
  (* since v6.9 only the native table may exist *)
| tf_new_x86_32 : since [6;9] v -> sym_present e $"sys_call_table" ->
    table_for e v KX86 $"ia32" true (Some $"sys_call_table")
| tf_new_x64 : since [6;9] v -> sym_present e $"sys_call_table" ->
    table_for e v KX86 $"x64" false (Some $"sys_call_table")
| tf_new_none abi b : since [6;9] v -> ~ sym_present e $"sys_call_table" -> table_for e v KX86 abi b None
| tf_new_compat abi : since [6;9] v -> abi <> $"x64" -> table_for e v KX86 abi false None.

(** Base of the numbers: the documented per-ABI offsets. *)
Inductive number_base : klass -> str -> Z -> Prop :=
| nb_oabi : number_base KArm $"oabi" 9437184       (* __NR_OABI_SYSCALL_BASE 0x900000 *)
| nb_eabi : number_base KArm $"eabi" 0
| nb_arm64 abi : number_base KArm64 abi 0
| nb_o32 : number_base KMips $"o32" 4000
| nb_n64 : number_base KMips $"n64" 5000
| nb_n32 : number_base KMips $"n32" 6000
| nb_ppc abi : number_base KPowerPC abi 0
| nb_riscv abi : number_base KRiscV abi 0
| nb_x32 : number_base KX86 $"x32" 1073741824     (* __X32_SYSCALL_BIT 0x40000000 *)
| nb_x64 : number_base KX86 $"x64" 0
| nb_ia32 : number_base KX86 $"ia32" 0.

(** ** Numbers of syscall_64.tbl marked "64" before v5.4, by name *)
Definition only_64 : list (Z * str) :=
  [ (13, $"rt_sigaction"); (15, $"rt_sigreturn"); (16, $"ioctl"); (19, $"readv"); (20, $"writev");
    (45, $"recvfrom"); (46, $"sendmsg"); (47, $"recvmsg"); (54, $"setsockopt"); (55, $"getsockopt");
    (59, $"execve"); (101, $"ptrace"); (127, $"rt_sigpending"); (128, $"rt_sigtimedwait");
    (129, $"rt_sigqueueinfo"); (131, $"sigaltstack"); (134, $"uselib"); (156, $"_sysctl");
    (174, $"create_module"); (177, $"get_kernel_syms"); (178, $"query_module"); (180, $"nfsservctl");
    (205, $"set_thread_area"); (206, $"io_setup"); (209, $"io_submit"); (211, $"get_thread_area");
    (214, $"epoll_ctl_old"); (215, $"epoll_wait_old"); (222, $"timer_create"); (236, $"vserver");
    (244, $"mq_notify"); (246, $"kexec_load"); (247, $"waitid"); (273, $"set_robust_list");
    (274, $"get_robust_list"); (278, $"vmsplice"); (279, $"move_pages"); (295, $"preadv");
    (296, $"pwritev"); (297, $"rt_tgsigqueueinfo"); (299, $"recvmmsg"); (307, $"sendmmsg");
    (310, $"process_vm_readv"); (311, $"process_vm_writev"); (322, $"execveat"); (327, $"preadv2");
    (328, $"pwritev2") ].

(** The entry at [index] of the x86 table, with number [number], is not for this ABI. *)
Inductive x86_foreign (v : list Z) : str -> bool -> Z -> Prop :=
| xf_x64 b number : 512 <= number <= 547 -> x86_foreign v $"x64" b number
| xf_x32 b n name : before [5;4] v -> In (n, name) only_64 -> x86_foreign v $"x32" b (1073741824 + n)
| xf_vm86old : x86_foreign v $"ia32" false 113
| xf_vm86 : x86_foreign v $"ia32" false 166
| xf_pkey number : 380 <= number <= 382 -> x86_foreign v $"ia32" true number.

(** ** Names *)

Definition is_prefix (p s : str) : Prop := exists t, s = p ++ t.
Definition is_suffix (p s : str) : Prop := exists t, s = t ++ p.

(** One of the given prefixes is removed, if there is one. *)
Definition drop_prefix (ps : list str) (s t : str) : Prop :=
  (exists p, In p ps /\ s = p ++ t) \/ (t = s /\ forall p, In p ps -> ~ is_prefix p s).
Definition drop_suffix (ps : list str) (s t : str) : Prop :=
  (exists p, In p ps /\ s = t ++ p) \/ (t = s /\ forall p, In p ps -> ~ is_suffix p s).
(** "32" or "64" after "time" *)
Definition drop_time_bits (s t : str) : Prop :=
  (exists u b, In b [$"32"; $"64"] /\ s = u ++ $"time" ++ b /\ t = u ++ $"time")
  \/ (t = s /\ ~ is_suffix $"time32" s /\ ~ is_suffix $"time64" s).

(** Prefixes found in the sources of each architecture. *)
Definition source_prefixes (k : klass) : list str :=
  match k with
  | KArm => [$"arm_"]
  | KArm64 => [$"aarch32_"; $"arm64_"]
  | KMips => [$"sysm_"; $"mips_"; $"mipsmt_sys_"]
  | KPowerPC => [$"ppc64_"; $"ppc32_"; $"ppc_"]
  | KRiscV => []
  | KX86 => [$"ia32_"; $"x86_"; $"x32_"]
  end.
Definition arch_strip (a : arch) (s t : str) : Prop :=
  exists u, (if str_eqb (a_abi a) $"oabi" then drop_prefix [$"oabi_"] s u else u = s)
            /\ drop_prefix (source_prefixes (a_class a)) u t.

Definition normal_name (a : arch) (name r : str) : Prop :=
  exists s1 s2 s3 s4,
    drop_suffix [$"_time32"; $"_time64"] name s1 /\ drop_time_bits s1 s2 /\
    drop_prefix [$"32_"; $"sys32_"] s2 s3 /\ drop_prefix [$"old_"] s3 s4 /\ arch_strip a s4 r.

Definition ni_name (s : str) : Prop :=
  (is_suffix $"sys_ni_syscall" s \/ is_suffix $"compat_ni_syscall" s) /\
  ~ is_prefix $"_eil_addr_" s /\ ~ is_prefix $"__cfi_" s /\ ~ is_prefix $"__pfx_" s.

(** ** Symbol preference *)

(** The prefix that marks a symbol of the selected ABI. *)
Inductive abi_marker : klass -> str -> bool -> str -> Prop :=
| am_x64 b : abi_marker KX86 $"x64" b $"__x64_"
| am_ia32 b : abi_marker KX86 $"ia32" b $"__ia32_"
| am_x32 b : abi_marker KX86 $"x32" b $"__x32_"
| am_arm64 abi b : abi_marker KArm64 abi b $"__arm64_"
| am_riscv abi b : abi_marker KRiscV abi b $"__riscv_"
| am_ppc64 abi : abi_marker KPowerPC abi false $".".

Definition uses_compat (k : klass) : Prop := k = KArm \/ k = KArm64 \/ k = KMips \/ k = KRiscV.
Definition has_compat (s : str) : Prop := exists a b, s = a ++ $"compat" ++ b.

(** ** ARM private syscalls (arch/arm/include/uapi/asm/unistd.h, __ARM_NR_...) *)
Inductive arm_private (v : list Z) : Z -> str -> Prop :=
| ap_breakpoint : arm_private v 983041 $"breakpoint"
| ap_cacheflush : arm_private v 983042 $"cacheflush"
| ap_usr26 : arm_private v 983043 $"usr26"
| ap_usr32 : arm_private v 983044 $"usr32"
| ap_set_tls : arm_private v 983045 $"set_tls"
| ap_get_tls : since [4;15] v -> arm_private v 983046 $"get_tls".

(** Names carrying none of the affixes. *)
Definition plain_name (a : arch) (s : str) : Prop :=
  (forall x, In x [$"_time32"; $"_time64"; $"time32"; $"time64"] -> ~ is_suffix x s) /\
  (forall x, In x ([$"32_"; $"sys32_"; $"old_"; $"oabi_"] ++ source_prefixes (a_class a)) -> ~ is_prefix x s).

(** Fields of an esoteric entry. *)
Definition eso_number (x : esoteric) : Z := fst (fst (fst (fst x))).
Definition eso_name (x : esoteric) : str := snd (fst (fst (fst x))).
Definition eso_symbol (x : esoteric) : str := snd (fst (fst x)).


(** ** Kconfig options of instances (executions: [run_process]) *)

(** What a process that only creates this instance sees. *)
Definition fresh_kconfig (a : arch) (v : version) : option (dict str (list str)) :=
  match p_objs (run_process [New (a_class a) (a_version a) (a_abi a) (a_bits32 a)]) with
  | [a'] => Some (fst (arch_kconfig a' v (p_world (run_process [New (a_class a) (a_version a) (a_abi a) (a_bits32 a)]))))
  | _ => None
  end.

(** Two instances whose constructors add the same options. *)
Definition same_kind (a b : arch) : Prop :=
  a_class a = a_class b /\
  match a_class a with
  | KArm => a_abi a = a_abi b
  | KArm64 => True
  | _ => a_bits32 a = a_bits32 b
  end.
