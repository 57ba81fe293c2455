(** Specifications for C82-C85 (registers, base configuration, version and architecture of an
    image), stated without the functions of the model. *)
From Coq Require Import List Bool Ascii String ZArith.
From Verif Require Import PyBase M_Utils S_Utils M_Elf M_Arch S_Arch.
Import ListNotations.
Open Scope Z_scope.
Open Scope list_scope.

(** ** Calling conventions: where the number and the arguments are passed, by ABI (syscall(2),
    tables "Arch/ABI ... System call #" and "arg1 ... arg7"; the name "swi <NR>" is systrack's:
    the number is in the instruction). *)
Inductive convention : str -> str -> list str -> Prop :=
| cv_eabi : convention $"eabi" $"r7" [$"r0"; $"r1"; $"r2"; $"r3"; $"r4"; $"r5"; $"r6"]
| cv_oabi : convention $"oabi" $"swi <NR>" [$"r0"; $"r1"; $"r2"; $"r3"; $"r4"; $"r5"; $"r6"]
| cv_aarch64 : convention $"aarch64" $"w8" [$"x0"; $"x1"; $"x2"; $"x3"; $"x4"; $"x5"]
  (* the 32-bit ABI is that of 32-bit ARM *)
| cv_aarch32 : convention $"aarch32" $"r7" [$"r0"; $"r1"; $"r2"; $"r3"; $"r4"; $"r5"; $"r6"]
| cv_o32 : convention $"o32" $"v0" ([$"a0"; $"a1"; $"a2"; $"a3"] ++ repeat $"stack" 4)
| cv_n32 : convention $"n32" $"v0" [$"a0"; $"a1"; $"a2"; $"a3"; $"a4"; $"a5"]
| cv_n64 : convention $"n64" $"v0" [$"a0"; $"a1"; $"a2"; $"a3"; $"a4"; $"a5"]
| cv_ppc32 : convention $"ppc32" $"r0" [$"r3"; $"r4"; $"r5"; $"r6"; $"r7"; $"r8"; $"r9"]
| cv_ppc64 : convention $"ppc64" $"r0" [$"r3"; $"r4"; $"r5"; $"r6"; $"r7"; $"r8"]
| cv_spu : convention $"spu" $"r0" [$"r3"; $"r4"; $"r5"; $"r6"; $"r7"; $"r8"]
| cv_rv32 : convention $"rv32" $"a7" [$"a0"; $"a1"; $"a2"; $"a3"; $"a4"; $"a5"]
| cv_rv64 : convention $"rv64" $"a7" [$"a0"; $"a1"; $"a2"; $"a3"; $"a4"; $"a5"]
| cv_ia32 : convention $"ia32" $"eax" [$"ebx"; $"ecx"; $"edx"; $"esi"; $"edi"; $"ebp"]
| cv_x32 : convention $"x32" $"rax" [$"rdi"; $"rsi"; $"rdx"; $"r10"; $"r8"; $"r9"]
| cv_x64 : convention $"x64" $"rax" [$"rdi"; $"rsi"; $"rdx"; $"r10"; $"r8"; $"r9"].

(** ** Base configuration of each architecture, by class and word size of the kernel *)
Inductive base_config (v : list Z) : klass -> bool -> list str -> Prop :=
  (* arch/arm/configs/multi_v7_defconfig exists since v3.7 *)
| bc_arm : since [3;7] v -> base_config v KArm true [$"multi_v7_defconfig"]
| bc_arm_old : before [3;7] v -> base_config v KArm true [$"defconfig"]
| bc_arm64 : base_config v KArm64 false [$"defconfig"]
| bc_mips : base_config v KMips true [$"defconfig"]
| bc_mips64 : base_config v KMips false [$"ip27_defconfig"]
| bc_ppc b : base_config v KPowerPC b [$"ppc64_defconfig"]
| bc_rv64 : base_config v KRiscV false [$"defconfig"]
  (* arch/riscv/configs: rv32_defconfig since v5.1, 32-bit.config since v6.8 *)
| bc_rv32_old : before [5;1] v -> base_config v KRiscV true [$"defconfig"]
| bc_rv32 : since [5;1] v -> before [6;8] v -> base_config v KRiscV true [$"rv32_defconfig"]
| bc_rv32_new : since [6;8] v -> base_config v KRiscV true [$"defconfig"; $"32-bit.config"]
| bc_i386 : base_config v KX86 true [$"i386_defconfig"]
| bc_x86_64 : base_config v KX86 false [$"x86_64_defconfig"].

(** ** The banner in an image *)

(** The text that symbol [s] stands for: [sym_size] bytes at its address, or, for a symbol
    without size, everything up to the next NUL. *)
Inductive holds (e : elf) (s : symbol) : str -> Prop :=
| holds_sized sec pre text post : In sec (dvalues (e_sections e)) ->
    (forall x, In x (dvalues (e_sections e)) -> sec_vaddr x <= sym_vaddr s < sec_vaddr x + sec_size x -> x = sec) ->
    sec_vaddr sec <= sym_vaddr s < sec_vaddr sec + sec_size sec ->
    e_file e = pre ++ text ++ post -> len pre = sec_off sec + (sym_vaddr s - sec_vaddr sec) ->
    sym_size s = len text -> text <> [] -> holds e s text
| holds_string sec pre text post : In sec (dvalues (e_sections e)) ->
    (forall x, In x (dvalues (e_sections e)) -> sec_vaddr x <= sym_vaddr s < sec_vaddr x + sec_size x -> x = sec) ->
    sec_vaddr sec <= sym_vaddr s < sec_vaddr sec + sec_size sec ->
    e_file e = pre ++ text ++ chr 0 :: post -> len pre = sec_off sec + (sym_vaddr s - sec_vaddr sec) ->
    sym_size s = 0 -> ~ In (chr 0) text -> holds e s text.

(** ** The image and the architecture *)

(** An image of this class and word size. *)
Definition image_of (e : elf) (k : klass) (b : bool) : Prop :=
  machine_of (e_machine e) k /\ machine_bits (e_machine e) b /\ e_bits32 e = b.

(** A documented name, and the object it stands for. *)
Definition named (n : str) (v : list Z) (a : arch) : Prop :=
  exists d, In d documented /\ In n (d_names d) /\ since (d_since d) v /\
    a_class a = d_class d /\ a_version a = v /\ a_abi a = d_abi d /\ a_bits32 a = d_kernel32 d /\
    a_abi_bits32 a = d_abi32 d.
