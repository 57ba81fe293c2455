(** Specification for C92: the options that choose the word size and the ABIs of a
    kernel, as the Kconfig files of Linux define them. *)
From Coq Require Import List Bool Ascii String ZArith.
From Verif Require Import PyBase M_KconfigTables M_Arch S_Utils.
Import ListNotations.
Open Scope Z_scope.
Open Scope list_scope.

(** The options concerned. *)
Definition word_options : list str :=
  [ $"32BIT"; $"64BIT"; $"MIPS32_O32"; $"MIPS32_N32"; $"PPC64"; $"PPC_BOOK3S_32"; $"SPU_FS"; $"SPU_BASE";
    $"ARCH_RV32I"; $"ARCH_RV64I"; $"CPU_SUPPORTS_32BIT_KERNEL"; $"CPU_SUPPORTS_64BIT_KERNEL";
    $"IA32_EMULATION"; $"X86_X32"; $"X86_X32_ABI"; $"OABI_COMPAT"; $"COMPAT" ].
Definition yes (o : str) : str := o ++ $"=y".
Definition no (o : str) : str := o ++ $"=n".
Definition from (v : version) : list Z * list Z := (v, VERSION_INF).
Definition always : list Z * list Z := from VERSION_ZERO.

(** What to ask for: the option, and the versions in which it exists.
    - MIPS chooses the word size by 32BIT and 64BIT; a 64-bit kernel serves the o32 and
      n32 ABIs with MIPS32_O32 and MIPS32_N32.
    - PowerPC is 64-bit by default (ppc64_defconfig) and has COMPAT for the ppc32 ABI
      since v2.6.15 and SPU_FS (v2.6.16) with SPU_BASE (v2.6.18) for the spu ABI.
    - RISC-V has no target for a 32-bit configuration before v5.1; COMPAT (v5.19) serves
      the rv32 ABI.
    - x86-64 serves ia32 with IA32_EMULATION and x32 with X86_X32 (v3.4), which became
      X86_X32_ABI (v5.18).
    - ARM serves the old ABI with OABI_COMPAT (v2.6.16), which must be off to extract the
      plain EABI; arm64 serves aarch32 with COMPAT (v3.7). *)
Definition wanted (k : klass) (abi : str) (bits32 : bool) : list (str * (list Z * list Z)) :=
  match k, bits32 with
  | KMips, true => [(yes $"32BIT", always); (no $"64BIT", always)]
  | KMips, false => [(no $"32BIT", always); (yes $"64BIT", always); (yes $"MIPS32_O32", always); (yes $"MIPS32_N32", always)]
  | KPowerPC, true => [(no $"PPC64", always); (yes $"PPC_BOOK3S_32", always)]
  | KPowerPC, false => [(yes $"COMPAT", from [2;6;15]); (yes $"SPU_FS", from [2;6;16]); (yes $"SPU_BASE", from [2;6;18])]
  | KRiscV, true => map (fun o => (o, ([4;15], [5;1])))
      [yes $"32BIT"; no $"64BIT"; yes $"ARCH_RV32I"; no $"ARCH_RV64I"; yes $"CPU_SUPPORTS_32BIT_KERNEL"; no $"CPU_SUPPORTS_64BIT_KERNEL"]
  | KRiscV, false => [(yes $"COMPAT", from [5;19])]
  | KX86, true => []
  | KX86, false => [(yes $"IA32_EMULATION", always); (yes $"X86_X32", ([3;4], [5;18])); (yes $"X86_X32_ABI", from [5;18])]
  | KArm, _ => [(if str_eqb abi $"oabi" then yes $"OABI_COMPAT" else no $"OABI_COMPAT", from [2;6;16])]
  | KArm64, _ => [(yes $"COMPAT", from [3;7])]
  end.

(** The option with its value is asked for in version [v]. *)
Definition asked (k : klass) (abi : str) (bits32 : bool) (v : version) (o : str) : Prop :=
  exists r, In (o, r) (wanted k abi bits32) /\ within r v.
