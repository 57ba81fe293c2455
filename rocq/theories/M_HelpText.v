(** Generated by tools/gen_help.py from /repo/src/systrack/arch/__init__.py 79-118. *)
From Coq Require Import List Ascii String.
From Verif Require Import PyBase.
Import ListNotations.
Open Scope string_scope.
Open Scope list_scope.

(** The lines of the text; each is followed by a line end. *)
Definition help_lines : list str :=
  [ $"Supported architectures and ABIs (values are case-insensitive):";
    $"";
    $"    Value          Aliases         Arch     Kernel  Syscall ABI     Build based on             Notes";
    $"    ------------------------------------------------------------------------------------------------";
    $"    arm            arm-eabi, eabi  ARM      32-bit  32-bit EABI     multi_v7_defconfig         [2]";
    $"    arm-oabi       oabi            ARM      32-bit  32-bit OABI     multi_v7_defconfig         [2,4]";
    $"    ------------------------------------------------------------------------------------------------";
    $"    arm64          aarch64         ARM      64-bit  64-bit AArch64  defconfig";
    $"    arm64-aarch32  aarch32         ARM      64-bit  32-bit AArch32  defconfig                  [1]";
    $"    ------------------------------------------------------------------------------------------------";
    $"    mips           mips32, o32     MIPS     32-bit  32-bit O32      defconfig";
    $"    mips64         n64             MIPS     64-bit  64-bit N64      ip27_defconfig             [1]";
    $"    mips64-n32     n32             MIPS     64-bit  64-bit N32      ip27_defconfig             [1]";
    $"    mips64-o32     o32-64          MIPS     64-bit  32-bit O32      ip27_defconfig             [1]";
    $"    ------------------------------------------------------------------------------------------------";
    $"    powerpc        ppc, ppc32      PowerPC  32-bit  32-bit PPC32    ppc64_defconfig";
    $"    powerpc64      ppc64           PowerPC  64-bit  64-bit PPC64    ppc64_defconfig            [1]";
    $"    powerpc64-32   ppc64-32        PowerPC  64-bit  32-bit PPC32    ppc64_defconfig            [1]";
    $"    powerpc64-spu  ppc64-spu, spu  PowerPC  64-bit  64-bit ""SPU""    ppc64_defconfig            [1,5]";
    $"    ------------------------------------------------------------------------------------------------";
    $"    riscv          riscv32, rv32   RISC-V   32-bit  32-bit ""RV32""   defconfig + 32-bit.config  [3,6]";
    $"    riscv64        rv64            RISC-V   64-bit  64-bit ""RV64""   defconfig                  [1,6]";
    $"    riscv64-32     rv64-32         RISC-V   64-bit  32-bit ""RV32""   defconfig                  [1,6]";
    $"    ------------------------------------------------------------------------------------------------";
    $"    x86            i386, ia32      x86      32-bit  32-bit IA32     i386_defconfig";
    $"    x86-64         x64             x86      64-bit  64-bit x86-64   x86_64_defconfig           [1]";
    $"    x86-64-x32     x32             x86      64-bit  64-bit x32      x86_64_defconfig           [1]";
    $"    x86-64-ia32    ia32-64         x86      64-bit  32-bit IA32     x86_64_defconfig           [1]";
    $"";
    $"    [1] Building creates a kernel supporting all ABIs for this architecture.";
    $"    [2] Build based on ""defconfig"" for Linux <= v3.7.";
    $"    [3] Build based on ""rv32_defconfig"" for Linux <= v6.7 and ""defconfig"" for Linux <= v5.0.";
    $"    [4] Building creates an EABI kernel with compat OABI support. Building an OABI-only kernel is";
    $"        NOT supported. The seccomp filter system will be missing.";
    $"    [5] ""SPU"" is not a real ABI. It indicates a Cell processor SPU (Synergistic Processing Unit).";
    $"        The ABI is really PPC64, but SPUs can only use a subset of syscalls.";
    $"    [6] ""RV32"" and ""RV64"" are not real ABIs, but rather ISAs. The RISC-V syscall ABI is the same";
    $"        for 32-bit and 64-bit (only register size differs). These names are only used for clarity." ].
