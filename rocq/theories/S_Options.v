(** Specification for C115: options that do not concern what is found. *)
From Coq Require Import List Bool Ascii String ZArith.
From Verif Require Import PyBase M_Utils M_Elf M_Syscall M_Arch M_Kernel M_Output M_Main M_Program S_Main.
Import ListNotations.
Open Scope Z_scope.
Open Scope list_scope.

(** Two command lines that differ in -q and -v only *)
Definition same_work (g g' : args) : Prop :=
  g_vmlinux g = g_vmlinux g' /\ g_kdir g = g_kdir g' /\ g_arch g = g_arch g' /\
  g_build g = g_build g' /\ g_config g = g_config g' /\ g_clean g = g_clean g' /\
  g_cross g = g_cross g' /\ g_out g = g_out g' /\ g_format g = g_format g' /\
  g_absolute g = g_absolute g' /\ g_remap g = g_remap g' /\ g_checkout g = g_checkout g' /\ g_disable_opt g = g_disable_opt g'.
(** ... that differ in the options for preparing sources (--cross, --out, --disable-opt), --format and
    --absolute-paths only *)
Definition same_search (g g' : args) : Prop :=
  g_vmlinux g = g_vmlinux g' /\ g_kdir g = g_kdir g' /\ g_arch g = g_arch g' /\
  g_build g = g_build g' /\ g_config g = g_config g' /\ g_clean g = g_clean g' /\
  g_remap g = g_remap g' /\ g_checkout g = g_checkout g' /\ g_quiet g = g_quiet g' /\ g_verbose g = g_verbose g'.

(** A command line with another argument of --remap *)
Definition remapped (r : option str) (g : args) : args :=
  Args (g_vmlinux g) (g_kdir g) (g_arch g) (g_build g) (g_config g) (g_clean g) (g_cross g) (g_out g) (g_format g) (g_absolute g) r (g_checkout g)
    (g_disable_opt g) (g_quiet g) (g_verbose g).

(** A computer on which nothing depends on what was said on standard error *)
Definition unmoved (c : computer) : Prop := forall h h' d, deeds h d -> deeds h' d ->
  pc_look c h = pc_look c h' /\ pc_resolve c h = pc_resolve c h' /\ pc_which c h = pc_which c h' /\ pc_found c h = pc_found c h' /\
  pc_run c h = pc_run c h' /\ pc_mkdir c h = pc_mkdir c h' /\ pc_clean c h = pc_clean c h' /\ pc_configure c h = pc_configure c h' /\
  pc_build c h = pc_build c h'.

(** How a run ends that has found the syscalls [shown]: with the document, or (never in format text)
    with a ValueError *)
Inductive closes (c : computer) (v : version) (a : arch) (shown : list syscall) (fmt : str) (h : list action)
    : list action * outcome Z -> Prop :=
| cl_shown d : output_syscalls (pc_version c) (version_tag v) $"vmlinux" a shown fmt = Ok d ->
    closes c v a shown fmt h (h ++ [Printed d], Ok 0)
| cl_fails : fmt <> $"text" -> output_syscalls (pc_version c) (version_tag v) $"vmlinux" a shown fmt = Raise ValueError ->
    closes c v a shown fmt h (h, Raise ValueError).
