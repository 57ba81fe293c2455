(** Model of /repo/src/systrack/kconfig.py *)
From Coq Require Import List Bool Ascii String ZArith.
From Verif Require Import PyBase M_Utils M_KconfigTables M_Arch.
Import ListNotations.
Open Scope Z_scope.
Open Scope list_scope.

(** kconfig_options.py 57-373: the tables as objects *)
Definition KCONFIG_DEBUGGING : vlist str := vl_new tbl_kconfig_debugging.
Definition KCONFIG_COMPATIBILITY : vlist str := vl_new tbl_kconfig_compatibility.
Definition KCONFIG_MORE_SYSCALLS : vdict str (list str) := vd_new str_eqb tbl_kconfig_more_syscalls.
Definition KCONFIG_SYSCALL_DEPS : vdict str str := vd_new str_eqb tbl_kconfig_syscall_deps.

(** kconfig.py 18-25.  Nothing is ever added to these objects, so the cache does not matter. *)
Definition kconfig_debugging (v : version) : list str := vl_getversion KCONFIG_DEBUGGING v.
Definition kconfig_compatibility (v : version) : list str := vl_getversion KCONFIG_COMPATIBILITY v.
Definition kconfig_more_syscalls (v : version) : dict str (list str) :=
  vd_getversion str_eqb KCONFIG_MORE_SYSCALLS v.

(** kconfig.py 27-30.  An empty option counts as none. *)
Definition kconfig_syscall_deps (name : str) (v : version) (a : arch) : option str :=
  let get (d : vdict str str) := dget str_eqb name (vd_getversion str_eqb d v) in
  let opt := match get (vd_new str_eqb (arch_syscall_deps (a_class a))) with
             | Some (c :: s) => Some (c :: s)
             | _ => get KCONFIG_SYSCALL_DEPS
             end in
  match opt with
  | Some (c :: s) => Some ($"CONFIG_" ++ c :: s)
  | _ => None
  end.
