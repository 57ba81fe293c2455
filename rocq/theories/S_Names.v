(** Specification of the names of the reported syscalls (C86), stated without the model. *)
From Coq Require Import List Ascii String ZArith.
From Verif Require Import PyBase M_Elf M_Syscall S_Syscall M_Arch S_Arch S_Kernel.
Import ListNotations.
Open Scope Z_scope.
Open Scope list_scope.

(** [t] is [s] without the longest of the prefixes [P] it starts with, if it starts with one. *)
Definition drop_longest (P : str -> Prop) (s t : str) : Prop :=
  (exists p, P p /\ s = p ++ t /\ forall q, P q -> is_prefix q s -> len q <= len p) \/
  (t = s /\ forall p, P p -> ~ is_prefix p s).

(** What the kernel's wrappers put before the name of a syscall function. *)
Definition wrapper_prefixes : list str :=
  [$"__sys_"; $"__se_sys_"; $"__se_compat_sys_"; $"compat_sys_"; $"ptregs_sys_"; $"ptregs_compat_sys_"].
(** [t] is what a symbol named [s] is called without the decorations of the architecture. *)
Definition symbol_part (k : klass) (s t : str) : Prop :=
  match k with
  | KArm => exists u, drop_prefix wrapper_prefixes s u /\ drop_suffix [$"_wrapper"] u t
  | KPowerPC => exists u, drop_longest (fun p => p = $"." \/ p = $".sys_") s u /\ drop_prefix wrapper_prefixes u t
  | KX86 => exists u, drop_prefix wrapper_prefixes s u /\ drop_prefix [$"stub_"; $"stub32_"] u t
  | _ => drop_prefix wrapper_prefixes s t
  end.

(** [names] are the names of the symbols chosen for the implemented entries of the table. *)
Inductive implemented_names (e : elf) (choice : Z -> option symbol) : list (Z * Z) -> list str -> Prop :=
| im_nil : implemented_names e choice [] []
| im_ni i v l n : not_implemented e v -> implemented_names e choice l n -> implemented_names e choice ((i, v) :: l) n
| im_impl i v s l n : ~ not_implemented e v -> choice v = Some s -> implemented_names e choice l n ->
    implemented_names e choice ((i, v) :: l) (sym_name s :: n).

(** [orig] and [name]: what a symbol is reported as, if [names] are all those of the table.  A prefix
    is common if 20 of them have it. *)
Definition reported_as (a : arch) (names : list str) (symbol orig name : str) : Prop :=
  exists t, symbol_part (a_class a) symbol t /\ drop_longest (common_prefix names 20) t orig /\ normal_name a orig name.
