(** Specification of what is logged about the syscalls (C88). *)
From Coq Require Import List Bool Ascii String ZArith.
From Verif Require Import PyBase M_Utils M_Elf M_Syscall M_Kernel S_Kernel M_Warn.
Import ListNotations.
Open Scope Z_scope.
Open Scope list_scope.

(** [r]: the elements of [l] that have the property, in order. *)
Inductive picks {A} (P : A -> Prop) : list A -> list A -> Prop :=
| picks_nil : picks P [] []
| picks_in x l r : P x -> picks P l r -> picks P (x :: l) (x :: r)
| picks_out x l r : ~ P x -> picks P l r -> picks P (x :: l) r.

(** Not implemented, judging by the location. *)
Definition dropped (kdir : option path) (s : syscall) : Prop :=
  of_table s = true /\ sc_good s = false /\ in_sys_ni kdir s.
(** There is a location, but it is not known to be that of the definition. *)
Definition uncertain (s : syscall) : Prop :=
  of_table s = true /\ sc_good s = false /\ sc_file s <> None.

(** The image has line numbers; it has descriptions of the syscalls' arguments. *)
Definition has_lines (e : elf) : Prop := exists s, In ($".debug_line", s) (e_sections e).
Definition has_descriptions (e : elf) : Prop := exists s, In ($"__start_syscalls_metadata", s) (e_symbols e).

(** What a message says about a syscall. *)
Definition file_named (f : path) (suffix : str) : Prop := exists pre name, parts f = pre ++ [name ++ suffix].
Inductive hint_for (f : path) : str -> Prop :=
| hint_asm : file_named f $".S" -> hint_for f $" (implemented in asm?)"
| hint_c : file_named f $".c" -> hint_for f $" (normal function w/o asmlinkage?)"
| hint_none : ~ file_named f $".S" -> ~ file_named f $".c" -> hint_for f [].
(** A file below the sources is shown relative to them. *)
Inductive shown_as (kdir : option path) (f : path) : path -> Prop :=
| shown_below k t : kdir = Some k -> f = path_join k (Path [] t) -> shown_as kdir f (Path [] t)
| shown_other : (forall k t, kdir = Some k -> f <> path_join k (Path [] t)) -> shown_as kdir f f.
Definition says_dropped (kdir : option path) (s : syscall) (m : message) : Prop :=
  exists f p n, sc_file s = Some f /\ shown_as kdir f p /\ sc_line s = Some n /\ m = MDropped (sc_name s) p n.
Definition says_bad (kdir : option path) (s : syscall) (m : message) : Prop :=
  exists f p h, sc_file s = Some f /\ shown_as kdir f p /\ hint_for f h /\
    m = MBad (sc_name s) (sym_name (sc_symbol s)) p (sc_line s) h.
Definition no_loc (s : syscall) : message := MNoLoc (sc_name s) (sym_name (sc_symbol s)).
Definition no_sig (s : syscall) : message := MNoSig (sc_name s) (sym_name (sc_symbol s)).
