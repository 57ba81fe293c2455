(** Specification for C105: dispatchers in images, and equality of instructions. *)
From Coq Require Import List Bool Ascii String ZArith.
From Verif Require Import PyBase M_Utils M_Elf M_Arch M_Emu S_Emu.
Import ListNotations.
Open Scope Z_scope.
Open Scope list_scope.

(** Instructions that are equal do the same (they may be at different addresses). *)
Definition an_equality (same : insn -> insn -> bool) : Prop :=
  (forall a, same a a = true) /\ (forall a b, same a b = true -> same b a = true) /\ (forall a b c, same a b = true -> same b c = true -> same a c = true) /\
  forall a b, same a b = true -> i_kind a = i_kind b.
(** The function of the image that is the dispatcher, and its code *)
Definition has_dispatcher (decode : bool -> bytes -> Z -> list insn) (a : arch) (e : elf) (start stop : Z) (prog : list insn) : Prop :=
  a_table a = None /\ exists sym reg code, dget str_eqb (a_abi a ++ $"_sys_call") (e_functions e) = Some sym /\ 16 <= sym_size sym /\
    start = sym_real sym /\ stop = sym_real sym + sym_size sym /\ read_symbol e sym = Ok code /\ prog = decode (a_bits32 a) code start /\ dispatcher reg start stop prog.

