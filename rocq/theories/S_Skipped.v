(** Specification for C119: two different instructions that stand equally often in the code. *)
From Coq Require Import List Bool Ascii String ZArith.
From Verif Require Import PyBase M_Emu.
Import ListNotations.
Open Scope Z_scope.
Open Scope list_scope.

(** Neither compares, branches nor returns, and is no NOP. *)
Definition not_followed (nop : insn -> bool) (i : insn) : Prop := i_kind i = IOther /\ nop i = false.
(** [occurs same nop x prog n]: [n] instructions of the code are [x]. *)
Inductive occurs (same : insn -> insn -> bool) (nop : insn -> bool) (x : insn) : list insn -> Z -> Prop :=
| oc_nil : occurs same nop x [] 0
| oc_same i l n : not_followed nop i -> same x i = true -> occurs same nop x l n -> occurs same nop x (i :: l) (n + 1)
| oc_other i l n : ~ (not_followed nop i /\ same x i = true) -> occurs same nop x l n -> occurs same nop x (i :: l) n.
Definition tied (same : insn -> insn -> bool) (nop : insn -> bool) (prog : list insn) : Prop :=
  exists x y n, In x prog /\ In y prog /\ not_followed nop x /\ not_followed nop y /\ same x y = false /\
    occurs same nop x prog n /\ occurs same nop y prog n.
