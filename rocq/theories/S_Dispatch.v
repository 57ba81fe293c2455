(** Specification of what makes a dispatcher unreadable (C118), on the list of instructions.
    From the model the instructions and the messages are used. *)
From Coq Require Import List Bool Ascii String ZArith Permutation.
From Verif Require Import PyBase M_Utils M_Elf M_Arch M_Emu M_Dispatch S_Emu.
Import ListNotations.
Open Scope Z_scope.
Open Scope list_scope.

Definition a_test (i : insn) : Prop := exists ops, i_kind i = ITest ops.
Definition is_jcc (i : insn) : Prop := exists c t, i_kind i = IJcc c t.
(** The first operands are [a] and [b]. *)
Definition operands (ops : list operand) (a b : operand) : Prop := exists more, ops = a :: b :: more.
(** Register and immediate, in either order. *)
Definition compares (ops : list operand) (r z : Z) : Prop :=
  operands ops (OReg r) (OImm z) \/ operands ops (OImm z) (OReg r).

(** [r] is the first register that a comparison mentions. *)
Definition mentions (i : insn) (r : Z) : Prop :=
  exists ops, (i_kind i = ICmp ops \/ i_kind i = ITest ops) /\ In (OReg r) ops.
Definition first_in (i : insn) (r : Z) : Prop :=
  exists ops a b, (i_kind i = ICmp ops \/ i_kind i = ITest ops) /\ ops = a ++ OReg r :: b /\ forall x, ~ In (OReg x) a.
Definition number_register (prog : list insn) (r : Z) : Prop :=
  exists a i b, prog = a ++ i :: b /\ first_in i r /\ forall j x, In j a -> ~ mentions j x.
Definition no_register (prog : list insn) : Prop := forall i r, In i prog -> ~ mentions i r.

(** Right after a TEST, and no JE or JNE. *)
Definition stray (before : list insn) (i : insn) : Prop :=
  (exists a t, before = a ++ [t] /\ a_test t) /\ ~ is_je_jne i.

(** What is wrong with the instruction [i] that comes after the instructions [before]. *)
Inductive wrong (reg start stop : Z) (before : list insn) (i : insn) : complaint -> Prop :=
| w_after : stray before i -> wrong reg start stop before i (AfterTest i)
| w_test ops : ~ stray before i -> i_kind i = ITest ops -> (forall r r', ~ operands ops (OReg r) (OReg r')) ->
    wrong reg start stop before i (BadTest i)
| w_cmp ops : ~ stray before i -> i_kind i = ICmp ops -> (forall r z, ~ compares ops r z) ->
    wrong reg start stop before i (BadCmp i)
| w_reg ops r z : ~ stray before i -> i_kind i = ICmp ops -> compares ops r z -> r <> reg ->
    wrong reg start stop before i (OtherRegister i)
| w_jcc t : ~ stray before i -> i_kind i = IJcc COther t -> wrong reg start stop before i (BadJcc i)
| w_nocmp c t : ~ stray before i -> i_kind i = IJcc c t -> c <> COther -> Forall (fun j => ~ is_compare j) before ->
    wrong reg start stop before i (NoCompare i)
| w_call t : ~ stray before i -> i_kind i = ICall t -> start <= t < stop -> wrong reg start stop before i (CallsItself i).

(** The first instruction with which something is wrong, and what it is. *)
Definition first_wrong (reg start stop : Z) (prog : list insn) (c : complaint) : Prop :=
  exists a i b, prog = a ++ i :: b /\ wrong reg start stop a i c /\
    forall a' j b' c', a = a' ++ j :: b' -> ~ wrong reg start stop a' j c'.
Definition all_right (reg start stop : Z) (prog : list insn) : Prop :=
  forall a i b c, prog = a ++ i :: b -> ~ wrong reg start stop a i c.

(** What is wrong with a program as a whole. *)
Definition unreadable (start stop : Z) (prog : list insn) (c : complaint) : Prop :=
  (no_register prog /\ c = NoRegister) \/ exists reg, number_register prog reg /\ first_wrong reg start stop prog c.

(** What is wrong with the targets, [numbers] being the sets found for them. *)
Inductive tells (numbers : Z -> list Z) (cands : list insn) : complaint -> Prop :=
| t_unreached i : In i cands -> bad_set numbers (target_of i) -> tells numbers cands (Unreached (target_of i) i)
| t_defaults a i b j c : cands = a ++ i :: b ++ j :: c -> default_case numbers (target_of i) ->
    default_case numbers (target_of j) -> tells numbers cands TwoDefaults
| t_targets a i b j c n : cands = a ++ i :: b ++ j :: c -> target_of i <> target_of j ->
    ~ default_case numbers (target_of i) -> ~ default_case numbers (target_of j) ->
    In n (numbers (target_of i)) -> In n (numbers (target_of j)) ->
    tells numbers cands (TwoTargets n (target_of i) (target_of j)).

(** From the image: the function, its size, its code, its targets (in any order). *)
Inductive announced (decode : bool -> bytes -> Z -> list insn) (same : insn -> insn -> bool) (a : arch) (e : elf) : complaint -> Prop :=
| an_function : dget str_eqb (a_abi a ++ $"_sys_call") (e_functions e) = None ->
    announced decode same a e (NoFunction (a_abi a ++ $"_sys_call"))
| an_small sym : dget str_eqb (a_abi a ++ $"_sys_call") (e_functions e) = Some sym -> sym_size sym < 16 ->
    announced decode same a e (TooSmall (sym_name sym) (sym_size sym))
| an_code sym code c : dget str_eqb (a_abi a ++ $"_sys_call") (e_functions e) = Some sym -> 16 <= sym_size sym ->
    read_symbol e sym = Ok code ->
    unreadable (sym_real sym) (sym_real sym + sym_size sym) (decode (a_bits32 a) code (sym_real sym)) c ->
    announced decode same a e c
| an_targets sym code m l l' c : dget str_eqb (a_abi a ++ $"_sys_call") (e_functions e) = Some sym -> 16 <= sym_size sym ->
    read_symbol e sym = Ok code ->
    emulate same (sym_real sym) (sym_real sym + sym_size sym) (decode (a_bits32 a) code (sym_real sym)) = Ok (Some (m, l)) ->
    Permutation l' l -> tells (get m) l' c -> announced decode same a e c.
