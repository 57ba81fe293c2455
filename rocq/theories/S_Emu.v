(** Specifications for the x86 dispatcher (C40-C43): what running it does.  From the model
    only the type of instructions is used. *)
From Coq Require Import List Bool Ascii String ZArith Permutation.
From Verif Require Import PyBase M_Emu.
Import ListNotations.
Open Scope Z_scope.
Open Scope list_scope.

(** Consecutive instructions filling the addresses from [a] to [b]. *)
Inductive code_from : Z -> list insn -> Z -> Prop :=
| cf_nil a : code_from a [] a
| cf_cons i l b : i_ip i < i_next i -> code_from (i_next i) l b -> code_from (i_ip i) (i :: l) b.

(** When a conditional jump is taken after comparing [n] with [z] (unsigned). *)
Definition holds (c : cond) (n z : Z) : Prop :=
  match c with
  | CA => n > z | CAE => n >= z | CB => n < z | CBE => n <= z | CE => n = z | CNE => n <> z
  | COther => False
  end.

(** One instruction, run when the number register holds [n] and the flags are those of a
    comparison with [f], if any.  Leaving the function ends the run. *)
Inductive step (n : Z) (i : insn) (f : option Z) : Z -> option Z -> Prop :=
| st_cmp r z : i_kind i = ICmp [OReg r; OImm z] -> step n i f (i_next i) (Some z)
| st_test r : i_kind i = ITest [OReg r; OReg r] -> step n i f (i_next i) (Some 0)
| st_jmp t : i_kind i = IJmp t -> step n i f t f
| st_taken c t z : i_kind i = IJcc c t -> f = Some z -> holds c n z -> step n i f t f
| st_not_taken c t z : i_kind i = IJcc c t -> f = Some z -> ~ holds c n z -> step n i f (i_next i) f
| st_call t : i_kind i = ICall t -> step n i f t f
| st_other : i_kind i = IOther -> step n i f (i_next i) f.

(** [reach start prog n ip f]: the run with [n] comes to the address [ip] with flags [f]. *)
Inductive reach (start : Z) (prog : list insn) (n : Z) : Z -> option Z -> Prop :=
| rc_start : reach start prog n start None
| rc_step i f ip' f' : reach start prog n (i_ip i) f -> In i prog -> step n i f ip' f' ->
    reach start prog n ip' f'.
Definition reaches (start : Z) (prog : list insn) (n ip : Z) : Prop := exists f, reach start prog n ip f.

Definition branches_to (i : insn) (t : Z) : Prop :=
  i_kind i = IJmp t \/ i_kind i = ICall t \/ exists c, i_kind i = IJcc c t.

Definition exits (start stop : Z) (i : insn) (t : Z) : Prop := branches_to i t /\ ~ (start <= t < stop).
(** The syscall numbers that come to an address. *)
Definition numbers_of (start : Z) (prog : list insn) (k : Z) (ns : list Z) : Prop :=
  NoDup ns /\ forall n, In n ns <-> 0 <= n < 4096 /\ reaches start prog n k.

(** Instructions with a meaning above, comparing one register only, and not calling the
    function itself.  ([IOther] is meant to change neither the register nor the flags.) *)
Definition supported (reg start stop : Z) (i : insn) : Prop :=
  match i_kind i with
  | ICmp ops => exists z, ops = [OReg reg; OImm z]
  | ITest ops => ops = [OReg reg; OReg reg]
  | IJcc c _ => c <> COther
  | ICall t => ~ (start <= t < stop)
  | _ => True
  end.
Definition is_compare (i : insn) : Prop := match i_kind i with ICmp _ | ITest _ => True | _ => False end.
Definition is_je_jne (i : insn) : Prop := exists t, i_kind i = IJcc CE t \/ i_kind i = IJcc CNE t.
(** Flags survive these. *)
Definition passes (i : insn) : Prop := match i_kind i with IJcc _ _ | IOther => True | _ => False end.

(** Every conditional jump is reached only by falling through from a comparison. *)
Definition fresh (prog : list insn) : Prop :=
  forall pre j post, prog = pre ++ j :: post -> (exists c t, i_kind j = IJcc c t) ->
  exists pre' cmp mid, pre = pre' ++ cmp :: mid /\ is_compare cmp /\ Forall passes mid /\
    forall k i, In k (mid ++ [j]) -> In i prog -> ~ branches_to i (i_ip k).

(** A dispatcher as compilers make them. *)
Record dispatcher (reg start stop : Z) (prog : list insn) : Prop := {
  d_code : code_from start prog stop;
  d_supported : Forall (supported reg start stop) prog;
  d_fresh : fresh prog;
  d_compares : exists i, In i prog /\ is_compare i;
  (* a TEST is followed by JE or JNE *)
  d_tests : forall a i j b, prog = a ++ i :: j :: b ->
    (exists ops, i_kind i = ITest ops) -> is_je_jne j
}.

(** ** The mapping *)

(** [numbers t]: the set found for the target [t]. *)
Definition bad_set (numbers : Z -> list Z) (t : Z) : Prop := numbers t = [].
Definition default_case (numbers : Z -> list Z) (t : Z) : Prop := 100 < len (numbers t).
Definition clash (numbers : Z -> list Z) (t t' : Z) : Prop :=
  t <> t' /\ ~ default_case numbers t /\ ~ default_case numbers t' /\
  exists n, In n (numbers t) /\ In n (numbers t').
(** Something in the list of targets makes the result empty. *)
Definition conflict (numbers : Z -> list Z) (ts : list Z) : Prop :=
  (exists t, In t ts /\ bad_set numbers t) \/
  (exists a t b t' c, ts = a ++ t :: b ++ t' :: c /\ default_case numbers t /\ default_case numbers t') \/
  (exists t t', In t ts /\ In t' ts /\ clash numbers t t').

(** Run with the number [n] the dispatcher leaves for [v], as with at most 100 numbers. *)
Definition leads_to (start stop : Z) (prog : list insn) (n v : Z) : Prop :=
  0 <= n < 4096 /\ reaches start prog n v /\ (exists i, In i prog /\ exits start stop i v) /\
  exists ns, numbers_of start prog v ns /\ len ns <= 100.
(** More than 100 numbers come to an address. *)
Definition crowded (start : Z) (prog : list insn) (v : Z) : Prop := exists ns, numbers_of start prog v ns /\ 100 < len ns.
(** An exit that no number takes, or two different exits with too many of them. *)
Inductive muddled (same : insn -> insn -> bool) (start stop : Z) (prog : list insn) : Prop :=
| md_unreached i t : In i prog -> exits start stop i t -> (forall n, 0 <= n < 4096 -> ~ reaches start prog n t) -> muddled same start stop prog
| md_two i j t t' : In i prog -> In j prog -> same j i = false -> exits start stop i t -> exits start stop j t' ->
    crowded start prog t -> crowded start prog t' -> muddled same start stop prog.
