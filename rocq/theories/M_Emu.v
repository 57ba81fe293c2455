(** Model of arch/x86.py 341-599: reading the syscall numbers off the compiled dispatcher
    ({x64,x32,ia32}_sys_call).  The decoder (iced_x86) is not modelled: the code is a list of
    decoded instructions.  Log messages are left out, and with them [skipped_insns] (see
    M_Skipped.v); those of level ERROR are in M_Dispatch.v. *)
From Coq Require Import List Bool Ascii String ZArith.
From Verif Require Import PyBase M_Utils M_Elf M_Arch.
Import ListNotations.
Open Scope Z_scope.
Open Scope list_scope.

(** ** Instructions: what the code asks iced_x86 about them *)
Inductive operand := OReg (r : Z) | OImm (z : Z) | OOther.
Inductive cond := CA | CAE | CB | CBE | CE | CNE | COther.
Inductive ikind :=
| IRet                               (* mnemonic RET *)
| ITest (ops : list operand)
| ICmp (ops : list operand)
| IJmp (target : Z)                  (* is_jmp_short_or_near *)
| IJcc (c : cond) (target : Z)       (* is_jcc_short_or_near *)
| ICall (target : Z)                 (* is_call_near *)
| IOther.
Record insn := Insn { i_ip : Z; i_next : Z; i_kind : ikind }.

(** ** Sets of numbers (frozenset), as increasing lists *)
Fixpoint range (a : Z) (n : nat) : list Z :=
  match n with O => [] | S n' => a :: range (a + 1) n' end.
Fixpoint union (a : list Z) : list Z -> list Z :=
  fix union_a (b : list Z) : list Z :=
    match a, b with
    | [], _ => b
    | _, [] => a
    | x :: a', y :: b' =>
        if x <? y then x :: union a' b
        else if y <? x then y :: union_a b'
        else x :: union a' b'
    end.
Definition subset (a b : list Z) : bool := forallb (fun x => zin x b) a.

(** x86.py 366 *)
Definition nr_max : Z := 4096.

(** x86.py 347-357: the first register compared *)
Fixpoint first_reg (ops : list operand) : option Z :=
  match ops with
  | [] => None
  | OReg r :: _ => Some r
  | _ :: ops' => first_reg ops'
  end.
Fixpoint find_nr_reg (insns : list insn) : option Z :=
  match insns with
  | [] => None
  | i :: l =>
      match match i_kind i with ICmp ops | ITest ops => first_reg ops | _ => None end with
      | Some r => Some r
      | None => find_nr_reg l
      end
  end.

Definition op (ops : list operand) (i : nat) : operand := nth i ops OOther.

(** [taken_filter], x86.py 449-461, as a test.  (Python builds the set: an immediate of
    billions needs as many elements.) *)
Definition taken (c : cond) (imm n : Z) : bool :=
  match c with
  | CA => (imm + 1 <=? n) && (n <? nr_max)
  | CAE => (imm <=? n) && (n <? nr_max)
  | CB => (0 <=? n) && (n <? imm)
  | CBE => (0 <=? n) && (n <? imm + 1)
  | CE => n =? imm
  | CNE => ((0 <=? n) && (n <? imm)) || ((imm + 1 <=? n) && (n <? nr_max))
  | COther => false
  end.

(** [nrs]: x86.py 368 *)
Definition nrs_map := list (Z * list Z).
Definition get (m : nrs_map) (ip : Z) : list Z :=
  match dget Z.eqb ip m with Some s => s | None => [] end.
Definition add (m : nrs_map) (ip : Z) (s : list Z) : nrs_map := dset Z.eqb ip (union (get m ip) s) m.

Record emu := Emu {
  s_nrs : nrs_map;
  s_cands : list insn;         (* candidate_insns *)
  s_again : bool;              (* keep_going *)
  s_test : bool;               (* the previous mnemonic was TEST *)
  s_imm : option Z;            (* last_cmp_immediate *)
  s_inv : bool                 (* invert_condition *)
}.

(** [set.add]; [same] is equality of instructions (in iced_x86 it ignores their address) *)
Definition add_cand (same : insn -> insn -> bool) (x : insn) (l : list insn) : list insn :=
  if existsb (same x) l then l else l ++ [x].

Definition inside (start stop ip : Z) : bool := (start <=? ip) && (ip <? stop).

(** x86.py 490-507: branches.  [tk] and [nt] are [new_taken_nrs] and [new_not_taken_nrs]. *)
Definition branch (same : insn -> insn -> bool) (start stop : Z) (i : insn) (target : Z)
    (tk nt : list Z) (s : emu) : emu :=
  let again := if inside start stop target && (target <? i_ip i) && negb (subset tk (get (s_nrs s) target))
               then true else s_again s in
  let cands := if inside start stop target then s_cands s else add_cand same i (s_cands s) in
  let m := add (s_nrs s) target tk in
  let m := add m (i_next i) nt in
  Emu m cands again false (s_imm s) (s_inv s).

(** x86.py 388-507: one instruction; None is [return None] *)
Definition emu_step (same : insn -> insn -> bool) (start stop reg : Z) (s : emu) (i : insn) : option emu :=
  let cur := get (s_nrs s) (i_ip i) in
  if s_test s && negb match i_kind i with IJcc CE _ | IJcc CNE _ => true | _ => false end then None else
  match i_kind i with
  | IRet => Some (Emu (s_nrs s) (s_cands s) (s_again s) false (s_imm s) (s_inv s))
  | ITest ops =>
      match op ops 0, op ops 1 with
      | OReg _, OReg _ =>
          Some (Emu (add (s_nrs s) (i_next i) cur) (s_cands s) (s_again s) true (Some 0) (s_inv s))
      | _, _ => None
      end
  | ICmp ops =>
      match op ops 0, op ops 1 with
      | OReg r, OImm z =>
          if r =? reg
          then Some (Emu (add (s_nrs s) (i_next i) cur) (s_cands s) (s_again s) false (Some z) false)
          else None
      | OImm z, OReg r =>
          if r =? reg
          then Some (Emu (add (s_nrs s) (i_next i) cur) (s_cands s) (s_again s) false (Some z) true)
          else None
      | _, _ => None
      end
  | IJmp t => Some (branch same start stop i t cur [] s)
  | IJcc c t =>
      match c, s_imm s with
      | COther, _ => None
      | _, None => None
      | _, Some imm =>
          let tk := filter (taken c imm) cur in
          let nt := filter (fun n => negb (taken c imm n)) cur in
          Some (if s_inv s then branch same start stop i t nt tk s
                else branch same start stop i t tk nt s)
      end
  | ICall t =>
      if inside start stop t then None else Some (branch same start stop i t cur [] s)
  | IOther => Some (Emu (add (s_nrs s) (i_next i) cur) (s_cands s) (s_again s) false (s_imm s) (s_inv s))
  end.

(** x86.py 388: the for loop *)
Fixpoint emu_pass (same : insn -> insn -> bool) (start stop reg : Z) (s : emu) (l : list insn) : option emu :=
  match l with
  | [] => Some s
  | i :: l' =>
      match emu_step same start stop reg s i with
      | Some s' => emu_pass same start stop reg s' l'
      | None => None
      end
  end.

(** x86.py 380-386: the while loop *)
Fixpoint emu_loop (same : insn -> insn -> bool) (start stop reg : Z) (insns : list insn) (fuel : nat)
    (m : nrs_map) (cands : list insn) : outcome (option (nrs_map * list insn)) :=
  match fuel with
  | O => Diverge
  | S fuel' =>
      match emu_pass same start stop reg (Emu m cands false false None false) insns with
      | None => Ok None
      | Some s =>
          if s_again s then emu_loop same start stop reg insns fuel' (s_nrs s) (s_cands s)
          else Ok (Some (s_nrs s, s_cands s))
      end
  end.

(** The fuel is a bound on the number of passes (C40). *)
Definition emu_fuel (insns : list insn) : nat := S (S (List.length insns * Z.to_nat nr_max)).

(** x86.py 341-520; [start], [stop]: bounds of the function *)
Definition emulate (same : insn -> insn -> bool) (start stop : Z) (insns : list insn)
    : outcome (option (nrs_map * list insn)) :=
  match find_nr_reg insns with
  | None => Ok None
  | Some reg => emu_loop same start stop reg insns (emu_fuel insns) [(start, range 0 (Z.to_nat nr_max))] []
  end.

(** x86.py 583-594: the numbers of one candidate; None is [return {}] *)
Fixpoint put_numbers (vaddr : Z) (numbers : list Z) (vaddrs : list (Z * Z)) : option (list (Z * Z)) :=
  match numbers with
  | [] => Some vaddrs
  | nr :: l =>
      match dget Z.eqb nr vaddrs with
      | Some v => if v =? vaddr then put_numbers vaddr l vaddrs else None
      | None => put_numbers vaddr l (dset Z.eqb nr vaddr vaddrs)
      end
  end.

Definition target_of (i : insn) : Z :=
  match i_kind i with IJmp t | IJcc _ t | ICall t => t | _ => 0 end.

(** x86.py 556-596, over the candidates in the order of iteration of the set *)
Fixpoint collect (m : nrs_map) (cands : list insn) (vaddrs : list (Z * Z)) (found : bool) : list (Z * Z) :=
  match cands with
  | [] => vaddrs
  | i :: l =>
      let vaddr := target_of i in
      let numbers := get m vaddr in
      if len numbers =? 0 then []
      else if 100 <? len numbers then
        (if found then [] else collect m l vaddrs true)
      else
        match put_numbers vaddr numbers vaddrs with
        | Some vaddrs' => collect m l vaddrs' found
        | None => []
        end
  end.

(** x86.py 522-599.  [decode]: the decoder; [order]: the order of iteration of the set of
    candidates. *)
Definition extract_syscall_vaddrs (decode : bool -> bytes -> Z -> list insn) (same : insn -> insn -> bool)
    (order : list insn -> list insn) (a : arch) (e : elf) : outcome (list (Z * Z)) :=
  match a_table a with
  | Some _ => Raise AssertionError
  | None =>
      match dget str_eqb (a_abi a ++ $"_sys_call") (e_functions e) with
      | None => Ok []
      | Some sym =>
          if sym_size sym <? 16 then Ok [] else
          code <- read_symbol e sym ;;
          res <- emulate same (sym_real sym) (sym_real sym + sym_size sym)
                   (decode (a_bits32 a) code (sym_real sym)) ;;
          match res with
          | None => Ok []
          | Some (m, cands) => Ok (collect m (order cands) [] false)
          end
      end
  end.
