(** Model of the messages of level ERROR of arch/x86.py 341-599 (C118), beside the results
    of M_Emu.v.  A message is given by its format and arguments; its text is not written
    out.  Each function follows the one of the same name in M_Emu.v and tells the message
    logged before it gives up, if it does. *)
From Coq Require Import List Bool Ascii String ZArith.
From Verif Require Import PyBase M_Utils M_Elf M_Arch M_Emu.
Import ListNotations.
Open Scope Z_scope.
Open Scope list_scope.

Inductive complaint :=
| NoFunction (name : str)                (* x86.py 545 *)
| TooSmall (name : str) (size : Z)       (* x86.py 549 *)
| NoRegister                             (* x86.py 361 *)
| AfterTest (i : insn)                   (* x86.py 398 *)
| BadTest (i : insn)                     (* x86.py 406 *)
| BadCmp (i : insn)                      (* x86.py 431 *)
| OtherRegister (i : insn)               (* x86.py 435 *)
| BadJcc (i : insn)                      (* x86.py 450 *)
| NoCompare (i : insn)                   (* x86.py 453 *)
| CallsItself (i : insn)                 (* x86.py 482; the name of the function is left out *)
| Unreached (vaddr : Z) (i : insn)       (* x86.py 571 *)
| TwoDefaults                            (* x86.py 581 *)
| TwoTargets (nr v v' : Z).              (* x86.py 592 *)

(** x86.py 397-398 *)
Definition je_or_jne (i : insn) : bool :=
  match i_kind i with IJcc CE _ | IJcc CNE _ => true | _ => false end.
(** [op_kind == REGISTER]; [insn.immediate] raises ValueError for other operands *)
Definition is_reg (o : operand) : bool := match o with OReg _ => true | _ => false end.
Definition is_imm (o : operand) : bool := match o with OImm _ => true | _ => false end.

(** x86.py 416-437: the messages for a CMP *)
Definition cmp_complaint (reg : Z) (i : insn) (ops : list operand) : option complaint :=
  match op ops 0, op ops 1 with
  | OReg r, o | o, OReg r =>
      if negb (is_imm o) then Some (BadCmp i)
      else if negb (r =? reg) then Some (OtherRegister i)
      else None
  | _, _ => Some (BadCmp i)
  end.

(** x86.py 388-507: one instruction *)
Definition step_complaint (start stop reg : Z) (s : emu) (i : insn) : option complaint :=
  if s_test s && negb (je_or_jne i) then Some (AfterTest i) else
  match i_kind i with
  | ITest ops => if negb (is_reg (op ops 0)) || negb (is_reg (op ops 1)) then Some (BadTest i) else None
  | ICmp ops => cmp_complaint reg i ops
  | IJcc COther _ => Some (BadJcc i)
  | IJcc _ _ => match s_imm s with None => Some (NoCompare i) | Some _ => None end
  | ICall t => if inside start stop t then Some (CallsItself i) else None
  | _ => None
  end.

(** x86.py 388: the for loop *)
Fixpoint pass_complaint (same : insn -> insn -> bool) (start stop reg : Z) (s : emu) (l : list insn) : option complaint :=
  match l with
  | [] => None
  | i :: l' =>
      match step_complaint start stop reg s i with
      | Some c => Some c
      | None =>
          match emu_step same start stop reg s i with
          | Some s' => pass_complaint same start stop reg s' l'
          | None => None
          end
      end
  end.

(** x86.py 380-386: the while loop *)
Fixpoint loop_complaint (same : insn -> insn -> bool) (start stop reg : Z) (insns : list insn) (fuel : nat)
    (m : nrs_map) (cands : list insn) : option complaint :=
  match fuel with
  | O => None
  | S fuel' =>
      let s := Emu m cands false false None false in
      match pass_complaint same start stop reg s insns with
      | Some c => Some c
      | None =>
          match emu_pass same start stop reg s insns with
          | Some s' =>
              if s_again s' then loop_complaint same start stop reg insns fuel' (s_nrs s') (s_cands s')
              else None
          | None => None
          end
      end
  end.

(** x86.py 341-520 *)
Definition emulate_complaint (same : insn -> insn -> bool) (start stop : Z) (insns : list insn) : option complaint :=
  match find_nr_reg insns with
  | None => Some NoRegister
  | Some reg => loop_complaint same start stop reg insns (emu_fuel insns) [(start, range 0 (Z.to_nat nr_max))] []
  end.

(** x86.py 583-594 *)
Fixpoint put_complaint (vaddr : Z) (numbers : list Z) (vaddrs : list (Z * Z)) : option complaint :=
  match numbers with
  | [] => None
  | nr :: l =>
      match dget Z.eqb nr vaddrs with
      | Some v => if v =? vaddr then put_complaint vaddr l vaddrs else Some (TwoTargets nr v vaddr)
      | None => put_complaint vaddr l (dset Z.eqb nr vaddr vaddrs)
      end
  end.

(** x86.py 556-596 *)
Fixpoint collect_complaint (m : nrs_map) (cands : list insn) (vaddrs : list (Z * Z)) (found : bool) : option complaint :=
  match cands with
  | [] => None
  | i :: l =>
      let vaddr := target_of i in
      let numbers := get m vaddr in
      if len numbers =? 0 then Some (Unreached vaddr i)
      else if 100 <? len numbers then
        (if found then Some TwoDefaults else collect_complaint m l vaddrs true)
      else
        match put_complaint vaddr numbers vaddrs with
        | Some c => Some c
        | None =>
            match put_numbers vaddr numbers vaddrs with
            | Some vaddrs' => collect_complaint m l vaddrs' found
            | None => None
            end
        end
  end.

(** x86.py 522-599; [Raise] as in M_Emu.v *)
Definition extract_complaint (decode : bool -> bytes -> Z -> list insn) (same : insn -> insn -> bool)
    (order : list insn -> list insn) (a : arch) (e : elf) : outcome (option complaint) :=
  match a_table a with
  | Some _ => Raise AssertionError
  | None =>
      let name := a_abi a ++ $"_sys_call" in
      match dget str_eqb name (e_functions e) with
      | None => Ok (Some (NoFunction name))
      | Some sym =>
          if sym_size sym <? 16 then Ok (Some (TooSmall (sym_name sym) (sym_size sym))) else
          code <- read_symbol e sym ;;
          let start := sym_real sym in
          let stop := sym_real sym + sym_size sym in
          let insns := decode (a_bits32 a) code start in
          res <- emulate same start stop insns ;;
          match res with
          | None => Ok (emulate_complaint same start stop insns)
          | Some (m, cands) => Ok (collect_complaint m (order cands) [] false)
          end
      end
  end.
