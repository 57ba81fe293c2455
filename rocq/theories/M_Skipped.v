(** Model of arch/x86.py 372-373, 484-486 and 513-518 (C119): the instructions that the emulation does
    not know are counted and sorted for a message of level DEBUG, whatever the level logged.
    M_Emu.v leaves this out.  Not modelled: the texts of the instructions. *)
From Coq Require Import List Bool Ascii String ZArith.
From Verif Require Import PyBase M_Utils M_Elf M_Arch M_Emu.
Import ListNotations.
Open Scope Z_scope.
Open Scope list_scope.

(** x86.py 486: [skipped_insns[insn] += 1], a dictionary with instructions as keys *)
Fixpoint bump (same : insn -> insn -> bool) (i : insn) (d : list (insn * Z)) : list (insn * Z) :=
  match d with
  | [] => [(i, 1)]
  | (k, n) :: d' => if same i k then (k, n + 1) :: d' else (k, n) :: bump same i d'
  end.
(** x86.py 484-486: the instructions that get there, in the first iteration; [nop] is [op_code().is_nop]. *)
Definition unknown (nop : insn -> bool) (i : insn) : bool :=
  match i_kind i with IOther => negb (nop i) | _ => false end.
Definition skipped (same : insn -> insn -> bool) (nop : insn -> bool) (insns : list insn) : list (insn * Z) :=
  fold_left (fun d i => bump same i d) (filter (unknown nop) insns) [].

(** x86.py 515, [itemgetter(1, 0)]: comparing the keys (count, instruction), Python's order of tuples.  [lt] is [<] of instructions. *)
Definition key_lt (same : insn -> insn -> bool) (lt : insn -> insn -> outcome bool) (a b : insn * Z) : outcome bool :=
  if negb (snd a =? snd b) then Ok (snd a <? snd b)
  else if same (fst a) (fst b) then Ok false
  else lt (fst a) (fst b).
(** x86.py 515: [sorted], as an insertion sort (every sort by comparisons compares neighbours of
    the result).  The reversal is left out. *)
Fixpoint insert (same : insn -> insn -> bool) (lt : insn -> insn -> outcome bool) (x : insn * Z) (l : list (insn * Z)) : outcome (list (insn * Z)) :=
  match l with
  | [] => Ok [x]
  | y :: l' =>
      b <- key_lt same lt x y ;;
      if b : bool then Ok (x :: y :: l') else r <- insert same lt x l' ;; Ok (y :: r)
  end.
Fixpoint sort_skipped (same : insn -> insn -> bool) (lt : insn -> insn -> outcome bool) (l : list (insn * Z)) : outcome (list (insn * Z)) :=
  match l with
  | [] => Ok []
  | x :: l' => s <- sort_skipped same lt l' ;; insert same lt x s
  end.

(** x86.py 522-599 with 513-518 *)
Definition extract_with_debug (decode : bool -> bytes -> Z -> list insn) (same : insn -> insn -> bool) (lt : insn -> insn -> outcome bool)
    (nop : insn -> bool) (order : list insn -> list insn) (a : arch) (e : elf) : outcome (list (Z * Z)) :=
  match a_table a with
  | Some _ => Raise AssertionError
  | None =>
      match dget str_eqb (a_abi a ++ $"_sys_call") (e_functions e) with
      | None => Ok []
      | Some sym =>
          if sym_size sym <? 16 then Ok [] else
          code <- read_symbol e sym ;;
          let insns := decode (a_bits32 a) code (sym_real sym) in
          res <- emulate same (sym_real sym) (sym_real sym + sym_size sym) insns ;;
          match res with
          | None => Ok []
          | Some (m, cands) =>
              _ <- sort_skipped same lt (skipped same nop insns) ;;
              Ok (collect m (order cands) [] false)
          end
      end
  end.
