(** Specifications for the log messages (C95). *)
From Coq Require Import List Bool Ascii String ZArith.
From Verif Require Import PyBase M_Log.
Import ListNotations.
Open Scope Z_scope.
Open Scope list_scope.

(** A value of a kind *)
Inductive of_kind : kind -> value -> Prop :=
| ok_int z : of_kind KInt (VInt z)
| ok_obj s r : of_kind KObj (VObj s r)
| ok_none : of_kind KOptInt VNone
| ok_some z : of_kind KOptInt (VInt z).

(** A message is a sequence of literal characters and of places for arguments. *)
Inductive hole := Text | Repr | Decimal | Hexadecimal | Prefixed.
Inductive part := Char (c : ascii) | Place (h : hole).

(** How a message is written in the source *)
Definition written_part (p : part) : str :=
  match p with
  | Char c => [c]
  | Place Text => $"%s"
  | Place Repr => $"%r"
  | Place Decimal => $"%d"
  | Place Hexadecimal => $"%x"
  | Place Prefixed => $"%#x"
  end.
Definition written (l : list part) : str := flat_map written_part l.
Definition plain_part (p : part) : Prop := match p with Char c => c <> "%"%char | Place _ => True end.

(** How a number is shown: the digits, read in the base, give it back. *)
Definition number_in (base : Z) (pre : str) (z : Z) (s : str) : Prop :=
  exists d, d <> [] /\ Forall (fun c => if base =? 10 then is_dec c = true else is_hex c = true) d /\
    ((0 <= z /\ s = pre ++ d /\ int_of_digits base d = z) \/
     (z < 0 /\ s = "-"%char :: pre ++ d /\ int_of_digits base d = - z)).
(** How an argument is shown in a place *)
Inductive shown : hole -> value -> str -> Prop :=
| sh_text s r : shown Text (VObj s r) s
| sh_text_none : shown Text VNone $"None"
| sh_text_int z s : number_in 10 [] z s -> shown Text (VInt z) s
| sh_repr s r : shown Repr (VObj s r) r
| sh_decimal z s : number_in 10 [] z s -> shown Decimal (VInt z) s
| sh_hex z s : number_in 16 [] z s -> shown Hexadecimal (VInt z) s
| sh_prefixed z s : number_in 16 $"0x" z s -> shown Prefixed (VInt z) s.

(** The text: the characters as they are, the arguments in their places, in order, none left. *)
Inductive filled : list part -> list value -> str -> Prop :=
| fi_end : filled [] [] []
| fi_char c l vs t : filled l vs t -> filled (Char c :: l) vs (c :: t)
| fi_place h l v vs s t : shown h v s -> filled l vs t -> filled (Place h :: l) (v :: vs) (s ++ t).
