(** Specification for C94: the table after clicks. *)
From Coq Require Import List Bool Ascii String ZArith Sorted.
From Verif Require Import PyBase M_Utils M_Elf M_Syscall M_Arch M_Sort S_Html.
Import ListNotations.
Open Scope Z_scope.
Open Scope list_scope.

(** ** The table of a page as the script finds it *)

Definition class_list (c : cell) : list str :=
  match dget str_eqb $"class" (c_attrs c) with Some v => split_char SP (map chr v) | None => [] end.
Definition dom_of (t : list (list cell)) : dom :=
  match t with
  | heads :: rows => Dom (map class_list heads) (map (fun r => (false, map c_text r)) rows)
  | [] => Dom [] []
  end.

(** ** What is shown *)

(** Order of texts: by the first character that differs *)
Inductive text_le : list Z -> list Z -> Prop :=
| tl_nil t : text_le [] t
| tl_less x y s t : x < y -> text_le (x :: s) (y :: t)
| tl_same x s t : text_le s t -> text_le (x :: s) (x :: t).

(** The columns that can be sorted: number, name, symbol, location, Kconfig option *)
Definition column_text (i : nat) (s : syscall) : list Z :=
  match i with
  | 1%nat => codes (sc_name s)
  | 2%nat => codes (sym_name (sc_symbol s))
  | 3%nat => c_text (location [] s)
  | _ => codes (option_text s)
  end.
Definition column_le (i : nat) (s t : syscall) : Prop :=
  if Nat.eqb i 0 then sc_number s <= sc_number t else text_le (column_text i s) (column_text i t).
(** The mark: column and whether ascending *)
Definition ordered (mark : nat * bool) (l : list syscall) : Prop :=
  StronglySorted (fun s t => if snd mark then column_le (fst mark) s t else column_le (fst mark) t s) l.
(** A click on a heading asks for ascending order, unless that is what is marked. *)
Definition next_mark (mark : nat * bool) (i : nat) : nat * bool :=
  (i, negb (Nat.eqb (fst mark) i && snd mark)).
Definition last_mark (mark : nat * bool) (es : list event) : nat * bool :=
  fold_left (fun m e => match e with Head i => next_mark m i | Row _ => m end) es mark.

Definition heads_shown (m : Z) (mark : nat * bool) : list (list str) :=
  map (fun i => $"sortable" :: if Nat.eqb (fst mark) i then [if snd mark then $"ascending" else $"descending"] else []) (seq 0 5) ++
  repeat [] (Z.to_nat m).
(** The table shows these syscalls in order, highlighted or not, with this mark. *)
Definition shows (tag : str) (m : Z) (mark : nat * bool) (l : list (bool * syscall)) (d : dom) : Prop :=
  d = Dom (heads_shown m mark) (map (fun x => (fst x, map c_text (row_of tag m (snd x)))) l).
(** Clicks that hit a heading that can be sorted by, or one of [n] rows *)
Definition hits (n : Z) (e : event) : Prop :=
  match e with Head i => (i < 5)%nat | Row j => Z.of_nat j < n end.
