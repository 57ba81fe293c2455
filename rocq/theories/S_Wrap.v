(** Specification of C113: lines broken to a width. *)
From Coq Require Import List Bool Ascii String ZArith.
From Verif Require Import PyBase S_Elf.
Import ListNotations.
Open Scope Z_scope.
Open Scope list_scope.

Definition columns : Z := 65.
Definition ascii_blank (c : ascii) : Prop := In (code c) [9; 10; 11; 12; 13; 32].
Definition all_blank (s : str) : Prop := forallb is_space s = true.
(** A letter or "_"; what may come before a dash *)
Definition a_letter (c : ascii) : Prop := is_word c = true /\ is_dec c = false.
Definition a_mark (c : ascii) : Prop := is_word c = true \/ In (code c) [33; 34; 38; 39; 44; 46; 63].
Definition only_dashes (s : str) : Prop := Forall (fun c => c = "-"%char) s /\ (2 <= List.length s)%nat.

(** Where a word may be broken, between [u] and [v]: after the hyphen of a compound, before and after a dash *)
Inductive may_cut (u v : str) : Prop :=
| mc_hyphen x a y : u = x ++ $"-" -> (exists b x', x = x' ++ [b; a]  /\ a_letter b) \/ (exists b x', x = x' ++ [b; "-"%char; a] /\ a_letter b) -> a_letter a ->
    (exists c d, v = c :: d :: y /\ a_letter c /\ a_letter d) \/ (exists c d, v = c :: "-"%char :: d :: y /\ a_letter c /\ a_letter d) -> may_cut u v
| mc_dash x p d c y : u = x ++ [p] -> a_mark p -> v = d ++ c :: y -> only_dashes d -> is_word c = true -> may_cut u v
| mc_after x p d c y : u = x ++ [p] ++ d -> a_mark p -> v = c :: y -> only_dashes d -> is_word c = true -> may_cut u v.
(** Where a line may end *)
Definition may_end (u v : str) : Prop := v = [] \/ (exists c y, v = c :: y /\ ascii_blank c) \/ may_cut u v.

(** [s], which comes after [u], was broken into these lines:
    - blanks between them are left out, and nothing else;
    - words are broken only where they may be;
    - a line that is too long has no place where it could be broken;
    - no line ends early: what comes next would not have fitted. *)
Inductive laid_out (u : str) : str -> list str -> Prop :=
| lo_end g : all_blank g -> laid_out u g []
| lo_line g l r ls : all_blank g -> l <> [] -> (u = [] \/ g <> [] \/ may_cut u (l ++ r)) ->
    (len l <= columns \/ forall x y, l = x ++ y -> x <> [] -> y <> [] -> ~ may_end (u ++ g ++ x) (y ++ r)) ->
    (forall x y, r = x ++ y -> ~ all_blank x -> may_end (u ++ g ++ l ++ x) y -> columns < len l + len x) ->
    laid_out (u ++ g ++ l) r ls -> laid_out u (g ++ l ++ r) (l :: ls).

(** Tabs are replaced by blanks up to the next column that is a multiple of 8. *)
Inductive untabbed : Z -> str -> str -> Prop :=
| ut_nil col : untabbed col [] []
| ut_tab col n s t : 0 < n <= 8 -> (exists k, col + n = 8 * k) -> untabbed (col + n) s t -> untabbed col (chr 9 :: s) (repeat " "%char (Z.to_nat n) ++ t)
| ut_char col c s t : code c <> 9 -> code c <> 10 -> code c <> 13 -> untabbed (col + 1) s t -> untabbed col (c :: s) (c :: t).
(** The rows of a text, as [str.splitlines] gives them *)
Inductive rows : str -> list str -> Prop :=
| rw_nil : rows [] []
| rw_last l : l <> [] -> row l -> rows l [l]
| rw_end l c t ls : row l -> ends_row c -> (c = CR -> hd_error t <> Some NL) -> rows t ls -> rows (l ++ c :: t) (l :: ls)
| rw_crnl l t ls : row l -> rows t ls -> rows (l ++ CR :: NL :: t) (l :: ls).
(** The rows of a text that are not blank, each broken into lines *)
Definition not_blank (s : str) : bool := negb (forallb is_space s).
Definition lines_for (row : str) (ls : list str) : Prop := exists s, untabbed 0 row s /\ laid_out [] s ls.
(** All characters but the blanks *)
Definition ink (s : str) : str := filter (fun c => negb (is_space c)) s.
Definition starts_inked (l : str) : Prop := forall c y, l = c :: y -> is_space c = false.
Definition ends_inked (l : str) : Prop := forall x c, l = x ++ [c] -> is_space c = false.
