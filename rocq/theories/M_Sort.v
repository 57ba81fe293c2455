(** Model of the script of the page, /repo/src/systrack/templates/syscall_table.js: what clicks on
    the table do.  Texts are lists of code points. *)
From Coq Require Import List Bool Ascii String ZArith.
From Verif Require Import PyBase M_Elf.
Import ListNotations.
Open Scope Z_scope.
Open Scope list_scope.

(** The elements concerned: the classes of each heading cell, and for each other row whether it has
    the class "highlight" and the textContent of its cells. *)
Record dom := Dom { d_heads : list (list str); d_rows : list (bool * list (list Z)) }.

(** [parseInt(text, 16)]; None is NaN.  Numbers are exact here: a double is exact below 2^53. *)
Definition hex_digit (c : Z) : option Z :=
  if in_range 48 57 c then Some (c - 48) else if in_range 65 70 c then Some (c - 55) else if in_range 97 102 c then Some (c - 87) else None.
Fixpoint hex_prefix (acc : option Z) (t : list Z) : option Z :=
  match t with
  | c :: t' =>
      match hex_digit c with
      | Some d => hex_prefix (Some (16 * match acc with Some n => n | None => 0 end + d)) t'
      | None => acc
      end
  | [] => acc
  end.
Fixpoint trim_start (t : list Z) : list Z :=
  match t with
  | c :: t' => if in_range 9 13 c || (c =? 32) || (c =? 160) then trim_start t' else t
  | [] => []
  end.
Definition skip_0x (t : list Z) : list Z :=
  match t with
  | z :: x :: t' => if (z =? 48) && ((x =? 120) || (x =? 88)) then t' else t
  | _ => t
  end.
Definition parse_int16 (text : list Z) : option Z :=
  match trim_start text with
  | c :: t =>
      if c =? 45 then option_map Z.opp (hex_prefix None (skip_0x t))
      else if c =? 43 then hex_prefix None (skip_0x t)
      else hex_prefix None (skip_0x (c :: t))
  | [] => None
  end.

(** Values compared, and [a > b] on them: numbers (false with NaN) or texts by code units (which
    are the code points here) *)
Inductive value := VNum (n : option Z) | VText (t : list Z).
Fixpoint text_gt (a b : list Z) : bool :=
  match a, b with
  | x :: a', y :: b' => if x =? y then text_gt a' b' else y <? x
  | _ :: _, [] => true
  | [], _ => false
  end.
Definition gt (a b : value) : bool :=
  match a, b with
  | VNum (Some x), VNum (Some y) => y <? x
  | VText x, VText y => text_gt x y
  | _, _ => false
  end.

(** syscall_table.js 11-16: [getValue].  A missing cell raises, here even if the row is the only
    one and so never compared. *)
Definition child (row : list (list Z)) (i : nat) : outcome (list Z) :=
  match nth_error row i with Some t => Ok t | None => Raise TypeError end.
Definition get_value (idx : nat) (row : list (list Z)) : outcome value :=
  if Nat.eqb idx 0 then t <- child row 0 ;; Ok (VNum (parse_int16 t))
  else t <- child row (idx + 1) ;; Ok (VText t).
(** 19-29: the comparison *)
Definition compare (desc : bool) (a b : value) : Z :=
  let (va, vb) := if desc then (b, a) else (a, b) in
  if gt va vb then 1 else if gt vb va then -1 else 0.

Definition has_class (c : str) (l : list str) : bool := existsb (str_eqb c) l.
Definition without_marks (l : list str) : list str :=
  filter (fun c => negb (str_eqb c $"ascending" || str_eqb c $"descending")) l.
Fixpoint set_nth {A} (i : nat) (f : A -> A) (l : list A) : list A :=
  match l, i with
  | [], _ => []
  | x :: l', O => f x :: l'
  | x :: l', S i' => x :: set_nth i' f l'
  end.
(** 3-35: sortTable, called by a click on a heading cell with the class "sortable" (42);
    Array.prototype.sort is stable *)
Definition click_head (idx : nat) (d : dom) : outcome dom :=
  match nth_error (d_heads d) idx with
  | None => Ok d
  | Some classes =>
      if negb (has_class $"sortable" classes) then Ok d
      else
        match d_rows d with
        | [] => Raise TypeError
        | rows =>
            let desc := has_class $"ascending" classes in
            values <- mapM (fun r => v <- get_value idx (snd r) ;; Ok (v, r)) rows ;;
            let sorted := map snd (sort_stable (fun x y => compare desc (fst x) (fst y) <=? 0) values) in
            Ok (Dom (set_nth idx (fun l => l ++ [if desc then $"descending" else $"ascending"]) (map without_marks (d_heads d))) sorted)
        end
  end.
(** 37-40: highlightRow, called by a click on a row other than the first (43); [j] is its position
    now *)
Definition click_row (j : nat) (d : dom) : outcome dom :=
  Ok (Dom (d_heads d) (set_nth j (fun r => (negb (fst r), snd r)) (d_rows d))).

Inductive event := Head (idx : nat) | Row (j : nat).
Definition react (e : event) (d : dom) : outcome dom := match e with Head i => click_head i d | Row j => click_row j d end.
Fixpoint reacts (es : list event) (d : dom) : outcome dom :=
  match es with
  | [] => Ok d
  | e :: es' => d' <- react e d ;; reacts es' d'
  end.
