(** Specification for C114: where a link leads, as browsers read it (the URL standard, 4.4, for https and
    without a base), and which files can be linked by their path as it is. *)
From Coq Require Import List Bool Ascii String ZArith.
From Verif Require Import PyBase M_Utils S_Html.
Import ListNotations.
Open Scope Z_scope.
Open Scope list_scope.

(** Characters are code points. *)
Definition control_or_space (c : Z) : bool := c <=? 32.
Definition tab_or_newline (c : Z) : bool := existsb (Z.eqb c) [9; 10; 13].
(** Before all else: controls and spaces at both ends and all tabs and newlines are removed. *)
Fixpoint drop_while (f : Z -> bool) (s : list Z) : list Z :=
  match s with c :: r => if f c then drop_while f r else s | [] => [] end.
Definition trimmed (s : list Z) : list Z := rev (drop_while control_or_space (rev (drop_while control_or_space s))).
Definition cleaned (s : list Z) : list Z := filter (fun c => negb (tab_or_newline c)) (trimmed s).

(** What is before the first [c], and what is after it if there is one *)
Fixpoint cut_at (c : Z) (s : list Z) : list Z * option (list Z) :=
  match s with
  | [] => ([], None)
  | x :: r => if x =? c then ([], Some r) else let '(b, a) := cut_at c r in (x :: b, a)
  end.
(** Segments are separated by slashes; browsers take backslashes for slashes. *)
Definition slash (c : Z) : bool := (c =? 47) || (c =? 92).
Fixpoint segments (s : list Z) : list (list Z) :=
  match s with
  | [] => [[]]
  | c :: r =>
      if slash c then [] :: segments r
      else match segments r with x :: l => (c :: x) :: l | [] => [[c]] end
  end.

Definition hex_value (c : Z) : option Z :=
  if (48 <=? c) && (c <=? 57) then Some (c - 48)
  else if (65 <=? c) && (c <=? 70) then Some (c - 55)
  else if (97 <=? c) && (c <=? 102) then Some (c - 87) else None.
(** An escape %XX at the start *)
Definition escape (s : list Z) : option (Z * list Z) :=
  match s with
  | p :: x :: y :: r => if p =? 37 then match hex_value x, hex_value y with Some a, Some b => Some (16 * a + b, r) | _, _ => None end else None
  | _ => None
  end.
(** The server's reading of a segment: escapes stand for the characters they name. *)
Inductive unescaped : list Z -> list Z -> Prop :=
| un_nil : unescaped [] []
| un_escape s c r t : escape s = Some (c, r) -> unescaped r t -> unescaped s (c :: t)
| un_char c r t : escape (c :: r) = None -> unescaped r t -> unescaped (c :: r) (c :: t).

(** Segments of dots, which may be written as escapes, are steps. *)
Definition one_dot (s : list Z) : Prop := unescaped s [46].
Definition two_dots (s : list Z) : Prop := unescaped s [46; 46].
(** The path without such steps; a step at the end leads to a directory. *)
Inductive walked : list (list Z) -> list (list Z) -> list (list Z) -> Prop :=
| wk_end done : walked done [] (rev done)
| wk_here done s r l : one_dot s -> walked done (match r with [] => [[]] | _ => r end) l -> walked done (s :: r) l
| wk_up done s r l : two_dots s -> walked (tl done) (match r with [] => [[]] | _ => r end) l -> walked done (s :: r) l
| wk_name done s r l : ~ one_dot s -> ~ two_dots s -> walked (s :: done) r l -> walked done (s :: r) l.

(** Where a link leads: to a place of a page on a host, given by the names on the way to it *)
Inductive leads (link : list Z) (host : list Z) (way : list (list Z)) (query place : option (list Z)) : Prop :=
| leads_to rest before main segs names :
    cleaned link = codes $"https://" ++ rest -> cut_at 35 rest = (before, place) -> cut_at 63 before = (main, query) ->
    segments main = host :: segs -> walked [] segs names -> Forall2 unescaped names way -> leads link host way query place.

(** The place of a line on Elixir's page of a file *)
Definition elixir : list Z := codes $"elixir.bootlin.com".
Definition page_way (tag : str) (f : path) : list (list Z) := map codes ([$"linux"; tag; $"source"] ++ parts f).
Definition line_place (line : option Z) : option (list Z) := option_map (fun l => codes ($"L" ++ str_of_int l)) line.
Definition leads_home (link : list Z) (tag : str) (f : path) (line : option Z) : Prop :=
  leads link elixir (page_way tag f) None (line_place line).

(** Names that mean themselves in a link *)
Record linkable (name : str) : Prop := {
  lk_chars : forall c, In c name -> ~ In c $"#?\" /\ tab_or_newline (code c) = false;
  lk_percent : forall x y, codes name = x ++ y -> escape y = None;
  lk_up : name <> $".."
}.
Definition linkable_file (f : path) (line : option Z) : Prop :=
  Forall linkable (parts f) /\
  (line = None -> forall l n c, parts f = l ++ [n ++ [c]] -> control_or_space (code c) = false).
