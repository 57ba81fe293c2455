(** Specifications for the properties of utils.py (C01-C04, C06, C59, C73, C74),
    stated without the functions of the model. *)
From Coq Require Import List Bool Ascii String ZArith.
From Verif Require Import PyBase.
Import ListNotations.
Open Scope Z_scope.
Open Scope list_scope.

(** Lexicographic order on version tuples. *)
Inductive lexlt : list Z -> list Z -> Prop :=
| lex_nil y b : lexlt [] (y :: b)
| lex_lt x y a b : x < y -> lexlt (x :: a) (y :: b)
| lex_eq x a b : lexlt a b -> lexlt (x :: a) (x :: b).
Definition lexle (a b : list Z) : Prop := a = b \/ lexlt a b.

(** [v] lies in [r], start included, end excluded. *)
Definition within (r : list Z * list Z) (v : list Z) : Prop :=
  lexle (fst r) v /\ lexlt v (snd r).

(** A history of additions [(range, key, value)], oldest first. *)
Section History.
  Context {K V : Type}.
  Definition addition := (list Z * list Z * K * V)%type.
  Definition a_range (a : addition) : list Z * list Z := fst (fst a).
  Definition a_key (a : addition) : K := snd (fst a).
  Definition a_val (a : addition) : V := snd a.

  (** [r] is first used at position [i]. *)
  Definition first_use (h : list addition) (r : list Z * list Z) (i : nat) : Prop :=
    (exists a, nth_error h i = Some a /\ a_range a = r) /\
    forall j a, (j < i)%nat -> nth_error h j = Some a -> a_range a <> r.

  (** [x] is the last value given to [k] in range [r]. *)
  Definition last_value (h : list addition) (r : list Z * list Z) (k : K) (x : V) : Prop :=
    exists h1 h2, h = h1 ++ (r, k, x) :: h2 /\ forall x', ~ In (r, k, x') h2.

  Definition range_has_key (h : list addition) (r : list Z * list Z) (k : K) : Prop :=
    exists x, In (r, k, x) h.

  (** What looking up [k] for version [v] must give. *)
  Definition applicable_value (h : list addition) (v : list Z) (k : K) (x : V) : Prop :=
    exists r i,
      within r v /\ first_use h r i /\ last_value h r k x /\
      forall r' i', within r' v -> range_has_key h r' k -> first_use h r' i' -> (i' <= i)%nat.

  (** Histories with lookups. *)
  Inductive op := OAdd (a : addition) | OLook (v : list Z).

  (** The additions of a history made before the first lookup of [v]. *)
  Fixpoint adds_before_look (veq : list Z -> list Z -> bool) (v : list Z) (h : list op) : list addition :=
    match h with
    | [] => []
    | OAdd a :: h' => a :: adds_before_look veq v h'
    | OLook w :: h' => if veq v w then [] else adds_before_look veq v h'
    end.

  Definition looked_up (v : list Z) (h : list op) : Prop := In (OLook v) h.
End History.
Arguments addition : clear implicits.
Arguments op : clear implicits.

(** Additions of lists of values to ranges. *)
Section ListHistory.
  Context {V : Type}.
  Definition laddition := (list Z * list Z * list V)%type.

  (** [l] lists the ranges used in the history, each once, by first use. *)
  Inductive by_first_use : list laddition -> list (list Z * list Z) -> Prop :=
  | bfu_nil : by_first_use [] []
  | bfu_old h l r xs : by_first_use h l -> In r l -> by_first_use (h ++ [(r, xs)]) l
  | bfu_new h l r xs : by_first_use h l -> ~ In r l -> by_first_use (h ++ [(r, xs)]) (l ++ [r]).

  (** All the values added to [r], in order. *)
  Inductive values_of (r : list Z * list Z) : list laddition -> list V -> Prop :=
  | vo_nil : values_of r [] []
  | vo_yes h xs ys : values_of r h ys -> values_of r ((r, xs) :: h) (xs ++ ys)
  | vo_no h r' xs ys : r' <> r -> values_of r h ys -> values_of r ((r', xs) :: h) ys.

  (** Concatenation, range by range, of the values of the ranges containing [v]. *)
  Inductive gathered (h : list laddition) (v : list Z) : list (list Z * list Z) -> list V -> Prop :=
  | ga_nil : gathered h v [] []
  | ga_in r l xs ys : within r v -> values_of r h xs -> gathered h v l ys ->
      gathered h v (r :: l) (xs ++ ys)
  | ga_out r l ys : ~ within r v -> gathered h v l ys -> gathered h v (r :: l) ys.

  (** The values applicable to [v] in the order they were added. *)
  Inductive applicable (v : list Z) : list laddition -> list V -> Prop :=
  | ap_nil : applicable v [] []
  | ap_in r xs h ys : within r v -> applicable v h ys -> applicable v ((r, xs) :: h) (xs ++ ys)
  | ap_out r xs h ys : ~ within r v -> applicable v h ys -> applicable v ((r, xs) :: h) ys.
End ListHistory.
Arguments laddition : clear implicits.

(** A POSIX-shell word splitter for words made of safe characters, single-quoted
    and double-quoted text.  Anything else the shell could treat specially
    (unquoted or between double quotes) makes it fail. *)
Definition sh_plain (c : ascii) : bool :=
  let z := code c in
  in_range 48 57 z || in_range 65 90 z || in_range 97 122 z
  || existsb (Ascii.eqb c) $"_@%+=:,./-".
(** Inside double quotes: not the quote itself, $, ` or backslash (or !, history). *)
Definition sh_dq_plain (c : ascii) : bool :=
  negb (existsb (fun z => code c =? z) [34; 36; 96; 92; 33]).

(** [cur]: the word being read, reversed; None when between words. *)
Fixpoint sh_split (mode : nat) (s : str) (cur : option str) : option (list str) :=
  match mode with
  | 0%nat => (* unquoted *)
      match s with
      | [] => Some (match cur with None => [] | Some w => [rev w] end)
      | c :: s' =>
          if code c =? 32 then
            match cur with
            | None => sh_split 0 s' None
            | Some w => option_map (cons (rev w)) (sh_split 0 s' None)
            end
          else
            let w := match cur with None => [] | Some w => w end in
            if code c =? 39 then sh_split 1 s' (Some w)
            else if code c =? 34 then sh_split 2 s' (Some w)
            else if sh_plain c then sh_split 0 s' (Some (c :: w))
            else None
      end
  | 1%nat => (* single quotes *)
      match s, cur with
      | c :: s', Some w =>
          if code c =? 39 then sh_split 0 s' cur else sh_split 1 s' (Some (c :: w))
      | _, _ => None
      end
  | _ => (* double quotes *)
      match s, cur with
      | c :: s', Some w =>
          if code c =? 34 then sh_split 0 s' cur
          else if sh_dq_plain c then sh_split 2 s' (Some (c :: w)) else None
      | _, _ => None
      end
  end.
Definition sh_words (s : str) : option (list str) := sh_split 0 s None.

(** Reading a duration back: fields "<number><unit>" separated by single blanks. *)
Definition unit_seconds (c : ascii) : option Z :=
  if Ascii.eqb c "h" then Some 3600
  else if Ascii.eqb c "m" then Some 60
  else if Ascii.eqb c "s" then Some 1 else None.
Definition read_field (f : str) : option Z :=
  match rev f with
  | u :: r =>
      match unit_seconds u with
      | Some k => if (0 <? len r) && forallb is_dec r then Some (k * int_dec (rev r)) else None
      | None => None
      end
  | [] => None
  end.
Fixpoint read_fields (l : list str) : option Z :=
  match l with
  | [] => Some 0
  | f :: l' =>
      match read_field f, read_fields l' with
      | Some a, Some b => Some (a + b)
      | _, _ => None
      end
  end.
Definition read_duration (s : str) : option Z := read_fields (split_char " "%char s).

(** [z] is n/d rounded to nearest, ties to even. *)
Definition nearest_even (n d z : Z) : Prop :=
  2 * Z.abs (n - z * d) <= d /\ (2 * Z.abs (n - z * d) = d -> Z.even z = true).
