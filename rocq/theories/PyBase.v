(** Python primitives used by the model: outcomes, strings, integers as text,
    dictionaries, sorting, [struct].  No proofs in this file.

    Trusted reading of CPython 3 semantics; text is limited to Latin-1. *)
From Coq Require Import List Bool Ascii String ZArith NArith.
Import ListNotations.
Open Scope Z_scope.
Open Scope list_scope.

(** * Outcomes *)

Inductive exn :=
| ValueError | IndexError | KeyError | TypeError | AttributeError
| AssertionError | StopIteration | StructError | FileNotFoundError
| UnboundLocalError | UnicodeDecodeError
| KernelVersionError | KernelArchError | KernelWithoutSymbolsError
| KernelMultiABIError.

(** Result of running a piece of Python: a value, an uncaught exception,
    [sys.exit(code)], or running forever. *)
Inductive outcome (A : Type) :=
| Ok (a : A)
| Raise (e : exn)
| Exit (code : Z)
| Diverge.
Arguments Ok {A} a.
Arguments Raise {A} e.
Arguments Exit {A} code.
Arguments Diverge {A}.

Definition bind {A B} (x : outcome A) (f : A -> outcome B) : outcome B :=
  match x with
  | Ok a => f a
  | Raise e => Raise e
  | Exit c => Exit c
  | Diverge => Diverge
  end.
Notation "x <- e ;; f" := (bind e (fun x => f))
  (at level 61, e at next level, right associativity).
Notation "' p <- e ;; f" := (bind e (fun p => f))
  (at level 61, p pattern, e at next level, right associativity).

(** [assert cond] *)
Definition assert_ (b : bool) : outcome unit :=
  if b then Ok tt else Raise AssertionError.

(** Run a function over a list, stopping at the first non-[Ok]. *)
Fixpoint mapM {A B} (f : A -> outcome B) (l : list A) : outcome (list B) :=
  match l with
  | [] => Ok []
  | x :: l' => y <- f x ;; ys <- mapM f l' ;; Ok (y :: ys)
  end.

Fixpoint foldM {S A} (f : S -> A -> outcome S) (s : S) (l : list A) : outcome S :=
  match l with
  | [] => Ok s
  | x :: l' => s' <- f s x ;; foldM f s' l'
  end.

Fixpoint filterM {A} (f : A -> outcome bool) (l : list A) : outcome (list A) :=
  match l with
  | [] => Ok []
  | x :: l' => b <- f x ;; r <- filterM f l' ;; Ok (if b then x :: r else r)
  end.

(** * Characters and strings *)

Definition str := list ascii.
Definition bytes := list ascii.
Notation "$ x" := (list_ascii_of_string x%string) (at level 1, x at level 0, format "$ x").

Definition code (c : ascii) : Z := Z.of_N (N_of_ascii c).
Definition chr (z : Z) : ascii := ascii_of_N (Z.to_N z).

#[global] Arguments code c : simpl never.
#[global] Arguments chr z : simpl never.

Definition in_range (lo hi z : Z) : bool := (lo <=? z) && (z <=? hi).

(** ASCII digits; [\d] on Latin-1 text matches exactly these. *)
Definition is_dec (c : ascii) : bool := in_range 48 57 (code c).
(** [[0-9a-fA-F]] *)
Definition is_hex (c : ascii) : bool :=
  is_dec c || in_range 65 70 (code c) || in_range 97 102 (code c).
(** [str.isdigit] on one character: also superscripts two, three, one. *)
Definition is_digit (c : ascii) : bool :=
  is_dec c || (code c =? 178) || (code c =? 179) || (code c =? 185).
(** [str.isspace] / [\s] for str patterns. *)
Definition is_space (c : ascii) : bool :=
  in_range 9 13 (code c) || in_range 28 32 (code c) || (code c =? 133) || (code c =? 160).
(** [bytes.isspace] / [\s] for bytes patterns. *)
Definition is_bspace (c : ascii) : bool :=
  in_range 9 13 (code c) || (code c =? 32).
Definition is_upper_ascii (c : ascii) : bool := in_range 65 90 (code c).
Definition is_lower_ascii (c : ascii) : bool := in_range 97 122 (code c).
(** Latin-1 upper case letters: A-Z, À-Ö, Ø-Þ. *)
Definition is_upper (c : ascii) : bool :=
  is_upper_ascii c || in_range 192 214 (code c) || in_range 216 222 (code c).
(** Latin-1 lower case (str.islower): a-z, ª, µ, º, ß-ö, ø-ÿ. *)
Definition is_lower (c : ascii) : bool :=
  is_lower_ascii c || (code c =? 170) || (code c =? 181) || (code c =? 186)
  || in_range 223 246 (code c) || in_range 248 255 (code c).
(** [\w] for str patterns: alphanumeric in the Unicode sense, or underscore.
    On Latin-1: letters, digits, superscripts 178 179 185, fractions 188-190. *)
Definition is_word (c : ascii) : bool :=
  is_dec c || is_upper c || is_lower c || (code c =? 95)
  || (code c =? 178) || (code c =? 179) || (code c =? 185) || in_range 188 190 (code c).
(** [\w] for bytes patterns: ASCII only. *)
Definition is_bword (c : ascii) : bool :=
  is_dec c || is_upper_ascii c || is_lower_ascii c || (code c =? 95).

(** [str.lower] on one character.  (The Latin-1 range maps one to one.) *)
Definition lower_char (c : ascii) : ascii :=
  if is_upper c then chr (code c + 32) else c.
Definition lower (s : str) : str := map lower_char s.
(** [str.islower]: some cased character, and all cased characters lower. *)
Definition islower (s : str) : bool :=
  existsb is_lower s && forallb (fun c => negb (is_upper c)) s.
(** [str.isdigit] *)
Definition isdigit (s : str) : bool :=
  match s with [] => false | _ => forallb is_digit s end.

Fixpoint str_eqb (a b : str) : bool :=
  match a, b with
  | [], [] => true
  | x :: a', y :: b' => Ascii.eqb x y && str_eqb a' b'
  | _, _ => false
  end.

(** Lexicographic comparison of strings by code point. *)
Fixpoint str_ltb (a b : str) : bool :=
  match a, b with
  | _, [] => false
  | [], _ :: _ => true
  | x :: a', y :: b' =>
      if code x <? code y then true
      else if code y <? code x then false
      else str_ltb a' b'
  end.
Definition str_leb (a b : str) : bool := negb (str_ltb b a).

Fixpoint startswith (s p : str) {struct p} : bool :=
  match p, s with
  | [], _ => true
  | _ :: _, [] => false
  | x :: p', y :: s' => Ascii.eqb x y && startswith s' p'
  end.
Definition endswith (s p : str) : bool := startswith (rev s) (rev p).

Definition len {A} (l : list A) : Z := Z.of_nat (List.length l).
#[global] Arguments len {A} l : simpl never.

(** [s[n:]] and [s[:n]] for any integer n (negative counts from the end). *)
Definition clampi {A} (l : list A) (i : Z) : nat :=
  Z.to_nat (if i <? 0 then len l + i else i).
Definition slice_from {A} (l : list A) (i : Z) : list A := skipn (clampi l i) l.
Definition slice_to {A} (l : list A) (i : Z) : list A := firstn (clampi l i) l.
Definition slice {A} (l : list A) (i j : Z) : list A :=
  skipn (clampi l i) (firstn (clampi l j) l).

(** [l[i]] *)
Definition index_ {A} (l : list A) (i : Z) : outcome A :=
  let j := if i <? 0 then len l + i else i in
  if j <? 0 then Raise IndexError
  else match nth_error l (Z.to_nat j) with
       | Some x => Ok x
       | None => Raise IndexError
       end.

Definition last_char (s : str) : option ascii :=
  match rev s with [] => None | c :: _ => Some c end.

(** [needle in hay] *)
Fixpoint contains (hay needle : str) : bool :=
  startswith hay needle ||
  match hay with
  | [] => false
  | _ :: h' => contains h' needle
  end.

(** [s.find(c)] for a one-character needle; -1 if absent. *)
Fixpoint find_char_from (c : ascii) (s : str) (i : Z) : Z :=
  match s with
  | [] => -1
  | x :: s' => if Ascii.eqb x c then i else find_char_from c s' (i + 1)
  end.
Definition find_char (c : ascii) (s : str) : Z := find_char_from c s 0.
Fixpoint rfind_char_from (c : ascii) (s : str) (i : Z) (best : Z) : Z :=
  match s with
  | [] => best
  | x :: s' => rfind_char_from c s' (i + 1) (if Ascii.eqb x c then i else best)
  end.
Definition rfind_char (c : ascii) (s : str) : Z := rfind_char_from c s 0 (-1).

(** [s.strip()] and friends for a given notion of blank. *)
Fixpoint dropwhile {A} (f : A -> bool) (l : list A) : list A :=
  match l with
  | [] => []
  | x :: l' => if f x then dropwhile f l' else l
  end.
Fixpoint takewhile {A} (f : A -> bool) (l : list A) : list A :=
  match l with
  | [] => []
  | x :: l' => if f x then x :: takewhile f l' else []
  end.
Definition lstrip_by (f : ascii -> bool) (s : str) : str := dropwhile f s.
Definition rstrip_by (f : ascii -> bool) (s : str) : str := rev (dropwhile f (rev s)).
Definition strip_by (f : ascii -> bool) (s : str) : str := rstrip_by f (lstrip_by f s).
Definition strip : str -> str := strip_by is_space.
Definition rstrip : str -> str := rstrip_by is_space.
Definition brstrip : bytes -> bytes := rstrip_by is_bspace.

(** [s.split(c)] for a one-character separator: always at least one field. *)
Fixpoint split_char (c : ascii) (s : str) : list str :=
  match s with
  | [] => [[]]
  | x :: s' =>
      if Ascii.eqb x c then [] :: split_char c s'
      else match split_char c s' with
           | [] => [[x]]
           | f :: fs => (x :: f) :: fs
           end
  end.

(** [s.split(c, 1)] *)
Fixpoint split_char1 (c : ascii) (s : str) : option (str * str) :=
  match s with
  | [] => None
  | x :: s' =>
      if Ascii.eqb x c then Some ([], s')
      else match split_char1 c s' with
           | Some (a, b) => Some (x :: a, b)
           | None => None
           end
  end.

(** [s.split()]: maximal runs of non-blank characters. *)
Fixpoint split_ws_aux (s : str) (cur : str) : list str :=
  match s with
  | [] => match cur with [] => [] | _ => [rev cur] end
  | x :: s' =>
      if is_space x
      then match cur with [] => split_ws_aux s' [] | _ => rev cur :: split_ws_aux s' [] end
      else split_ws_aux s' (x :: cur)
  end.
Definition split_ws (s : str) : list str := split_ws_aux s [].

(** [sep.join(l)] *)
Fixpoint join (sep : str) (l : list str) : str :=
  match l with
  | [] => []
  | [x] => x
  | x :: l' => x ++ sep ++ join sep l'
  end.

(** [s.replace(old, new)] for a non-empty [old]: leftmost, non-overlapping.
    The fuel is the length of the string, which bounds the number of steps. *)
Fixpoint replace_fuel (n : nat) (s old new : str) : str :=
  match n with
  | O => s
  | S n' =>
      match s with
      | [] => []
      | c :: s' =>
          if startswith s old
          then new ++ replace_fuel n' (skipn (List.length old) s) old new
          else c :: replace_fuel n' s' old new
      end
  end.
Definition replace (s old new : str) : str := replace_fuel (List.length s) s old new.

Definition NL : ascii := ascii_of_N 10.
Definition CR : ascii := ascii_of_N 13.

(** File iteration / [readlines] on text with universal newlines already
    translated to "\n": lines keep their terminator. *)
Fixpoint lines_keep (s : str) : list str :=
  match s with
  | [] => []
  | c :: s' =>
      if Ascii.eqb c NL then [c] :: lines_keep s'
      else match lines_keep s' with
           | [] => [[c]]
           | l :: ls => (c :: l) :: ls
           end
  end.

(** A line without the "\n" at its end. *)
Definition chomp (l : str) : str :=
  match rev l with
  | c :: r => if Ascii.eqb c NL then rev r else l
  | [] => []
  end.
(** [str.splitlines] cuts at more characters than "\n": at \n, \v, \f, \r, \x1c, \x1d, \x1e
    and \x85 (and at U+2028 and U+2029, which Latin-1 does not have); "\r\n" is one end. *)
Definition is_break (c : ascii) : bool :=
  let z := code c in in_range 10 13 z || in_range 28 30 z || (z =? 133).
Fixpoint splitlines (s : str) : list str :=
  match s with
  | [] => []
  | c :: s' =>
      if is_break c
      then [] :: match s' with
                 | d :: s'' => if Ascii.eqb c CR && Ascii.eqb d NL then splitlines s'' else splitlines s'
                 | [] => []
                 end
      else match splitlines s' with
           | [] => [[c]]
           | l :: ls => (c :: l) :: ls
           end
  end.

(** * Integers as text *)

Definition digit_val (c : ascii) : Z :=
  let z := code c in
  if in_range 48 57 z then z - 48
  else if in_range 65 70 z then z - 55
  else if in_range 97 102 z then z - 87
  else 0.

Definition int_of_digits (base : Z) (s : str) : Z :=
  fold_left (fun acc c => acc * base + digit_val c) s 0.
(** [int(s)] / [int(s, 16)] on a non-empty string of digits of the base. *)
Definition int_dec (s : str) : Z := int_of_digits 10 s.
Definition int_hex (s : str) : Z := int_of_digits 16 s.

Definition digit_chr (z : Z) : ascii := if z <? 10 then chr (48 + z) else chr (87 + z).

(** Digits of a non-negative number, most significant first.  The fuel bounds
    the number of digits; [Z.log2] gives enough for every base >= 2. *)
Fixpoint digits_fuel (n : nat) (base : Z) (z : Z) (acc : str) : str :=
  match n with
  | O => acc
  | S n' =>
      let acc' := digit_chr (z mod base) :: acc in
      if z / base =? 0 then acc' else digits_fuel n' base (z / base) acc'
  end.
Definition digits (base : Z) (z : Z) : str :=
  digits_fuel (S (Z.to_nat (Z.log2 z))) base z [].
(** [str(z)] for z >= 0, and for any z. *)
Definition str_of_nonneg (z : Z) : str := digits 10 z.
Definition str_of_int (z : Z) : str :=
  if z <? 0 then "-"%char :: digits 10 (- z) else digits 10 z.
(** [hex(z)] *)
Definition hex (z : Z) : str :=
  if z <? 0 then $"-0x" ++ digits 16 (- z) else $"0x" ++ digits 16 z.

Definition SP : ascii := " "%char.
(** [s.ljust(w)] and [format(s, '>w')] with a fill character. *)
Definition ljust (s : str) (w : Z) : str := s ++ repeat SP (Z.to_nat (w - len s)).
Definition rjust_with (c : ascii) (s : str) (w : Z) : str :=
  repeat c (Z.to_nat (w - len s)) ++ s.

(** * Ordered dictionaries (insertion order, as in CPython >= 3.7) *)

Section Dict.
  Context {K V : Type} (eqb : K -> K -> bool).
  Definition dict := list (K * V).
  Fixpoint dget (k : K) (d : dict) : option V :=
    match d with
    | [] => None
    | (k', v) :: d' => if eqb k k' then Some v else dget k d'
    end.
  Definition dmem (k : K) (d : dict) : bool :=
    match dget k d with Some _ => true | None => false end.
  (** [d[k] = v]: keeps the position of an existing key. *)
  Fixpoint dset (k : K) (v : V) (d : dict) : dict :=
    match d with
    | [] => [(k, v)]
    | (k', v') :: d' => if eqb k k' then (k', v) :: d' else (k', v') :: dset k v d'
    end.
  (** [d.update(e)] *)
  Definition dupdate (d e : dict) : dict :=
    fold_left (fun acc kv => dset (fst kv) (snd kv) acc) e d.
  (** [dict(pairs)] *)
  Definition dict_of (l : list (K * V)) : dict := dupdate [] l.
  (** [del d[k]] *)
  Fixpoint ddel (k : K) (d : dict) : dict :=
    match d with
    | [] => []
    | (k', v') :: d' => if eqb k k' then d' else (k', v') :: ddel k d'
    end.
  Definition dkeys (d : dict) : list K := map fst d.
  Definition dvalues (d : dict) : list V := map snd d.
End Dict.
Arguments dict : clear implicits.

(** * Sorting *)

Section Sort.
  Context {A : Type} (leb : A -> A -> bool).
  (** Stable insertion sort: [sorted(l)] for a total preorder [leb].  An element
      is inserted before the first one it is not above, so ties keep their order. *)
  Fixpoint insert_sorted (x : A) (l : list A) : list A :=
    match l with
    | [] => [x]
    | y :: l' => if leb x y then x :: l else y :: insert_sorted x l'
    end.
  Definition sort_stable (l : list A) : list A := fold_right insert_sorted [] l.
End Sort.

(** [sorted(l, key=k)] where keys are compared with [leb]. *)
Definition sort_by {A K} (leb : K -> K -> bool) (key : A -> K) (l : list A) : list A :=
  sort_stable (fun x y => leb (key x) (key y)) l.
(** [sorted(l, key=k, reverse=True)]: descending, equal elements keep their order. *)
Definition sort_by_rev {A K} (leb : K -> K -> bool) (key : A -> K) (l : list A) : list A :=
  sort_stable (fun x y => leb (key y) (key x)) l.

(** [max(l, key=k)]: the first element with the largest key. *)
Fixpoint max_by {A} (key : A -> Z) (best : A) (l : list A) : A :=
  match l with
  | [] => best
  | x :: l' => max_by key (if key best <? key x then x else best) l'
  end.
(** [min(l, key=k)]: the first element with the smallest key. *)
Fixpoint min_by {A} (key : A -> Z) (best : A) (l : list A) : A :=
  match l with
  | [] => best
  | x :: l' => min_by key (if key x <? key best then x else best) l'
  end.

Definition zrange (lo hi : Z) : list Z :=
  map (fun i => lo + Z.of_nat i) (seq 0 (Z.to_nat (hi - lo))).

(** [enumerate(l, start)] *)
Fixpoint enum_from {A} (i : Z) (l : list A) : list (Z * A) :=
  match l with
  | [] => []
  | x :: l' => (i, x) :: enum_from (i + 1) l'
  end.

(** * Version tuples *)

Definition version := list Z.
Fixpoint ver_ltb (a b : version) : bool :=
  match a, b with
  | _, [] => false
  | [], _ :: _ => true
  | x :: a', y :: b' => if x <? y then true else if y <? x then false else ver_ltb a' b'
  end.
Definition ver_leb (a b : version) : bool := negb (ver_ltb b a).
Fixpoint ver_eqb (a b : version) : bool :=
  match a, b with
  | [], [] => true
  | x :: a', y :: b' => (x =? y) && ver_eqb a' b'
  | _, _ => false
  end.

(** * struct / int.from_bytes *)

Fixpoint le_val (b : bytes) : Z :=
  match b with
  | [] => 0
  | c :: b' => code c + 256 * le_val b'
  end.
Definition uint_of (big_endian : bool) (b : bytes) : Z :=
  if big_endian then le_val (rev b) else le_val b.
Definition sint_of (big_endian : bool) (b : bytes) : Z :=
  let u := uint_of big_endian b in
  let m := 2 ^ (8 * len b) in
  if u <? m / 2 then u else u - m.

(** [struct.unpack(fmt, b)] for one unsigned field of [n] bytes. *)
Definition unpack_u (big_endian : bool) (n : Z) (b : bytes) : outcome Z :=
  if len b =? n then Ok (uint_of big_endian b) else Raise StructError.

(** Consecutive chunks of [n] bytes (n >= 1); [None] if a short chunk is left. *)
Fixpoint chunks (fuel : nat) (n : nat) (b : bytes) : option (list bytes) :=
  match b with
  | [] => Some []
  | _ =>
      match fuel with
      | O => None
      | S f =>
          if (List.length b <? n)%nat then None
          else match chunks f n (skipn n b) with
               | Some l => Some (firstn n b :: l)
               | None => None
               end
      end
  end.
(** [struct.iter_unpack(fmt, b)] for one unsigned field of [n] bytes. *)
Definition iter_unpack_u (big_endian : bool) (n : Z) (b : bytes) : outcome (list Z) :=
  match chunks (List.length b) (Z.to_nat n) b with
  | Some l => Ok (map (uint_of big_endian) l)
  | None => Raise StructError
  end.

(** Reading a file: [f.seek(off); f.read(n)] for off >= 0 returns what is there; a
    negative count reads everything. *)
Definition file_read (file : bytes) (off n : Z) : bytes :=
  let rest := skipn (Z.to_nat off) file in
  if n <? 0 then rest else firstn (Z.to_nat n) rest.
