(** A backtracking matcher for the part of Python's [re] syntax used by
    systrack: character classes, concatenation, ordered alternation, [r?],
    greedy [x*] and [x+] on single-character items, capture groups, [^], [$]
    and [\b].  Priorities are those of [re]: leftmost match, first alternative,
    longest repetition first. *)
From Coq Require Import List Bool Ascii String ZArith.
From Verif Require Import PyBase.
Import ListNotations.
Open Scope Z_scope.
Open Scope list_scope.

Inductive re :=
| REps
| RCls (f : ascii -> bool)
| RCat (a b : re)
| RAlt (a b : re)
| ROpt (r : re)
| RStar (f : ascii -> bool)
| RGrp (n : nat) (r : re)
| RBol                        (* [^] without re.MULTILINE *)
| RMBol                       (* [^] with re.MULTILINE *)
| REol                        (* [$] without re.MULTILINE *)
| RWordB (w : ascii -> bool). (* [\b] for a notion of word character *)

Definition RPlus (f : ascii -> bool) : re := RCat (RCls f) (RStar f).
Definition RChr (c : ascii) : re := RCls (Ascii.eqb c).
Fixpoint RLit (s : str) : re :=
  match s with
  | [] => REps
  | c :: s' => RCat (RChr c) (RLit s')
  end.
Fixpoint RSeq (l : list re) : re :=
  match l with
  | [] => REps
  | r :: l' => RCat r (RSeq l')
  end.

(** Position in the subject: previous character, rest, offset. *)
Record st := St { prev : option ascii; rest : str; pos : Z }.
Definition start (s : str) : st := St None s 0.

(** Captured groups, latest first: number, start offset, text. *)
Definition caps := list (nat * (Z * str)).

Definition at_wordb (w : ascii -> bool) (s : st) : bool :=
  let a := match prev s with Some c => w c | None => false end in
  let b := match rest s with c :: _ => w c | [] => false end in
  xorb a b.

Definition at_eol (s : st) : bool :=
  match rest s with
  | [] => true
  | [c] => Ascii.eqb c NL
  | _ => false
  end.

Definition at_bol (s : st) : bool :=
  match prev s with None => true | Some _ => false end.

Definition at_mbol (s : st) : bool :=
  match prev s with None => true | Some c => Ascii.eqb c NL end.

Section Engine.
  Context {R : Type}.

  Fixpoint m_star (f : ascii -> bool) (r : str) (p : option ascii) (i : Z)
      (k : st -> option R) : option R :=
    match r with
    | c :: r' =>
        if f c then
          match m_star f r' (Some c) (i + 1) k with
          | Some x => Some x
          | None => k (St p r i)
          end
        else k (St p r i)
    | [] => k (St p [] i)
    end.

  Fixpoint m (r : re) (s : st) (cs : caps) (k : st -> caps -> option R) : option R :=
    match r with
    | REps => k s cs
    | RCls f =>
        match rest s with
        | c :: rs => if f c then k (St (Some c) rs (pos s + 1)) cs else None
        | [] => None
        end
    | RCat a b => m a s cs (fun s' cs' => m b s' cs' k)
    | RAlt a b =>
        match m a s cs k with
        | Some x => Some x
        | None => m b s cs k
        end
    | ROpt a =>
        match m a s cs k with
        | Some x => Some x
        | None => k s cs
        end
    | RStar f => m_star f (rest s) (prev s) (pos s) (fun s' => k s' cs)
    | RGrp n a =>
        m a s cs (fun s' cs' =>
          k s' ((n, (pos s, firstn (Z.to_nat (pos s' - pos s)) (rest s))) :: cs'))
    | RBol => if at_bol s then k s cs else None
    | RMBol => if at_mbol s then k s cs else None
    | REol => if at_eol s then k s cs else None
    | RWordB w => if at_wordb w s then k s cs else None
    end.
End Engine.

(** Result of a match: start offset, state after it, captures. *)
Definition mres := (Z * st * caps)%type.

(** [pattern.match] at a given position. *)
Definition re_match_at (r : re) (s : st) : option mres :=
  m r s [] (fun s' cs => Some (pos s, s', cs)).

(** [re.match(r, s)] *)
Definition re_match (r : re) (s : str) : option mres := re_match_at r (start s).

(** [re.search] from a position on: first position at which the pattern matches. *)
Fixpoint search_from (r : re) (p : option ascii) (rs : str) (i : Z) : option mres :=
  match re_match_at r (St p rs i) with
  | Some x => Some x
  | None =>
      match rs with
      | [] => None
      | c :: rs' => search_from r (Some c) rs' (i + 1)
      end
  end.
Definition re_search (r : re) (s : str) : option mres := search_from r None s 0.

(** [r.finditer(s)] for a pattern that never matches the empty string: after a
    match, go on from its end.  Fuel: the number of characters bounds the number
    of matches. *)
Fixpoint finditer_from (n : nat) (r : re) (s : st) : list mres :=
  match n with
  | O => []
  | S n' =>
      match search_from r (prev s) (rest s) (pos s) with
      | None => []
      | Some (i, s', cs) => (i, s', cs) :: finditer_from n' r s'
      end
  end.
Definition re_finditer (r : re) (s : str) : list mres :=
  finditer_from (List.length s) r (start s).

(** [match.group(n)] and [match.span(n)] *)
Fixpoint cap (n : nat) (cs : caps) : option (Z * str) :=
  match cs with
  | [] => None
  | (n', v) :: cs' => if Nat.eqb n n' then Some v else cap n cs'
  end.
Definition group (n : nat) (x : mres) : option str :=
  match cap n (snd x) with Some (_, t) => Some t | None => None end.
Definition span (n : nat) (x : mres) : option (Z * Z) :=
  match cap n (snd x) with Some (i, t) => Some (i, i + len t) | None => None end.

(** Character classes named as in [re]. *)
Definition c_s : ascii -> bool := is_space.                 (* \s, str *)
Definition c_S : ascii -> bool := fun c => negb (is_space c). (* \S, str *)
Definition c_w : ascii -> bool := is_word.                  (* \w, str *)
Definition c_d : ascii -> bool := is_dec.                   (* \d *)
Definition c_dot : ascii -> bool := fun c => negb (Ascii.eqb c NL). (* . *)
Definition c_hex : ascii -> bool := is_hex.                 (* [0-9a-fA-F] *)
