(** What UTF-8 is (RFC 3629), what the lines of a text are, and what the text of a signature is. *)
From Coq Require Import List Bool Ascii String ZArith.
From Verif Require Import PyBase.
Import ListNotations.
Open Scope Z_scope.
Open Scope list_scope.

(** The code points that are characters: no surrogates *)
Definition scalar (z : Z) : Prop := 0 <= z <= 55295 \/ 57344 <= z <= 1114111.
Definition encode (z : Z) : list Z :=
  if z <? 128 then [z]
  else if z <? 2048 then [192 + z / 64; 128 + z mod 64]
  else if z <? 65536 then [224 + z / 4096; 128 + z / 64 mod 64; 128 + z mod 64]
  else [240 + z / 262144; 128 + z / 4096 mod 64; 128 + z / 64 mod 64; 128 + z mod 64].
(** The bytes are the text *)
Definition written (b : bytes) (t : list Z) : Prop := Forall scalar t /\ map code b = List.concat (map encode t).
(** The bytes are not a text *)
Definition not_text (b : bytes) : Prop := forall t, ~ written b t.
(** The text [t] followed by something that begins no character *)
Definition breaks (b : bytes) (t : list Z) : Prop :=
  exists p q, b = p ++ q /\ written p t /\ q <> [] /\ forall z r, scalar z -> map code q <> encode z ++ r.

Definition plain (t : list Z) : Prop := ~ In 10 t /\ ~ In 13 t.
(** [e] ends a line when [t] comes after it *)
Definition line_end (e t : list Z) : Prop :=
  e = [10] \/ e = [13; 10] \/ e = [13] /\ exists c t', t = c :: t' /\ c <> 10.
(** The finished lines of a text, without their ends, and what follows the last of them.  A "\r" is
    an end only if one sees that no "\n" follows. *)
Inductive splits : list Z -> list (list Z) -> list Z -> Prop :=
| splits_none t : plain t -> splits t [] t
| splits_cr t : plain t -> splits (t ++ [13]) [] (t ++ [13])
| splits_line body e t ls rest : plain body -> line_end e t -> splits t ls rest ->
    splits (body ++ e ++ t) (body :: ls) rest.
(** The lines of a whole file *)
Definition lines_of (t : list Z) (ls : list (list Z)) : Prop :=
  exists ls' rest, splits t ls' rest /\
    (rest = [] /\ ls = ls' \/ rest <> [] /\ plain rest /\ ls = ls' ++ [rest] \/ exists body, rest = body ++ [13] /\ ls = ls' ++ [body]).

(** Blanks around a line do not count *)
Definition blank (z : Z) : Prop :=
  9 <= z <= 13 \/ 28 <= z <= 32 \/ z = 133 \/ z = 160 \/ z = 5760 \/ 8192 <= z <= 8202 \/ z = 8232 \/ z = 8233 \/
  z = 8239 \/ z = 8287 \/ z = 12288.
Definition trimmed (t u : list Z) : Prop :=
  exists l r, t = l ++ u ++ r /\ Forall blank l /\ Forall blank r /\
    (forall c u', u = c :: u' -> ~ blank c) /\ (forall c u', u = u' ++ [c] -> ~ blank c).
(** The signature in the lines: they are joined until there is a closing parenthesis at the end *)
Inductive closes : list (list Z) -> list Z -> list Z -> Prop :=
| closes_now l ls acc u : trimmed l u -> (exists v, acc ++ u = v ++ [41]) -> closes (l :: ls) acc (acc ++ u)
| closes_later l ls acc u s : trimmed l u -> ~ (exists v, acc ++ u = v ++ [41]) -> closes ls (acc ++ u) s -> closes (l :: ls) acc s.
Definition signature_at (ls : list (list Z)) (line : Z) (s : list Z) : Prop := closes (skipn (Z.to_nat (line - 1)) ls) [] s.

(** The text of Latin-1 characters *)
Definition narrow (t : list Z) (s : str) : Prop := t = map code s.
