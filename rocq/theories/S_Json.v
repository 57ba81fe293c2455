(** Specification: JSON texts (C91).  A reader of JSON, after RFC 8259, for numbers without fraction and
    exponent.  It gives the members of objects in the order of the text. *)
From Coq Require Import List Bool Ascii String ZArith Permutation Sorted.
From Verif Require Import PyBase M_Output.
Import ListNotations.
Open Scope Z_scope.
Open Scope list_scope.

Definition is_ws (c : ascii) : bool := existsb (Z.eqb (code c)) [32; 9; 10; 13].
Definition skip (t : str) : str := dropwhile is_ws t.
Definition literal (word : str) (j : json) (t : str) : option (json * str) :=
  if startswith t word then Some (j, skipn (List.length word) t) else None.

(** Digits without leading zero *)
Definition number (t : str) : option (Z * str) :=
  let d := takewhile is_dec t in
  match d with
  | [] => None
  | c :: _ :: _ => if code c =? 48 then None else Some (int_dec d, dropwhile is_dec t)
  | _ => Some (int_dec d, dropwhile is_dec t)
  end.
(** The rest of a string, after its first quotation mark *)
Definition short_escapes : list (Z * Z) := [(34, 34); (92, 92); (47, 47); (98, 8); (102, 12); (110, 10); (114, 13); (116, 9)].
Fixpoint characters (t : str) : option (str * str) :=
  match t with
  | [] => None
  | c :: r =>
      if code c =? 34 then Some ([], r)
      else if code c =? 92 then
        match r with
        | [] => None
        | e :: r1 =>
            if code e =? 117 then
              match r1 with
              | h1 :: h2 :: h3 :: h4 :: r2 =>
                  if forallb is_hex [h1; h2; h3; h4] && (int_hex [h1; h2; h3; h4] <? 256) then
                    match characters r2 with Some (s, q) => Some (chr (int_hex [h1; h2; h3; h4]) :: s, q) | None => None end
                  else None
              | _ => None
              end
            else
              match dget Z.eqb (code e) short_escapes with
              | Some z => match characters r1 with Some (s, q) => Some (chr z :: s, q) | None => None end
              | None => None
              end
        end
      else if code c <? 32 then None
      else match characters r with Some (s, q) => Some (c :: s, q) | None => None end
  end.

Fixpoint value (n : nat) (t : str) : option (json * str) :=
  match n with
  | O => None
  | S n =>
      match skip t with
      | [] => None
      | c :: r =>
          if Ascii.eqb c "{" then
            match skip r with
            | [] => None
            | c2 :: r2 => if Ascii.eqb c2 "}" then Some (JObj [], r2)
                          else match members n (c2 :: r2) with Some (d, q) => Some (JObj d, q) | None => None end
            end
          else if Ascii.eqb c "[" then
            match skip r with
            | [] => None
            | c2 :: r2 => if Ascii.eqb c2 "]" then Some (JList [], r2)
                          else match elements n (c2 :: r2) with Some (l, q) => Some (JList l, q) | None => None end
            end
          else if code c =? 34 then match characters r with Some (s, q) => Some (JStr s, q) | None => None end
          else if Ascii.eqb c "-" then match number r with Some (z, q) => Some (JInt (- z), q) | None => None end
          else if is_dec c then match number (c :: r) with Some (z, q) => Some (JInt z, q) | None => None end
          else if Ascii.eqb c "n" then literal $"null" JNull (c :: r)
          else if Ascii.eqb c "t" then literal $"true" (JBool true) (c :: r)
          else literal $"false" (JBool false) (c :: r)
      end
  end
with members (n : nat) (t : str) : option (list (str * json) * str) :=
  match n with
  | O => None
  | S n =>
      match skip t with
      | [] => None
      | c :: r =>
          if code c =? 34 then
            match characters r with
            | None => None
            | Some (k, r1) =>
                match skip r1 with
                | [] => None
                | c2 :: r2 =>
                    if Ascii.eqb c2 ":" then
                      match value n r2 with
                      | None => None
                      | Some (v, r3) =>
                          match skip r3 with
                          | [] => None
                          | c4 :: r4 =>
                              if Ascii.eqb c4 "}" then Some ([(k, v)], r4)
                              else if Ascii.eqb c4 "," then
                                match members n r4 with Some (d, q) => Some ((k, v) :: d, q) | None => None end
                              else None
                          end
                      end
                    else None
                end
            end
          else None
      end
  end
with elements (n : nat) (t : str) : option (list json * str) :=
  match n with
  | O => None
  | S n =>
      match value n t with
      | None => None
      | Some (v, r3) =>
          match skip r3 with
          | [] => None
          | c4 :: r4 =>
              if Ascii.eqb c4 "]" then Some ([v], r4)
              else if Ascii.eqb c4 "," then
                match elements n r4 with Some (l, q) => Some (v :: l, q) | None => None end
              else None
          end
      end
  end.
(** Reading a whole text.  The depth is enough: brackets take two levels and two characters, and
    every further item takes one level and a comma. *)
Definition json_read (t : str) : option json :=
  match value (List.length t) t with
  | Some (j, r) => match skip r with [] => Some j | _ => None end
  | None => None
  end.

(** Values that differ only in the order of members *)
Inductive same_json : json -> json -> Prop :=
| sj_null : same_json JNull JNull
| sj_bool b : same_json (JBool b) (JBool b)
| sj_int z : same_json (JInt z) (JInt z)
| sj_str s : same_json (JStr s) (JStr s)
| sj_list l l' : Forall2 same_json l l' -> same_json (JList l) (JList l')
| sj_obj d d1 d' : Permutation d d1 -> Forall2 (fun x y => fst x = fst y /\ same_json (snd x) (snd y)) d1 d' -> same_json (JObj d) (JObj d').
(** The members of objects come in the order of their keys. *)
Inductive ordered_json : json -> Prop :=
| oj_null : ordered_json JNull
| oj_bool b : ordered_json (JBool b)
| oj_int z : ordered_json (JInt z)
| oj_str s : ordered_json (JStr s)
| oj_list l : Forall ordered_json l -> ordered_json (JList l)
| oj_obj d : StronglySorted (fun x y => str_leb x y = true) (map fst d) -> Forall (fun x => ordered_json (snd x)) d -> ordered_json (JObj d).
