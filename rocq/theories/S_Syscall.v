(** Specification for the prefix search (C07, C08), stated without the model. *)
From Coq Require Import List Ascii String ZArith.
From Verif Require Import PyBase.
Import ListNotations.
Open Scope Z_scope.
Open Scope list_scope.

(** [k] of the [names] start with [p]. *)
Inductive starting_with (p : str) : list str -> Z -> Prop :=
| sw_nil : starting_with p [] 0
| sw_yes t l k : starting_with p l k -> starting_with p ((p ++ t) :: l) (k + 1)
| sw_no n l k : (forall t, n <> p ++ t) -> starting_with p l k -> starting_with p (n :: l) k.

(** A common prefix: something followed by an underscore, shared by enough names. *)
Definition common_prefix (names : list str) (threshold : Z) (p : str) : Prop :=
  (exists q, q <> [] /\ p = q ++ $"_") /\
  exists k, starting_with p names k /\ threshold <= k.
