(** Specification for the regexps (C102): which names stand for themselves. *)
From Coq Require Import List Bool Ascii String ZArith.
From Verif Require Import PyBase.
Import ListNotations.
Open Scope list_scope.

(** The characters with a meaning of their own (documentation of re; "]" and "}" have none outside of
    sets and repetitions) *)
Definition special (c : ascii) : Prop := In c $".^$*+?{[\|()".
Definition plain (name : str) : Prop := Forall (fun c => ~ special c) name.
(** With dots, as in foo.isra.0 *)
Definition dotted (name : str) : Prop := Forall (fun c => c = "."%char \/ ~ special c) name.
(** Names that no regexp can hold: with a parenthesis that is not closed or not opened, or with a
    repetition at the start of an alternative *)
Inductive broken (name : str) : Prop :=
| br_close x y : dotted x -> name = x ++ ")"%char :: y -> broken name
| br_open x y : dotted x -> dotted y -> name = x ++ "("%char :: y -> broken name
| br_repeat x c y : dotted x -> In c $"*+?" -> name = x ++ "|"%char :: c :: y -> broken name.
