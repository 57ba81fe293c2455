(** Specification for C117: the text of bytes that come from outside. *)
From Coq Require Import List Bool Ascii String ZArith.
From Verif Require Import PyBase S_Text.
Import ListNotations.
Open Scope Z_scope.
Open Scope list_scope.

(** The text with every line end, CR LF or CR or LF, replaced by LF *)
Inductive translated : list Z -> list Z -> Prop :=
| tl_nil : translated [] []
| tl_other c t u : c <> 13 -> translated t u -> translated (c :: t) (c :: u)
| tl_crlf t u : translated t u -> translated (13 :: 10 :: t) (10 :: u)
| tl_cr t u : (forall t', t <> 10 :: t') -> translated t u -> translated (13 :: t) (10 :: u).
(** The bytes are read as this text *)
Definition reads_as (b : bytes) (u : list Z) : Prop := exists t, written b t /\ translated t u.
(** The same as Latin-1 characters *)
Definition reads_latin (b : bytes) (s : str) : Prop := reads_as b (map code s).
