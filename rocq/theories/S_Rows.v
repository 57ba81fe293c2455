(** Specification of C112: what the two searches print for the lines they find. *)
From Coq Require Import List Bool Ascii String ZArith.
From Verif Require Import PyBase S_Elf S_Location S_Search.
Import ListNotations.
Open Scope Z_scope.
Open Scope list_scope.

(** A line that was found: the file, the number of the line and its text without the end. *)
Definition hit : Type := (list str * Z * bytes)%type.
(** ripgrep prints the text as it is; the other search leaves out the blanks at its end. *)
Definition raw_line (x : hit) : str := let '(rel, n, text) := x in report rel n text.
Definition own_line (x : hit) (line : str) : Prop := let '(rel, n, text) := x in exists s, stripped text s /\ line = report rel n s.
(** Names of files and numbers of lines that can be read back from such lines. *)
Definition plain_hit (x : hit) : Prop := let '(rel, n, text) := x in rel <> [] /\ Forall plain_name rel /\ Forall row rel /\ 0 <= n.
(** The text is one line for [str.splitlines] too. *)
Definition row_hit (x : hit) : Prop := let '(_, _, text) := x in row text.
