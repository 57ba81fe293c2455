(** Specification of C104: the files that the two searches look through. *)
From Coq Require Import List Bool Ascii String ZArith.
From Verif Require Import PyBase M_Arch S_Search.
Import ListNotations.
Open Scope Z_scope.
Open Scope list_scope.

Definition c_name (s : str) : Prop := exists x, s = x ++ $".c".
Definition dot_name (s : str) : Prop := exists x, s = "."%char :: x.
(** ripgrep enters the directory [d] in [above]: it has the name of a C source, or is that of the
    architecture, or it is neither in one of the directories that are left out or "arch", nor hidden or ignored. *)
Inductive entered (k : klass) (ignored : list str -> bool) (above : list str) (d : str) : Prop :=
| et_c : c_name d -> entered k ignored above d
| et_arch : above = [$"arch"] -> d = arch_dir k -> entered k ignored above d
| et_other : (forall x, above = [x] -> ~ unsearched x /\ x <> $"arch") -> ~ dot_name d -> ignored (above ++ [d]) = false -> entered k ignored above d.
(** The files it reads: C sources below such directories (and what has the name of the directory of the
    architecture, if that is a file). *)
Definition read_by_ripgrep (k : klass) (ignored : list str -> bool) (rel : list str) : Prop :=
  (exists dirs name, rel = dirs ++ [name] /\ (c_name name \/ (dirs = [$"arch"] /\ name = arch_dir k))) /\
  forall above d m l, rel = above ++ d :: m :: l -> entered k ignored above d.
(** Nothing unusual: no directory has the name of a C source, no C source is hidden. *)
Definition usual (rel : list str) : Prop :=
  (forall above d m l, rel = above ++ d :: m :: l -> ~ c_name d) /\ (forall dirs name, rel = dirs ++ [name] -> ~ dot_name name).
