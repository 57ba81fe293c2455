(** Specifications for the properties of build() and of the version (C65-C68), stated without the
    functions of the model. *)
From Coq Require Import List Bool Ascii String ZArith.
From Verif Require Import PyBase M_Kernel.
Import ListNotations.
Open Scope Z_scope.
Open Scope list_scope.

(** ** The Makefile *)

Definition line_start (pre : str) : Prop := pre = [] \/ exists p, pre = p ++ [NL].
Definition blank (s : str) : Prop := forallb is_space s = true.
(** The text has the -O2 flag after [pre]: on a line of its own, with any blanks around "+=". *)
Definition flag_after (data pre w1 w2 post : str) : Prop :=
  data = pre ++ $"KBUILD_CFLAGS" ++ w1 ++ $"+=" ++ w2 ++ $"-O2" ++ NL :: post /\
  line_start pre /\ blank w1 /\ blank w2.
Definition has_flag (data : str) : Prop := exists pre w1 w2 post, flag_after data pre w1 w2 post.
(** [new] is [data] with another level in the first such place. *)
Definition patched (data : str) (level : Z) (new : str) : Prop :=
  exists pre w1 w2 post, flag_after data pre w1 w2 post /\
    (forall pre' w1' w2' post', flag_after data pre' w1' w2' post' -> len pre <= len pre') /\
    new = pre ++ $"KBUILD_CFLAGS" ++ w1 ++ $"+=" ++ w2 ++ $"-O" ++ str_of_int level ++ NL :: post.

(** Text in which lines end with NL. *)
Definition plain_text (s : str) : Prop := ~ In CR s.

(** ** The version *)

(** What reading the version would give now. *)
Definition fresh (vmlinux make : option (outcome (option version))) : outcome version :=
  match match vmlinux with Some r => Some r | None => make end with
  | Some (Ok (Some v)) => Ok v
  | Some (Ok None) | None => Raise KernelVersionError
  | Some (Raise x) => Raise x
  | Some (Exit c) => Exit c
  | Some Diverge => Diverge
  end.
(** The reads since the last clean(), configure() or build() (latest operation first in [h],
    earliest read first in the result); configure() reads once itself. *)
Fixpoint reads_since (h : list (vop * option (outcome (option version)))) : list (option (outcome (option version))) :=
  match h with
  | [] => []
  | (VRead, m) :: h' => reads_since h' ++ [m]
  | (VConfigure, m) :: _ => [m]
  | (VClean, _) :: _ | (VBuild, _) :: _ => []
  end.
(** The value of the first read that succeeded. *)
Fixpoint first_success (vmlinux : option (outcome (option version))) (l : list (option (outcome (option version))))
    : option version :=
  match l with
  | [] => None
  | m :: l' => match fresh vmlinux m with Ok v => Some v | _ => first_success vmlinux l' end
  end.

(** ** The build *)

(** The Makefiles make should run with, in order, given how each run ends (Some 0: success). *)
Fixpoint attempts (make : nat -> option Z) (i : nat) (files : list str) : list str :=
  match files with
  | [] => []
  | f :: l => f :: (match make i with Some 0 => [] | _ => attempts make (S i) l end)
  end.
(** The last of [n] runs succeeded. *)
Definition last_ok (make : nat -> option Z) (n : nat) : Prop := make (Nat.pred n) = Some 0.
