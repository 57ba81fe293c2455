(** Specification for C111: what an analysis needs of the programs of a computer. *)
From Coq Require Import List Bool Ascii String ZArith.
From Verif Require Import PyBase M_Utils M_Syscall M_Emu M_Search M_Command M_Output M_Main M_Program S_Main S_Program.
Import ListNotations.
Open Scope Z_scope.
Open Scope list_scope.

(** A program is found on both computers or on neither, and does the same. *)
Definition same_program (c c' : computer) (h : list action) (cwd : option path) (x : str) : Prop :=
  pc_found c h cwd x = pc_found c' h cwd x /\ forall l, pc_run c h (Argv (x :: l)) cwd = pc_run c' h (Argv (x :: l)) cwd.
(** Two computers with the same files, and the same readelf, addr2line and ripgrep as far as they are
    used: addr2line if it is there, ripgrep if both are.  Nothing is said about other programs (compiler,
    make, git) and about preparing sources. *)
Record enough_alike (c c' : computer) : Prop := Alike {
  al_files : pc_look c = pc_look c' /\ pc_resolve c = pc_resolve c';
  al_code : pc_decode c = pc_decode c' /\ pc_same c = pc_same c' /\ pc_insn_order c = pc_insn_order c' /\ pc_ni_order c = pc_ni_order c';
  al_version : pc_version c = pc_version c';
  al_there : forall h x, In x [$"readelf"; $"addr2line"; $"rg"] -> pc_which c h x = pc_which c' h x;
  al_readelf : forall h, same_program c c' h None $"readelf";
  al_addr2line : forall h, pc_which c h $"addr2line" = true -> same_program c c' h None $"addr2line";
  al_ripgrep : forall h d, pc_which c h $"addr2line" = true -> pc_which c h $"rg" = true -> same_program c c' h (Some d) $"rg"
}.

Definition no_addr2line (c : computer) : Prop := forall h, pc_which c h $"addr2line" = false.
(** Nothing is known about where a syscall is defined. *)
Definition placeless (s : syscall) : Prop :=
  sc_file s = None /\ sc_line s = None /\ sc_good s = false /\ sc_grepped s = false.
