(** Model of kernel.py 521-524: locations, then signatures. *)
From Coq Require Import List Bool Ascii String ZArith.
From Verif Require Import PyBase M_Utils M_Elf M_Syscall M_Arch M_Signature M_Location.
Import ListNotations.

(** kernel.py 523-524; [have] says whether addr2line is available, [kres] is kdir.resolve().  The
    two calls change the syscalls in place. *)
Definition annotate (w : world) (have : bool) (a : arch) (e : elf) (elf_path : path) (kdir rdir : option path)
    (kres : path) (scs : list syscall) : outcome (list syscall) :=
  located <- extract_syscall_locations w have a elf_path kdir rdir kres scs ;;
  extract_syscall_signatures (w_file w) located e (match kdir with Some _ => true | None => false end).
