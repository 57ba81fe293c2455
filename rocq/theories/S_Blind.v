(** Specification: addr2line and lists without addresses (C101). *)
From Coq Require Import List Bool Ascii String ZArith.
From Verif Require Import PyBase M_Utils M_Elf M_Syscall M_Location S_Elf S_Location.
Import ListNotations.
Open Scope Z_scope.
Open Scope list_scope.

(** The same machine, except perhaps for what addr2line does when it is given no address (it then
    reads addresses from standard input, which it shares with the program). *)
Definition same_but_idle (w w' : world) : Prop :=
  w_file w = w_file w' /\ w_grep w = w_grep w' /\ forall addrs, addrs <> [] -> w_addr2line w addrs = w_addr2line w' addrs.

(** addr2line answers address by address, in order; it may wait when there is nothing to answer. *)
Definition addr2line_answers (run : list Z -> outcome str) (ans : Z -> answer) : Prop :=
  (forall v, answer_ok (ans v)) /\ forall addrs, addrs <> [] -> run addrs = Ok (unlines (map (fun v => answer_text (ans v)) addrs)).

(** Between the first and the last two bytes of the symbol there is none. *)
Definition no_inner (s : symbol) : Prop := sym_size s = 3.
