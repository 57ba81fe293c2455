(** Specification: when the analysis does not end (C99). *)
From Coq Require Import List Bool Ascii String ZArith.
From Verif Require Import PyBase M_Utils M_Elf M_Syscall M_Arch M_Location S_Elf S_Kernel S_Signature S_Location S_Blind.
Import ListNotations.
Open Scope Z_scope.
Open Scope list_scope.

(** From the address on, up to the end of the file, there are bytes but no NUL. *)
Definition unterminated (e : elf) (v : Z) : Prop :=
  exists off pre s, place e v off /\ e_file e = pre ++ s /\ len pre = Z.max 0 off /\ s <> [] /\ ~ In (chr 0) s.

(** What reading a file in text mode makes of its line ends. *)
Inductive reads_as : str -> str -> Prop :=
| ra_nil : reads_as [] []
| ra_crlf s t : reads_as s t -> reads_as (CR :: NL :: s) (NL :: t)
| ra_cr s t : reads_as s t -> (forall r, s <> NL :: r) -> reads_as (CR :: s) (NL :: t)
| ra_other c s t : reads_as s t -> c <> CR -> reads_as (c :: s) (c :: t).

(** No line of the file ends with ")" from the line [l] on. *)
Definition unclosed (content : str) (l : Z) : Prop :=
  exists text ls, reads_as content text /\ lines_of text ls /\ l - 1 <= len ls /\
    forall x, In x (skipn (Z.to_nat (l - 1)) ls) -> ~ closes x.

(** The reasons: a command does not end, addr2line is run without an address and waits, a string of the recorded metadata is not terminated, or a
    definition found in the sources is not followed by a line that ends with ")". *)
Inductive hang (w : world) (a : arch) (e : elf) (kdir : option path) : Prop :=
| hang_addr2line addrs : addrs <> [] -> w_addr2line w addrs = Diverge -> hang w a e kdir
| hang_idle s : kdir <> None -> In s (map snd (e_symbols e)) -> no_inner s -> w_addr2line w [] = Diverge -> hang w a e kdir
| hang_search : kdir <> None -> w_grep w = Diverge -> hang w a e kdir
| hang_string start v : dget str_eqb $"__start_syscalls_metadata" (e_symbols e) = Some start -> unterminated e v -> hang w a e kdir
| hang_source f l content name text : kdir <> None -> w_file w f = Some content -> line_text content l text ->
    accepts a name text -> unclosed content l -> hang w a e kdir.
