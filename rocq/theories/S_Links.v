(** Specification of the search in a file system with symbolic links (C110), stated without the
    functions of the model. *)
From Coq Require Import List Bool Ascii String ZArith.
From Verif Require Import PyBase M_Utils M_Elf M_Syscall M_Arch S_Elf S_Signature S_Location M_Search S_Search M_Links.
Import ListNotations.
Open Scope Z_scope.
Open Scope list_scope.

(** What a real path names: directories on the way, no links. *)
Inductive located : lnode -> list str -> lnode -> Prop :=
| lo_here n : located n [] n
| lo_in entries (x : str) m (real : list str) n : In (x, m) entries -> located m real n -> located (LDir entries) (x :: real) n.
(** Names differ within a directory. *)
Inductive sane : lnode -> Prop :=
| sa_file content : sane (LFile content)
| sa_link from_root target : sane (LLink from_root target)
| sa_other : sane LOther
| sa_dir entries : NoDup (map fst entries) -> Forall (fun x => sane (snd x)) entries -> sane (LDir entries).

(** From the directory [here] the path [todo] leads to [real] by following [n] links. *)
Inductive leads (root : lnode) : list str -> list str -> list str -> nat -> Prop :=
| le_done here : leads root here [] here 0
| le_dot here todo real n : leads root here todo real n -> leads root here ($"." :: todo) real n
| le_up (here up : list str) (x : str) todo real n : here = up ++ [x] -> leads root up todo real n -> leads root here ($".." :: todo) real n
| le_top todo real n : leads root [] todo real n -> leads root [] ($".." :: todo) real n
| le_dir (here : list str) (x : str) entries todo real n : x <> $"." -> x <> $".." -> located root (here ++ [x]) (LDir entries) ->
    leads root (here ++ [x]) todo real n -> leads root here (x :: todo) real n
| le_file (here : list str) (x : str) content : x <> $"." -> x <> $".." -> located root (here ++ [x]) (LFile content) ->
    leads root here [x] (here ++ [x]) 0
| le_other (here : list str) (x : str) : x <> $"." -> x <> $".." -> located root (here ++ [x]) LOther ->
    leads root here [x] (here ++ [x]) 0
| le_link (here : list str) (x : str) from_root target todo real n : x <> $"." -> x <> $".." ->
    located root (here ++ [x]) (LLink from_root target) ->
    leads root (if from_root then [] else here) (target ++ todo) real n -> leads root here (x :: todo) real (S n).

Section Search.
  Context (root : lnode) (limit : nat) (kdir : list str) (k : klass).
  (** With no more links than the system follows. *)
  Definition reaches (path real : list str) : Prop := exists n, (n <= limit)%nat /\ leads root [] path real n.
  (** The directories not to be entered: some of those at the top, those of other architectures, or
      whatever bears such a name and leads there. *)
  Definition to_avoid (rel : list str) : Prop :=
    (exists d, unsearched d /\ rel = [d]) \/
    (exists arch archs x m, reaches (kdir ++ [$"arch"]) arch /\ located root arch (LDir archs) /\ In (x, m) archs /\
       x <> arch_dir k /\ rel = [$"arch"; x]).
  Definition avoided (real : list str) : Prop := exists rel, to_avoid rel /\ reaches (kdir ++ rel) real.
  (** The file [rel] is read: a C source, nothing hidden, and no directory on the way is one to avoid
      in reality. *)
  Definition visited (rel : list str) (content : bytes) : Prop :=
    (exists dirs name, rel = dirs ++ [name ++ $".c"]) /\
    (forall c x, In c rel -> c <> "."%char :: x) /\
    (exists real, reaches (kdir ++ rel) real /\ located root real (LFile content)) /\
    (forall pre suf, rel = pre ++ suf -> pre <> [] -> suf <> [] -> exists real, reaches (kdir ++ pre) real /\ ~ avoided real).
  (** A line of the files read, with its place. *)
  Definition visited_line (rel : list str) (n : Z) (text : bytes) : Prop :=
    exists content ls, visited rel content /\ lines_of content ls /\
      1 <= n /\ nth_error ls (Z.to_nat (n - 1)) = Some text.
End Search.
