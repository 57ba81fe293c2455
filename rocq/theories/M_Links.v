(** Model of /repo/src/systrack/location.py 49-104: searching the sources without ripgrep, in a
    file system with symbolic links.  [M_Search.v] is the same search in a tree without them
    (C110_no_links).  What the operating system does with a path follows path_resolution(7): links
    are followed one after the other, at most [limit] of them (40 on Linux) for one path.  Every
    directory can be listed and every file read; paths can be of any length. *)
From Coq Require Import List Bool Ascii String ZArith.
From Verif Require Import PyBase Regex M_Utils M_Elf M_Syscall M_Arch M_Config M_Location M_Search.
Import ListNotations.
Open Scope Z_scope.
Open Scope list_scope.

(** A file, a directory (its entries in the order of iterdir()), a link to a path from the root or
    from the directory it is in, or something else. *)
Inductive lnode :=
| LFile (content : bytes)
| LDir (entries : list (str * lnode))
| LLink (from_root : bool) (target : list str)
| LOther.

Definition child (n : lnode) (name : str) : option lnode :=
  match n with
  | LDir entries => option_map snd (find (fun x => str_eqb (fst x) name) entries)
  | _ => None
  end.
(** What is at a real path: names of directories, no links on the way. *)
Fixpoint place (n : lnode) (real : list str) : option lnode :=
  match real with
  | [] => Some n
  | x :: real' => match child n x with Some m => place m real' | None => None end
  end.

(** Exceptions that [outcome] does not tell apart, and results. *)
Inductive error := NotFound | NotADirectory | LoopError.
Inductive result (A : Type) := Fine (a : A) | Error (e : error) | Endless.
Arguments Fine {A} a.
Arguments Error {A} e.
Arguments Endless {A}.
Definition rbind {A B} (x : result A) (f : A -> result B) : result B :=
  match x with Fine a => f a | Error e => Error e | Endless => Endless end.
Notation "x <-- m ;; k" := (rbind m (fun x => k)) (at level 61, m at next level, right associativity).
(** Equality of paths. *)
Fixpoint path_eqb (a b : list str) : bool :=
  match a, b with
  | [], [] => true
  | x :: a', y :: b' => str_eqb x y && path_eqb a' b'
  | _, _ => false
  end.

(** path_resolution(7): a real path and how many more links could be followed, ENOENT or ENOTDIR, or
    ELOOP. *)
Inductive walk := At (real : list str) (left : nat) | Nowhere | Loop.
Fixpoint follow (root : lnode) (links : nat) : list str -> list str -> walk :=
  fix go (here todo : list str) : walk :=
    match todo with
    | [] => At here links
    | x :: rest =>
        if str_eqb x $"." then go here rest
        else if str_eqb x $".." then go (removelast here) rest
        else match place root (here ++ [x]) with
             | Some (LDir _) => go (here ++ [x]) rest
             | Some (LLink from_root target) =>
                 match links with
                 | S links' => follow root links' (if from_root then [] else here) (target ++ rest)
                 | O => Loop
                 end
             | Some _ => match rest with [] => At (here ++ [x]) links | _ => Nowhere end
             | None => Nowhere
             end
    end.

Section Search.
  Context (root : lnode) (limit : nat) (kdir : list str).
  (** stat(2) of [kdir]/[rel] *)
  Definition stat (rel : list str) : option lnode :=
    match follow root limit [] (kdir ++ rel) with At real _ => place root real | _ => None end.
  (** Path.iterdir *)
  Definition iterdir (rel : list str) : result (list str) :=
    match stat rel with
    | Some (LDir entries) => Fine (map fst entries)
    | Some _ => Error NotADirectory
    | None => Error NotFound
    end.
  (** Path.resolve: of what does not exist it gives a path where there is nothing, which is left out
      here; of a loop it raises RuntimeError (up to Python 3.12).  A chain of more than [limit] links
      is taken for a loop. *)
  Definition resolve (rel : list str) : result (list (list str)) :=
    match follow root limit [] (kdir ++ rel) with
    | At real _ => Fine [real]
    | Nowhere => Fine []
    | Loop => Error LoopError
    end.
  Fixpoint resolve_all (rels : list (list str)) : result (list (list str)) :=
    match rels with
    | [] => Fine []
    | rel :: rels' => x <-- resolve rel ;; xs <-- resolve_all rels' ;; Fine (x ++ xs)
    end.
  Definition member (ex : list (list str)) (x : list str) : bool := existsb (path_eqb x) ex.

  (** location.py 58-70.  is_file() and is_dir() are false for what cannot be reached. *)
  Fixpoint search_below (fuel : nat) (exp : re) (ex : list (list str)) (cur : list str) : result (list str) :=
    match fuel with
    | O => Endless
    | S fuel' =>
        names <-- iterdir cur ;;
        (fix go (l : list str) : result (list str) :=
           match l with
           | [] => Fine []
           | name :: l' =>
               out <-- (if startswith name $"." then Fine []
                       else match stat (cur ++ [name]) with
                            | Some (LFile content) =>
                                if endswith name $".c" then Fine (grep_file exp (cur ++ [name]) content) else Fine []
                            | Some (LDir _) =>
                                x <-- resolve (cur ++ [name]) ;;
                                if existsb (member ex) x then Fine [] else search_below fuel' exp ex (cur ++ [name])
                            | _ => Fine []
                            end) ;;
               rest <-- go l' ;; Fine (out ++ rest)
           end) names
    end.

  (** location.py 89-102 *)
  Definition exclude_real (a : arch) : result (list (list str)) :=
    top <-- resolve_all (map (fun d => [d]) excluded_top) ;;
    names <-- iterdir [$"arch"] ;;
    archs <-- resolve_all (map (fun x => [$"arch"; x]) (filter (fun x => negb (str_eqb x (class_name (a_class a)))) names)) ;;
    Fine (top ++ archs).
  (** location.py 89-104 *)
  Definition linked_search (fuel : nat) (a : arch) : result (list str) :=
    ex <-- exclude_real a ;; search_below fuel (search_exp a) ex [].
End Search.

(** How deep a tree is. *)
Fixpoint height (n : lnode) : nat :=
  match n with
  | LDir entries =>
      S ((fix go (l : list (str * lnode)) : nat := match l with [] => O | (_, m) :: l' => Nat.max (height m) (go l') end) entries)
  | _ => O
  end.
(** Enough nested calls for any search. *)
Definition enough (root : lnode) (limit : nat) : nat := S (S limit * S (height root)).

(** A tree without links. *)
Fixpoint unlinked (n : node) : lnode :=
  match n with
  | NFile content => LFile content
  | NDir entries =>
      LDir ((fix go (l : list (str * node)) : list (str * lnode) :=
               match l with [] => [] | (name, m) :: l' => (name, unlinked m) :: go l' end) entries)
  | NOther => LOther
  end.
