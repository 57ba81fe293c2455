(** Which files ripgrep reads when it is run as in /repo/src/systrack/location.py 105-119.  ripgrep is
    not part of the program; this is a model of what its manual says about --glob ("globs given later
    take precedence"; files that no glob selects are left out, directories are entered) and about hidden
    files.  Special in a glob here are only the exclamation mark at its beginning, slashes and stars;
    the globs of the program have no others.  Ignore files are a parameter. *)
From Coq Require Import List Bool Ascii String ZArith.
From Verif Require Import PyBase M_Utils M_Elf M_Syscall M_Arch M_Config M_Program.
Import ListNotations.
Open Scope Z_scope.
Open Scope list_scope.

Record glob := Glob { gl_excludes : bool; gl_anchored : bool; gl_parts : list str }.
(** The components of a text that is divided by slashes *)
Fixpoint components (s : str) : list str :=
  match s with
  | [] => [[]]
  | c :: s' => if Ascii.eqb c "/"%char then [] :: components s'
               else match components s' with p :: ps => (c :: p) :: ps | [] => [[c]] end
  end.
Definition glob_of (s : str) : glob :=
  let '(no, body) := match s with "!"%char :: b => (true, b) | _ => (false, s) end in
  Glob no (existsb (Ascii.eqb "/"%char) body) (components body).
(** The values of --glob *)
Fixpoint globs (argv : list str) : list glob :=
  match argv with
  | [] => []
  | x :: argv' =>
      (if str_eqb x $"--glob" then match argv' with g :: _ => [glob_of g] | [] => [] end else []) ++ globs argv'
  end.

Fixpoint any_suffix (f : str -> bool) (s : str) : bool :=
  f s || match s with [] => false | _ :: s' => any_suffix f s' end.
(** A star stands for any text. *)
Fixpoint wild (p s : str) : bool :=
  match p with
  | [] => match s with [] => true | _ => false end
  | c :: p' => if Ascii.eqb c "*"%char then any_suffix (wild p') s
               else match s with d :: s' => Ascii.eqb c d && wild p' s' | [] => false end
  end.
Fixpoint wilds (ps ss : list str) : bool :=
  match ps, ss with
  | [], [] => true
  | p :: ps, s :: ss => wild p s && wilds ps ss
  | _, _ => false
  end.
(** A glob with a slash is for whole names below the directory, another one for the last component. *)
Definition selects (g : glob) (rel : list str) : bool :=
  if gl_anchored g then wilds (gl_parts g) rel
  else match gl_parts g, rev rel with [p], name :: _ => wild p name | _, _ => false end.
(** The last glob that selects the name decides: Some true, it is to be read. *)
Fixpoint verdict (gs : list glob) (rel : list str) : option bool :=
  match gs with
  | [] => None
  | g :: gs' => match verdict gs' rel with
                | Some b => Some b
                | None => if selects g rel then Some (negb (gl_excludes g)) else None
                end
  end.
Definition hidden (rel : list str) : bool := match rev rel with name :: _ => startswith name $"." | [] => false end.
(** [ignored]: what ignore files say *)
Definition enters (gs : list glob) (ignored : list str -> bool) (rel : list str) : bool :=
  match verdict gs rel with Some b => b | None => negb (hidden rel) && negb (ignored rel) end.
Definition reads (gs : list glob) (ignored : list str -> bool) (rel : list str) : bool :=
  match verdict gs rel with
  | Some b => b
  | None => forallb gl_excludes gs && negb (hidden rel) && negb (ignored rel)
  end.
(** From the directory [cur] on *)
Fixpoint visits (gs : list glob) (ignored : list str -> bool) (cur rel : list str) : bool :=
  match rel with
  | [] => false
  | [name] => reads gs ignored (cur ++ [name])
  | d :: rel' => enters gs ignored (cur ++ [d]) && visits gs ignored (cur ++ [d]) rel'
  end.
Definition rg_reads (a : arch) (ignored : list str -> bool) (rel : list str) : bool := visits (globs (rg_argv a)) ignored [] rel.
