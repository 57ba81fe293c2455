(** Specifications for running other programs (C96). *)
From Coq Require Import List Bool Ascii String ZArith.
From Verif Require Import PyBase M_Utils M_Command.
From Verif Require S_Elf.
Import ListNotations.
Open Scope Z_scope.
Open Scope list_scope.

(** A command that names a program *)
Definition names_program (c : command) : Prop :=
  match c with
  | Shell line => exists a, In a line /\ is_space a = false
  | Argv args => args <> []
  end.
(** The first word of a command, which stands for it in messages *)
Inductive first_word : command -> str -> Prop :=
| fw_argv p l : first_word (Argv (p :: l)) p
| fw_shell sp p rest : Forall (fun a => is_space a = true) sp -> p <> [] -> Forall (fun a => is_space a = false) p ->
    (rest = [] \/ exists a r, rest = a :: r /\ is_space a = true) ->
    first_word (Shell (sp ++ p ++ rest)) p.

(** Why a command does not start *)
Inductive trouble (w : system) (c : command) : option path -> log -> Prop :=
| tr_dir d : sys_entry w d = Missing -> trouble w c (Some d) (LNoDir (Some d))
| tr_file d : sys_entry w d = File -> trouble w c (Some d) (LNotDir (Some d))
| tr_program d p : sys_entry w d = Dir -> sys_found w (Some d) (program c) = false -> first_word c p ->
    trouble w c (Some d) (LNotFound p).
(** It starts *)
Definition starts (w : system) (c : command) (cwd : option path) : Prop :=
  sys_found w cwd (program c) = true /\ forall d, cwd = Some d -> sys_entry w d = Dir.

(** The standard error in a message: the lines, those that are not blank behind a tabulator, below the
    message. *)
Definition blank (l : str) : Prop := Forall (fun a => is_space a = true) l.
Inductive shifted : list str -> str -> Prop :=
| sf_nil : shifted [] []
| sf_blank l ls t : blank l -> shifted ls t -> shifted (l :: ls) (l ++ t)
| sf_line l ls t : ~ blank l -> shifted ls t -> shifted (l :: ls) (ascii_of_N 9 :: l ++ t).
(** The lines of a text, each with its end; the last one may have none. *)
Definition cut (text : str) (ls : list str) : Prop :=
  text = List.concat ls /\
  (Forall (fun l => exists x, l = x ++ [NL] /\ ~ In NL x) ls \/
   exists init l, ls = init ++ [l] /\ Forall (fun l => exists x, l = x ++ [NL] /\ ~ In NL x) init /\ l <> [] /\ ~ In NL l).
Inductive error_part (err : str) : str -> Prop :=
| ep_none : blank err -> error_part err $" (no stderr output)"
| ep_text ls t : ~ blank err -> cut err ls -> shifted ls t -> error_part err (NL :: t).

(** A text without the blanks around it *)
Definition trimmed (s t : str) : Prop :=
  exists a b, s = a ++ t ++ b /\ blank a /\ blank b /\
    (forall c r, t = c :: r -> is_space c = false) /\ (forall c r, t = r ++ [c] -> is_space c = false).
(** The first line of a text, without its end *)
Inductive first_line : str -> str -> Prop :=
| fl_end x c r : S_Elf.row x -> S_Elf.ends_row c -> first_line (x ++ c :: r) x
| fl_last x : x <> [] -> S_Elf.row x -> first_line x x.

(** A directory is given, or the program is there *)
Definition usable (w : system) (c : command) (cwd : option path) : Prop :=
  cwd <> None \/ sys_found w None (program c) = true.
(** What running a command must do: the output if it succeeds; the reason and the end of the run if not *)
Definition ensured (w : system) (c : command) (cwd : option path) (capture console : bool)
    (res : list log * outcome (option str)) : Prop :=
  (starts w c cwd /\ exists status out err, sys_run w c cwd = (status, out, err) /\
     ((status = 0 /\ res = ([], Ok (if capture then Some out else None))) \/
      (status <> 0 /\ exists part, res = ([LFailed status c part], Exit 1) /\
         if console then part = [] else error_part err part))) \/
  (~ starts w c cwd /\ exists m, trouble w c cwd m /\ res = ([m], Exit 127)).
