(** Model of /repo/src/systrack/utils.py 175-195 and 215-295: running other programs.  Not modelled:
    the decoding of what a program prints (see M_Pipe), and errors of the operating system other than a program or
    a directory that is missing or is not a directory (permissions, no memory), which are raised. *)
From Coq Require Import List Bool Ascii String ZArith.
From Verif Require Import PyBase M_Utils.
Import ListNotations.
Open Scope Z_scope.
Open Scope list_scope.

(** A command is a line for the shell ([str]) or a list of arguments. *)
Inductive command := Shell (line : str) | Argv (args : list str).

(** What is there: what a path is, whether a program is found when it is started in a directory (None:
    the current one), and what a program does once started: status, standard output and error. *)
Inductive entry := Missing | File | Dir.
Record system := System {
  sys_entry : path -> entry;
  sys_found : option path -> str -> bool;
  sys_run : command -> option path -> Z * str * str
}.

(** What is logged, by the arguments of the message *)
Inductive log :=
| LNotFound (program : str)                                  (* utils.py 189 *)
| LNoDir (d : option path)                                   (* 191 *)
| LNotDir (d : option path)                                  (* 193 *)
| LFailed (status : Z) (cmd : command) (err : str).          (* 274 *)

(** subprocess.Popen: the new process changes its directory, then runs the program; [shell=True] runs
    /bin/sh. *)
Inductive popen := Child (status : Z) (out err : str) | NoFile | NotADir.
Definition program (c : command) : str :=
  match c with Shell _ => $"/bin/sh" | Argv a => hd [] a end.
Definition popen_ (w : system) (c : command) (cwd : option path) : popen :=
  let start := if sys_found w cwd (program c)
               then let '(status, out, err) := sys_run w c cwd in Child status out err
               else NoFile in
  match cwd with
  | None => start
  | Some d => match sys_entry w d with Missing => NoFile | File => NotADir | Dir => start end
  end.

(** utils.py 175-195: the messages, and the process if it was started *)
Definition do_popen (w : system) (c : command) (cwd : option path) : list log * outcome (option (Z * str * str)) :=
  match popen_ w c cwd with
  | Child status out err => ([], Ok (Some (status, out, err)))
  | NoFile =>
      match cwd with
      | None => ([], Raise AttributeError)                   (* 187: None.exists() *)
      | Some d =>
          match sys_entry w d with
          | Missing => ([LNoDir cwd], Ok None)
          | _ => match (match c with Shell l => split_ws l | Argv a => a end) with
                 | [] => ([], Raise IndexError)
                 | p :: _ => ([LNotFound p], Ok None)
                 end
          end
      end
  | NotADir => ([LNotDir cwd], Ok None)
  end.

(** utils.py 215-236: the status (the command shown at high verbosity is in M_Utils) *)
Definition run_command (w : system) (c : command) (cwd : option path) : list log * outcome Z :=
  let '(l, r) := do_popen w c cwd in
  (l, p <- r ;; Ok (match p with None => 127 | Some (status, _, _) => status end)).

(** textwrap.indent(text, '\t') *)
Definition TAB : ascii := ascii_of_N 9.
Definition indent (text : str) : str :=
  List.concat (map (fun l => match strip l with [] => l | _ => TAB :: l end) (lines_keep text)).

(** utils.py 238-277.  What the function returns is None unless the output is captured. *)
Definition ensure_command (w : system) (c : command) (cwd : option path) (capture_stdout console_output : bool)
    : list log * outcome (option str) :=
  if negb (negb console_output || negb capture_stdout) then ([], Raise AssertionError) else
  let '(l, r) := do_popen w c cwd in
  match r with
  | Ok None => (l, Exit 127)
  | Ok (Some (status, out, err)) =>
      if negb (status =? 0) then
        let err := if console_output then []
                   else match strip err with [] => $" (no stderr output)" | _ => NL :: indent err end in
        (l ++ [LFailed status c err], Exit 1)
      else (l, Ok (if capture_stdout then Some out else None))
  | Raise e => (l, Raise e)
  | Exit z => (l, Exit z)
  | Diverge => (l, Diverge)
  end.

(** utils.py 285-289 *)
Definition gcc_version (w : system) (gcc_cmd : str) : list log * outcome str :=
  let '(l, r) := ensure_command w (Argv [gcc_cmd; $"--version"]) None true false in
  (l, out <- r ;;
      match out with
      | Some out => match splitlines out with [] => Raise IndexError | x :: _ => Ok (strip x) end
      | None => Raise AttributeError
      end).

(** utils.py 291-295 *)
Definition git_checkout (w : system) (repo : path) (ref : str) : list log * outcome unit :=
  let '(l, r) := ensure_command w (Argv [$"git"; $"checkout"; ref]) (Some repo) false false in
  (l, _ <- r ;; Ok tt).
