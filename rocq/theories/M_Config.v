(** Model of /repo/src/systrack/kconfig.py 33-113 and kernel.py 613-675: editing the kernel's
    configuration.  The programs that are run and the files they leave behind are parameters. *)
From Coq Require Import List Bool Ascii String ZArith.
From Verif Require Import PyBase M_Utils M_KconfigTables M_Arch M_Kconfig M_Build.
Import ListNotations.
Open Scope Z_scope.
Open Scope list_scope.

Definition EQ : ascii := "="%char.

(** A command as the operating system sees it: arguments, working directory, and the data it
    receives on its standard input (None: it inherits the one of systrack). *)
Record command := Command { c_argv : list str; c_cwd : path; c_stdin : option str }.

(** What an execution does: commands, and the two log messages of kconfig.py 106-111. *)
Inductive event :=
| Ran (c : command)
| Warned (opt dep_name : str) (actual : option str)
| Errored (opt dep_name wanted : str) (actual : option str).

(** The rest of the world, as a function of what was done so far: how a command ends (None: it
    cannot be started; else its return code and standard output) and the files. *)
Record env := Env {
  e_run : list event -> command -> option (Z * str);
  e_file : list event -> path -> option str
}.

(** Computations: from the history to the extended history and an outcome. *)
Definition io (A : Type) := list event -> list event * outcome A.
Definition io_ret {A} (x : outcome A) : io A := fun h => (h, x).
Definition io_bind {A B} (x : io A) (f : A -> io B) : io B :=
  fun h => let '(h', r) := x h in
           match r with
           | Ok a => f a h'
           | Raise e => (h', Raise e)
           | Exit c => (h', Exit c)
           | Diverge => (h', Diverge)
           end.
Definition io_emit (e : event) : io unit := fun h => (h ++ [e], Ok tt).
Fixpoint io_each {A} (f : A -> io unit) (l : list A) : io unit :=
  match l with
  | [] => io_ret (Ok tt)
  | x :: l' => io_bind (f x) (fun _ => io_each f l')
  end.

(** utils.py 177-195, 263: what communicate(data) gives to a child.  Popen is never told
    stdin=PIPE, so the child has no pipe and communicate() drops the data. *)
Definition received (stdin_is_pipe : bool) (data : option str) : option str :=
  if stdin_is_pipe then data else None.

(** utils.py 238-277 *)
Definition ensure (ev : env) (argv : list str) (cwd : path) (stdin : option str) : io str :=
  fun h => let c := Command argv cwd (received false stdin) in
           (h ++ [Ran c], ensure_command (e_run ev h c)).

(** kconfig.py 33-34 *)
Definition run_config_script (ev : env) (kdir config_file : path) (args : list str) : io str :=
  ensure ev ([$"./scripts/config"; $"--file"; str_of_path config_file] ++ args) kdir None.

(** kconfig.py 40-48, one line *)
Definition parse_line (d : dict str str) (line : str) : outcome (dict str str) :=
  match split_char1 EQ line with
  | None => Raise ValueError
  | Some (name, val) =>
      _ <- assert_ (startswith name $"CONFIG_") ;;
      Ok (dset str_eqb (slice_from name 7) val d)
  end.
(** kconfig.py 40-50, on the text of the file *)
Definition parse_config_text (s : str) : outcome (dict str str) :=
  let lines := filter (fun l => negb (str_eqb l []) && negb (startswith l $"#"))
                      (map strip (lines_keep (universal s))) in
  foldM parse_line [] lines.
(** kconfig.py 39-50 *)
Definition parse_config (ev : env) (config_file : path) : io (dict str str) :=
  fun h => (h, match e_file ev h config_file with
               | None => Raise FileNotFoundError
               | Some s => parse_config_text s
               end).

(** kconfig.py 57-68 *)
Definition option_argv (opt : str) : outcome (list str) :=
  match split_char1 EQ opt with
  | None => Raise ValueError
  | Some (name, val) =>
      Ok (if str_eqb val $"y" then [$"-e"; name]
          else if str_eqb val $"n" then [$"-d"; name]
          else if str_eqb val $"m" then [$"-m"; name]
          else [$"--set-val"; name; val])
  end.
(** kconfig.py 53-70 *)
Definition edit_config (ev : env) (kdir config_file : path) (options : list str) : io unit :=
  match options with
  | [] => io_ret (Ok tt)
  | _ => io_bind (io_ret (mapM option_argv options)) (fun args =>
           io_bind (run_config_script ev kdir config_file (List.concat args)) (fun _ =>
             io_ret (Ok tt)))
  end.

(** kconfig.py 79: dict() of a list of pairs; a list that is not a pair raises ValueError *)
Definition to_set (options : list str) : outcome (dict str str) :=
  l <- mapM (fun o => match split_char1 EQ o with Some p => Ok p | None => Raise ValueError end)
            options ;;
  Ok (dict_of str_eqb l).

(** kconfig.py 84-91 *)
Definition dep_value (ev : env) (kdir config_file : path) (toset config : dict str str) (dep_name : str)
    : io (option str) :=
  match match dget str_eqb dep_name toset with
        | Some (c :: s) => Some (c :: s)
        | _ => dget str_eqb dep_name config
        end with
  | Some x => io_ret (Ok (Some x))
  | None =>
      io_bind (run_config_script ev kdir config_file [$"-s"; dep_name]) (fun out =>
        let x := strip out in
        io_ret (Ok (if str_eqb x $"undef" then None else Some x)))
  end.

Definition opt_str_eqb (a b : option str) : bool :=
  match a, b with
  | None, None => true
  | Some x, Some y => str_eqb x y
  | _, _ => false
  end.

(** kconfig.py 84-111: one dependency of one option *)
Definition check_dep (ev : env) (kdir config_file : path) (toset config : dict str str) (opt dep : str)
    : io unit :=
  match split_char1 EQ dep with
  | None => io_ret (Raise ValueError)
  | Some (dep_name, wanted) =>
      io_bind (dep_value ev kdir config_file toset config dep_name) (fun actual =>
        if opt_str_eqb actual (Some wanted) then io_ret (Ok tt)
        else if str_eqb wanted $"n" && opt_str_eqb actual None then io_ret (Ok tt)
        else if str_eqb wanted $"y" && (opt_str_eqb actual (Some $"n") || opt_str_eqb actual None)
                && anyprefix dep_name [$"HAVE_"; $"ARCH_HAS_"]
        then io_emit (Warned opt dep_name actual)
        else io_emit (Errored opt dep_name wanted actual))
  end.

(** kconfig.py 75-113 *)
Definition edit_config_check_deps (ev : env) (kdir config_file : path) (options : dict str (list str))
    : io unit :=
  match options with
  | [] => io_ret (Ok tt)
  | _ =>
      io_bind (io_ret (to_set (dkeys options))) (fun toset =>
      io_bind (parse_config ev config_file) (fun config =>
      io_bind (io_each (fun '(opt, deps) =>
                 io_each (check_dep ev kdir config_file toset config opt) deps) options) (fun _ =>
      edit_config ev kdir config_file (dkeys options))))
  end.

(** ** kernel.py *)

(** The class attribute [name] of the architectures *)
Definition class_name (k : klass) : str :=
  match k with
  | KArm => $"arm" | KArm64 => $"arm64" | KMips => $"mips"
  | KPowerPC => $"powerpc" | KRiscV => $"riscv" | KX86 => $"x86"
  end.

(** The attributes of a Kernel used here, the working directory of systrack, the number of
    processors it may use, and its version (see C68 for how that is obtained; running
    [make kernelversion] is not part of the history). *)
Record kern := Kern {
  k_kdir : path;
  k_outdir : option path;
  k_cross : str;
  k_arch : arch;
  k_version : version;
  k_cwd : path;
  k_ncpu : Z
}.

(** kernel.py 614-627 *)
Definition make_argv (k : kern) (target : str) : list str :=
  [$"make"; $"-j" ++ str_of_int (Z.max (k_ncpu k - 1) 1); $"ARCH=" ++ class_name (a_class (k_arch k));
   $"KCFLAGS='-fdebug-prefix-map=" ++ str_of_path (path_join (k_cwd k) (k_kdir k)) ++ $"=.'"]
  ++ (match k_cross k with [] => [] | c => [$"CROSS_COMPILE=" ++ c] end)
  ++ (match k_outdir k with None => [] | Some o => [$"O=" ++ str_of_path o] end)
  ++ [target].
(** kernel.py 613-628, with ensure *)
Definition make (ev : env) (k : kern) (target : str) (stdin : option str) : io unit :=
  io_bind (ensure ev (make_argv k target) (k_kdir k) stdin) (fun _ => io_ret (Ok tt)).

(** kernel.py 632-640 *)
Definition sync_config (ev : env) (k : kern) : io unit :=
  if ver_geb (k_version k) [3;7] then make ev k $"olddefconfig" None
  else make ev k $"oldconfig" (Some (repeat NL (Z.to_nat 1000))).

(** kernel.py 642-644 (the cached version is reset: C68) *)
Definition clean (ev : env) (k : kern) : io unit := make ev k $"distclean" None.

(** kernel.py 647 *)
Definition config_file (k : kern) : path :=
  path_join (match k_outdir k with Some o => o | None => k_kdir k end) (Path [] [$".config"]).

(** kernel.py 646-675, given [self.arch.kconfig[self.version]] *)
Definition configure (ev : env) (k : kern) (arch_options : dict str (list str)) : io unit :=
  let v := k_version k in
  let f := config_file k in
  io_bind (io_each (fun t => make ev k t None) (a_targets (k_arch k))) (fun _ =>
  io_bind (edit_config ev (k_kdir k) f (kconfig_debugging v)) (fun _ =>
  io_bind (sync_config ev k) (fun _ =>
  io_bind (edit_config ev (k_kdir k) f (kconfig_compatibility v)) (fun _ =>
  io_bind (sync_config ev k) (fun _ =>
  io_bind (edit_config_check_deps ev (k_kdir k) f (kconfig_more_syscalls v)) (fun _ =>
  io_bind (sync_config ev k) (fun _ =>
  io_bind (edit_config_check_deps ev (k_kdir k) f arch_options) (fun _ =>
  sync_config ev k)))))))).
