(** The steps that prepare sources, put together with the rest of the program (M_Program.v): cleaning
    and configuring (M_Config.v) and building (M_Build.v) on a computer.  All that is done goes into one
    list.  Simplified: programs that are only asked something (make kernelversion, gcc --version,
    readelf, addr2line, ripgrep) are not in the list, since they change nothing; all programs end; the
    program is not interrupted (C65 is about that). *)
From Coq Require Import List Bool Ascii String ZArith.
From Verif Require Import PyBase M_Utils M_Elf M_Syscall M_Arch M_Emu M_Kernel M_Kconfig M_Build M_Config M_Command M_Search M_Main M_Args M_Program.
Import ListNotations.
Open Scope Z_scope.
Open Scope list_scope.

(** What is done: by main, by configuring (commands, and reports on options), and files written by
    systrack itself. *)
Inductive doing :=
| Main (x : action)
| Prep (e : event)
| Wrote (p : path) (text : str).

(** A computer on which kernels are built, after what was done so far. *)
Record workshop := Workshop {
  ws_look : list doing -> path -> option node;
  ws_resolve : list doing -> path -> path;
  ws_which : list doing -> str -> bool;
  ws_found : list doing -> option path -> str -> bool;
  ws_run : list doing -> M_Command.command -> option path -> Z * str * str;
  ws_mkdir : list doing -> path -> bool;
  ws_elapsed : list doing -> list doing -> Z * Z;      (* seconds between two moments *)
  ws_cwd : path;
  ws_ncpu : Z;
  ws_decode : bool -> bytes -> Z -> list insn;
  ws_same : insn -> insn -> bool;
  ws_insn_order : list insn -> list insn;
  ws_ni_order : list symbol -> list symbol;
  ws_version : str
}.

(** ** Commands *)

Definition shop_at (w : workshop) (D : list doing) : system :=
  System (fun p => entry_of (ws_look w D p)) (ws_found w D) (ws_run w D).
(** utils.py 175-195: how a command ends, if it can be started *)
Definition started (w : workshop) (D : list doing) (argv : list str) (cwd : path) : option (Z * str) :=
  match popen_ (shop_at w D) (Argv argv) (Some cwd) with Child status out _ => Some (status, out) | _ => None end.
(** M_Config's surroundings, from the moment [D] on *)
Definition env_from (w : workshop) (D : list doing) : M_Config.env :=
  M_Config.Env (fun h c => started w (D ++ map Prep h) (c_argv c) (c_cwd c))
               (fun h p => content_of (ws_look w (D ++ map Prep h) p)).
(** A step of M_Config in the list of all that is done *)
Definition lift {A} (w : workshop) (x : M_Config.env -> io A) (D : list doing) : list doing * outcome A :=
  let '(h, r) := x (env_from w D) [] in (D ++ map Prep h, r).

(** kernel.py 115-117, 119-133: the version, read anew *)
Definition version_now (w : workshop) (D : list doing) (kdir : option path) : outcome (option version) :=
  out <- snd (M_Command.ensure_command (shop_at w D) (Shell $"make kernelversion") kdir true false) ;;
  match out with Some s => Ok (version_from_str s) | None => Raise AttributeError end.

(** ** The steps *)

(** kernel.py 50-55: the attributes; __main__.py 195-199, 231 *)
Definition kern_of (w : workshop) (g : args) (a : arch) (v : version) : kern :=
  Kern (match path_arg (g_kdir g) with Some k => k | None => Path [] [] end) (path_arg (g_out g))
       (match g_cross g with Some c => c | None => [] end) a v (ws_cwd w) (ws_ncpu w).

(** kernel.py 642-644 (the version is not used) *)
Definition clean_at (w : workshop) (g : args) (a : arch) (D : list doing) : list doing * outcome unit :=
  lift w (fun ev => clean ev (kern_of w g a [])) D.

(** kernel.py 661-675: configure() after the base targets *)
Definition settle (ev : M_Config.env) (k : kern) (arch_options : dict str (list str)) : io unit :=
  let v := k_version k in
  let f := config_file k in
  io_bind (edit_config ev (k_kdir k) f (kconfig_debugging v)) (fun _ =>
  io_bind (sync_config ev k) (fun _ =>
  io_bind (edit_config ev (k_kdir k) f (kconfig_compatibility v)) (fun _ =>
  io_bind (sync_config ev k) (fun _ =>
  io_bind (edit_config_check_deps ev (k_kdir k) f (kconfig_more_syscalls v)) (fun _ =>
  io_bind (sync_config ev k) (fun _ =>
  io_bind (edit_config_check_deps ev (k_kdir k) f arch_options) (fun _ =>
  sync_config ev k))))))).
(** arch.kconfig[version] of the only instance that there is *)
Definition only_kconfig (a : arch) (v : version) : dict str (list str) :=
  fst (arch_kconfig a v (p_world (run_process [New (a_class a) (a_version a) (a_abi a) (a_bits32 a)]))).
(** kernel.py 646-675: the version is read after the base targets are made *)
Definition configure_at (w : workshop) (g : args) (a : arch) (D : list doing) : list doing * outcome unit :=
  let '(D1, r1) := lift w (fun ev => io_each (fun t => make ev (kern_of w g a []) t None) (a_targets a)) D in
  match r1 with
  | Ok _ =>
      match fst (get_version None (Some (version_now w D1 (path_arg (g_kdir g)))) vstate0) with
      | Ok v => lift w (fun ev => settle ev (kern_of w g a v) (only_kconfig a v)) D1
      | Raise x => (D1, Raise x)
      | Exit c => (D1, Exit c)
      | Diverge => (D1, Diverge)
      end
  | _ => (D1, r1)
  end.

(** kernel.py 677-711, step by step (M_Build.prog); [backup] is __backup_makefile *)
Fixpoint work (w : workshop) (k : kern) (p : prog) (backup : option str) (D : list doing) : list doing * outcome unit :=
  let makefile := path_join (k_kdir k) (Path [] [$"Makefile"]) in
  match p with
  | PRet r => (D, r)
  | PRead f => match content_of (ws_look w D makefile) with
               | None => (D, Raise FileNotFoundError)
               | Some s => work w k (f (universal s)) backup D
               end
  | PWrite t p => work w k p backup (D ++ [Wrote makefile t])
  | PBackup t p => work w k p (Some t) D
  | PAsk f => work w k (f backup) backup D
  | PRegister p => work w k p backup D
  | PUnregister p => work w k p backup D
  | PMake f =>
      let c := Command (make_argv k $"vmlinux") (k_kdir k) None in
      work w k (f (option_map fst (started w D (c_argv c) (c_cwd c)))) backup (D ++ [Prep (Ran c)])
  end.
Definition build_at (w : workshop) (g : args) (a : arch) (disable_opt : bool) (D : list doing) : list doing * outcome (Z * Z) :=
  let '(D', r) := work w (kern_of w g a []) (build disable_opt) None D in
  (D', _ <- r ;; Ok (ws_elapsed w D D')).

(** ** All together *)

(** What is done, from what main does *)
Definition perform (w : workshop) (g : args) (D : list doing) (x : action) : list doing :=
  match x with
  | Cleaned _ a => fst (clean_at w g a D)
  | Configured _ a => fst (configure_at w g a D)
  | Built _ a o => fst (build_at w g a o D)
  | _ => D ++ [Main x]
  end.
Definition doings (w : workshop) (g : args) (h : list action) : list doing := fold_left (perform w g) h [].
Definition computer_of (w : workshop) (g : args) : computer :=
  let at_ h := doings w g h in
  Computer (fun h => ws_look w (at_ h)) (fun h => ws_resolve w (at_ h)) (fun h => ws_which w (at_ h)) (fun h => ws_found w (at_ h))
    (fun h c cwd => Some (ws_run w (at_ h) c cwd)) (ws_decode w) (ws_same w) (ws_insn_order w) (ws_ni_order w)
    (fun h => ws_mkdir w (at_ h))
    (fun h a => snd (clean_at w g a (at_ h)))
    (fun h a => snd (configure_at w g a (at_ h)))
    (fun h a o => snd (build_at w g a o (at_ h)))
    (ws_version w).
(** The program with these arguments: what is done, and how it ends *)
Definition run_in (w : workshop) (g : args) : list doing * outcome Z :=
  let '(h, r) := main (machine_of (computer_of w g) g) g [] in (doings w g h, r).
