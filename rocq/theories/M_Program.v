(** The whole program on a computer: the parts modelled in the other files put together.  What main
    gets from its surroundings (M_Main.machine) is computed here from files and from what other
    programs print.  The steps that prepare sources (clean, configure, build, mkdir) are functions here;
    M_Workshop.v adds them.  Simplified: the properties of an ELF are computed when it is opened
    (elf.py computes them when they are first used), so that readelf -WS is run in all cases; opening a directory is as opening a missing file. *)
From Coq Require Import List Bool Ascii String ZArith.
From Verif Require Import PyBase M_Utils M_Elf M_Syscall M_Arch M_Emu M_Kernel M_Location M_Annotate M_Search M_Pattern M_Config M_Command M_Output M_Main M_Args.
Import ListNotations.
Open Scope Z_scope.
Open Scope list_scope.

(** A computer, after what was done so far: what is at a path, where it really is, which programs are on
    PATH and can be started in a directory (None: the current one), what they do (None: they never end);
    the x86 decoder and the orders of sets; and the steps that prepare sources. *)
Record computer := Computer {
  pc_look : list action -> path -> option node;
  pc_resolve : list action -> path -> path;
  pc_which : list action -> str -> bool;
  pc_found : list action -> option path -> str -> bool;
  pc_run : list action -> command -> option path -> option (Z * str * str);
  pc_decode : bool -> bytes -> Z -> list insn;
  pc_same : insn -> insn -> bool;
  pc_insn_order : list insn -> list insn;
  pc_ni_order : list symbol -> list symbol;
  pc_mkdir : list action -> path -> bool;
  pc_clean : list action -> arch -> outcome unit;
  pc_configure : list action -> arch -> outcome unit;
  pc_build : list action -> arch -> bool -> outcome (Z * Z);
  pc_version : str
}.

Definition entry_of (n : option node) : entry :=
  match n with None => Missing | Some (NDir _) => Dir | Some _ => File end.
Definition content_of (n : option node) : option bytes := match n with Some (NFile b) => Some b | _ => None end.
(** The system of M_Command; a program that never ends is dealt with below. *)
Definition system_at (c : computer) (h : list action) : system :=
  System (fun p => entry_of (pc_look c h p)) (pc_found c h)
    (fun cmd cwd => match pc_run c h cmd cwd with Some x => x | None => (0, [], []) end).
Definition waits (c : computer) (h : list action) (cmd : command) (cwd : option path) : bool :=
  match popen_ (system_at c h) cmd cwd, pc_run c h cmd cwd with Child _ _ _, None => true | _, _ => false end.
(** utils.py 238-277 with the output captured *)
Definition capture (c : computer) (h : list action) (cmd : command) (cwd : option path) : outcome str :=
  if waits c h cmd cwd then Diverge
  else out <- snd (ensure_command (system_at c h) cmd cwd true false) ;;
       match out with Some s => Ok s | None => Raise AttributeError end.

(** utils.py 285-289, 291-295 *)
Definition ask_gcc (c : computer) (h : list action) (gcc : str) : outcome str :=
  if waits c h (Argv [gcc; $"--version"]) None then Diverge else snd (gcc_version (system_at c h) gcc).
Definition checkout (c : computer) (h : list action) (repo : path) (ref : str) : outcome unit :=
  if waits c h (Argv [$"git"; $"checkout"; ref]) (Some repo) then Diverge else snd (git_checkout (system_at c h) repo ref).

(** elf.py 51-140 *)
Definition open_elf (c : computer) (h : list action) (p : path) : outcome elf :=
  match content_of (pc_look c h p) with
  | None => Raise FileNotFoundError
  | Some file =>
      _ <- elf_ident file ;;
      out_s <- capture c h (Argv [$"readelf"; $"-Ws"; str_of_path p]) None ;;
      out_S <- capture c h (Argv [$"readelf"; $"-WS"; str_of_path p]) None ;;
      elf_open file out_S out_s
  end.

(** location.py 14-15 *)
Definition run_addr2line (c : computer) (h : list action) (p : path) (addrs : list Z) : outcome str :=
  capture c h (Argv ([$"addr2line"; $"-e"; str_of_path p] ++ map hex addrs)) None.
(** location.py 106-119 *)
Definition rg_argv (a : arch) : list str :=
  [$"rg"; $"--line-number"; $"--glob"; $"!Documentation/*"; $"--glob"; $"!drivers/*"; $"--glob"; $"!lib/*"; $"--glob"; $"!samples/*";
   $"--glob"; $"!sound/*"; $"--glob"; $"!tools/*"; $"--glob"; $"!usr/*"; $"--glob"; $"!arch/*";
   $"--glob"; $"arch/" ++ class_name (a_class a); $"--glob"; $"*.c"; search_text a].
(** location.py 86-119 *)
Definition run_search (c : computer) (h : list action) (a : arch) (kdir : path) : outcome (list str) :=
  if pc_which c h $"rg" then out <- capture c h (Argv (rg_argv a)) (Some kdir) ;; Ok (splitlines out)
  else match pc_look c h kdir with Some n => python_search a n | None => Raise FileNotFoundError end.
Definition world_at (c : computer) (h : list action) (a : arch) (p : path) (kdir : option path) : world :=
  World (fun f => content_of (pc_look c h f)) (run_addr2line c h p)
    (match kdir with Some k => run_search c h a k | None => Ok [] end).

(** __main__.py 196-197, 263-264 *)
Definition image_path (g : args) : path :=
  match path_arg (g_vmlinux g), path_arg (g_kdir g) with
  | Some v, _ => v
  | None, Some k => path_join k (Path [] [$"vmlinux"])
  | None, None => Path [] []
  end.
(** kernel.py 299-585 with location.py and signature.py; __main__.py 199, 275 *)
Definition env_at (c : computer) (g : args) (h : list action) (a : arch) (e : elf) : M_Kernel.env :=
  let p := image_path g in
  let kdir := path_arg (g_kdir g) in
  M_Kernel.Env (pc_decode c) (pc_same c) (pc_insn_order c) (pc_ni_order c)
    (annotate (world_at c h (adjust_abi a e) p kdir) (pc_which c h $"addr2line") (adjust_abi a e) e p kdir (path_arg (g_remap g))
       (match kdir with Some k => pc_resolve c h k | None => Path [] [] end)).

Definition machine_of (c : computer) (g : args) : machine :=
  let kdir := path_arg (g_kdir g) in
  Machine
    (fun h ref => match kdir with Some k => checkout c h k ref | None => Raise TypeError end)
    (fun h p => match pc_look c h p with Some _ => true | None => false end)
    (fun h p => match pc_look c h p with Some (NDir _) => true | _ => false end)
    (pc_mkdir c)
    (fun h p => match pc_look c h p with Some (NFile _) => true | _ => false end)
    (pc_which c)
    (ask_gcc c)
    (open_elf c)
    (fun h => out <- capture c h (Shell $"make kernelversion") kdir ;; Ok (version_from_str out))
    (pc_clean c) (pc_configure c) (pc_build c)
    (fun h a e v => extract_syscalls (env_at c g h a e) a e v kdir)
    (pc_version c).

(** The command line on a computer *)
Definition on_computer (c : computer) (argv : list str) : mio Z :=
  match parse_args argv with
  | inr g => main (machine_of c g) g
  | inl _ => systrack (machine_of c namespace0) argv
  end.
