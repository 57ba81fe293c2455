(** Model of /repo/src/systrack/__main__.py.  Parsing the arguments (argparse) is in M_Args.v:
    here we start from its result.  The messages that come with a failure are in
    M_Explain.v. *)
From Coq Require Import List Bool Ascii String ZArith.
From Verif Require Import PyBase M_Utils M_Elf M_Syscall M_Arch M_Kernel M_Output.
Import ListNotations.
Open Scope Z_scope.
Open Scope list_scope.

(** ** Logging *)

(** The level of the root logger, and the two flags of utils.py 115-138 *)
Record logconf := LogConf { lc_level : Z; lc_high : bool; lc_silent : bool }.
(** __main__.py 88-130, without the format of the messages *)
Definition setup_logging (quietness verbosity : Z) : logconf :=
  let q := if 0 <? verbosity then 0 else quietness in
  let high := (0 <? verbosity) && (3 <=? verbosity) in
  let silent := 1 <=? q in
  let q := if 1 <=? q then q - 1 else q in
  LogConf (Z.max (30 + 10 * (q - verbosity)) 0) high silent.
(** logging: a message of a level is emitted iff the level is at least that of the root logger *)
Definition logged (c : logconf) (level : Z) : bool := lc_level c <=? level.

(** ** Arguments and surroundings *)

(** __main__.py 30-86: what parse_args returns *)
Record args := Args {
  g_vmlinux : option str; g_kdir : option str; g_arch : option str;
  g_build : bool; g_config : bool; g_clean : bool;
  g_cross : option str; g_out : option str; g_format : str;
  g_absolute : bool; g_remap : option str; g_checkout : option str; g_disable_opt : bool;
  g_quiet : Z; g_verbose : Z
}.

(** What is done: a line said on standard error (eprint), git checkout, mkdir, the three
    operations on the sources (with the directory and the architecture used), and the output. *)
Inductive action :=
| Said (line : str)
| CheckedOut (dir : option path) (ref : str)
| MadeDir (p : path)
| Cleaned (dir : option path) (a : arch)
| Configured (dir : option path) (a : arch)
| Built (dir : option path) (a : arch) (disable_opt : bool)
| Printed (d : document).

(** The rest of the world, after what was done so far. *)
Record machine := Machine {
  mc_checkout : list action -> str -> outcome unit;       (* utils.py 291-295, in KDIR *)
  mc_exists : list action -> path -> bool;
  mc_is_dir : list action -> path -> bool;
  mc_mkdir : list action -> path -> bool;                 (* false: any exception of __main__.py 210-216 *)
  mc_is_file : list action -> path -> bool;
  mc_available : list action -> str -> bool;              (* utils.py 279-283 *)
  mc_gcc_version : list action -> str -> outcome str;     (* utils.py 285-289 *)
  mc_elf : list action -> path -> outcome elf;            (* ELF(vmlinux) *)
  mc_make_version : list action -> outcome (option version);  (* kernel.py 115-117 *)
  mc_clean : list action -> arch -> outcome unit;         (* Kernel.clean, see M_Config *)
  mc_configure : list action -> arch -> outcome unit;     (* Kernel.configure, see M_Config *)
  mc_build : list action -> arch -> bool -> outcome (Z * Z);  (* Kernel.build, see M_Build; a rational *)
  mc_syscalls : list action -> arch -> elf -> version -> outcome (list syscall);  (* Kernel.syscalls *)
  mc_version : str                                        (* version.py: VERSION *)
}.

(** Computations: what is done in addition, and an outcome. *)
Definition mio (A : Type) := list action -> list action * outcome A.
Definition ret {A} (x : outcome A) : mio A := fun h => (h, x).
Definition mbind {A B} (x : mio A) (f : A -> mio B) : mio B :=
  fun h => let '(h', r) := x h in
           match r with
           | Ok a => f a h'
           | Raise e => (h', Raise e)
           | Exit c => (h', Exit c)
           | Diverge => (h', Diverge)
           end.
(** Ask the surroundings. *)
Definition ask {A} (f : list action -> A) : mio A := fun h => (h, Ok (f h)).
Definition try_ {A} (f : list action -> outcome A) : mio A := fun h => (h, f h).
(** Do something, and how it ends *)
Definition act {A} (x : action) (f : list action -> outcome A) : mio A := fun h => (h ++ [x], f h).
Notation "x <-- m ;; f" := (mbind m (fun x => f)) (at level 61, m at next level, right associativity).

(** utils.py 134-139 *)
Definition eprint (silent : bool) (line : str) : mio unit :=
  if silent then ret (Ok tt) else act (Said line) (fun _ => Ok tt).

(** ** main *)

(** [if x], for a string or None *)
Definition given (x : option str) : bool := match x with Some (_ :: _) => true | _ => false end.
(** [Path(x) if x else None] *)
Definition path_arg (x : option str) : option path :=
  match x with Some (c :: s) => Some (path_of_str (c :: s)) | _ => None end.

(** __main__.py 132-156: four exceptions end the program with status 1 *)
Definition instantiate_kernel {A} (x : outcome A) : outcome A :=
  match x with
  | Raise KernelVersionError | Raise KernelArchError | Raise KernelWithoutSymbolsError | Raise KernelMultiABIError => Exit 1
  | _ => x
  end.

(** __main__.py 167-179: the status if the program ends here *)
Definition check_arch (arch_name : option str) : option Z :=
  match arch_name with
  | None => None
  | Some n =>
      if dmem str_eqb n SUPPORTED_ARCHS then None
      else if str_eqb n $"help" || str_eqb n $"?" then Some 0 else Some 1
  end.

(** __main__.py 206-255 *)
Definition prepare (m : machine) (g : args) (silent : bool) (arch_name : option str) (kdir : option path) : mio Z :=
  let cross := match g_cross g with Some c => c | None => [] end in
  ok <-- match path_arg (g_out g) with
         | None => ret (Ok true)
         | Some o =>
             bad <-- ask (fun h => mc_exists m h o && negb (mc_is_dir m h o)) ;;
             if bad : bool then ret (Ok false) else act (MadeDir o) (fun h => Ok (mc_mkdir m h o))
         end ;;
  if negb ok then ret (Ok 1)
  else
    gcc <-- ask (fun h => mc_available m h (cross ++ $"gcc")) ;;
    if negb gcc then ret (Ok 127)
    else
      _ <-- (if g_config g || g_build g
             then v <-- try_ (fun h => mc_gcc_version m h (cross ++ $"gcc")) ;; eprint silent ($"Compiler: " ++ v)
             else ret (Ok tt)) ;;
      a <-- try_ (fun h => instantiate_kernel
                    (kernel_init arch_name None (match kdir with Some _ => true | None => false end)
                       (fst (get_version None (Some (mc_make_version m h)) vstate0)))) ;;
      let version_str_now : mio str :=
        try_ (fun h => let '(r, s) := get_version None (Some (mc_make_version m h)) vstate0 in
                       v <- r ;; Ok (version_str v (match vs_source s with Some x => x | None => $"None" end))) in
      let clean := _ <-- eprint silent $"Cleaning kernel sources" ;; act (Cleaned kdir a) (fun h => mc_clean m h a) in
      let configure :=
        v <-- version_str_now ;;
        _ <-- eprint silent ($"Detected kernel version: " ++ v) ;;
        _ <-- eprint silent $"Configuring kernel" ;;
        act (Configured kdir a) (fun h => mc_configure m h a) in
      if g_build g then
        _ <-- clean ;; _ <-- configure ;;
        _ <-- eprint silent $"Building kernel (might take a while)" ;;
        t <-- act (Built kdir a (g_disable_opt g)) (fun h => mc_build m h a (g_disable_opt g)) ;;
        _ <-- eprint silent ($"Build took " ++ format_duration (fst t) (snd t)) ;;
        ret (Ok 0)
      else if g_config g then
        _ <-- clean ;; _ <-- configure ;; _ <-- eprint silent $"Done" ;; ret (Ok 0)
      else
        _ <-- clean ;; _ <-- eprint silent $"Done" ;; ret (Ok 0).

(** __main__.py 297-308: the paths, and the three numbers *)
Definition show_path (kdir : option path) (abs_paths : bool) (s : syscall) : outcome syscall :=
  match sc_file s, kdir with
  | Some f, Some k =>
      if abs_paths then Ok s
      else
        p <- maybe_rel (Some f) (Some k) ;;
        Ok (Syscall (sc_index s) (sc_number s) (sc_name s) (sc_origname s) (sc_symbol s) (sc_kconfig s) p (sc_line s)
              (sc_signature s) (sc_esoteric s) (sc_good s) (sc_grepped s))
  | _, _ => Ok s
  end.
Definition no_loc (s : syscall) : bool := match sc_file s with None => true | Some _ => false end.
Definition no_sig (kdir : option path) (s : syscall) : bool :=
  match kdir, sc_signature s with Some _, None => true | _, _ => false end.
Definition plural (n : Z) : str := if 1 <? n then $"s" else [].
(** __main__.py 310-319 *)
Definition summary (kdir : option path) (scs : list syscall) : list str :=
  let n_grepped := len (filter sc_grepped scs) in
  let n_no_loc := len (filter no_loc scs) in
  let n_no_sig := len (filter (no_sig kdir) scs) in
  [$"Found " ++ str_of_int (len scs) ++ $" implemented syscalls"] ++
  (if n_grepped =? 0 then [] else [$"Found " ++ str_of_int n_grepped ++ $" definition location" ++ plural n_grepped ++ $" through grepping"]) ++
  (if n_no_loc =? 0 then [] else [$"Could not find definition location for " ++ str_of_int n_no_loc ++ $" syscall" ++ plural n_no_loc]) ++
  (if n_no_sig =? 0 then [] else [$"Could not extract signature for " ++ str_of_int n_no_sig ++ $" syscall" ++ plural n_no_sig]) ++
  [[]].
Fixpoint eprints (silent : bool) (l : list str) : mio unit :=
  match l with
  | [] => ret (Ok tt)
  | s :: l' => _ <-- eprint silent s ;; eprints silent l'
  end.

(** __main__.py 257-321.  Extraction changes [kernel.arch] (adjust_abi, kernel.py 305). *)
Definition analyse (m : machine) (g : args) (silent : bool) (arch_name : option str) (kdir : option path) : mio Z :=
  let auto := match g_checkout g with Some c => str_eqb c $"auto" | None => false end in
  if auto && negb (given (g_vmlinux g)) then ret (Ok 1)
  else
    vmlinux <-- ret match path_arg (g_vmlinux g), kdir with
                    | Some v, _ => Ok v
                    | None, Some k => Ok (path_join k (Path [] [$"vmlinux"]))
                    | None, None => Raise TypeError
                    end ;;
    there <-- ask (fun h => mc_is_file m h vmlinux) ;;
    if negb there then ret (Ok 1)
    else
      readelf <-- ask (fun h => mc_available m h $"readelf") ;;
      if negb readelf then ret (Ok 127)
      else
        e <-- try_ (fun h => instantiate_kernel (mc_elf m h vmlinux)) ;;
        let '(r, s) := get_version (Some (version_from_vmlinux e)) None vstate0 in
        let source := match vs_source s with Some x => x | None => $"None" end in
        a <-- ret (instantiate_kernel (kernel_init arch_name (Some e) (match kdir with Some _ => true | None => false end) r)) ;;
        v <-- ret r ;;
        _ <-- eprint silent ($"Detected kernel version: " ++ version_str v source) ;;
        _ <-- (if auto then
                 _ <-- ret (assert_ (str_eqb source $"vmlinux")) ;;
                 tag <-- ret (version_tag v) ;;
                 _ <-- eprint silent ($"Checking out to " ++ tag) ;;
                 act (CheckedOut kdir tag) (fun h => mc_checkout m h tag)
               else ret (Ok tt)) ;;
        scs <-- try_ (fun h => mc_syscalls m h a e v) ;;
        match scs with
        | [] => ret (Ok 1)
        | _ =>
            shown <-- ret (mapM (show_path kdir (g_absolute g)) scs) ;;
            _ <-- eprints silent (summary kdir scs) ;;
            d <-- ret (output_syscalls (mc_version m) (version_tag v) source (adjust_abi a e) shown (g_format g)) ;;
            _ <-- act (Printed d) (fun _ => Ok tt) ;;
            ret (Ok 0)
        end.

(** __main__.py 158-321, from 167 on *)
Definition main (m : machine) (g : args) : mio Z :=
  let silent := lc_silent (setup_logging (g_quiet g) (g_verbose g)) in
  let arch_name := option_map lower (g_arch g) in
  match check_arch arch_name with
  | Some status => ret (Ok status)
  | None =>
      if negb (given (g_kdir g)) && negb (given (g_vmlinux g)) then ret (Ok 1)
      else if negb (given (g_kdir g)) && (given (g_checkout g) || g_config g || g_build g) then ret (Ok 1)
      else if negb (given arch_name) && (g_config g || g_build g) then ret (Ok 1)
      else
        let kdir := path_arg (g_kdir g) in
        _ <-- match g_checkout g with
              | Some (c :: s) =>
                  if str_eqb (c :: s) $"auto" then ret (Ok tt)
                  else _ <-- eprint silent ($"Checking out to " ++ c :: s) ;; act (CheckedOut kdir (c :: s)) (fun h => mc_checkout m h (c :: s))
              | _ => ret (Ok tt)
              end ;;
        if g_clean g || g_config g || g_build g then prepare m g silent arch_name kdir
        else analyse m g silent arch_name kdir
  end.
