(** Model of what main says when it fails: /repo/src/systrack/__main__.py 132-321 with the messages
    that M_Main.v leaves out, and the arguments of the exceptions of kernel.py 44-83.  The list of
    architectures (__main__.py 179) is in M_HelpText.v. *)
From Coq Require Import List Bool Ascii String ZArith.
From Verif Require Import PyBase M_Utils M_Elf M_Syscall M_Arch M_Config M_Kernel M_Output M_Main M_HelpText M_Help.
Import ListNotations.
Open Scope Z_scope.
Open Scope list_scope.

(** What the messages need besides: sys.argv[0], and the text of the exception of __main__.py 215 *)
Record voice := Voice { vo_argv0 : str; vo_why : list action -> path -> str }.

(** kernel.py 24-34, with the arguments of the exceptions (61, 66, 70, 79, 132) *)
Inductive trouble := NoVersion | BadArch (text : str) | NoSymbols | ManyABIs (k : klass) (abis : list str).
Definition error_of (t : trouble) : exn :=
  match t with
  | NoVersion => KernelVersionError
  | BadArch _ => KernelArchError
  | NoSymbols => KernelWithoutSymbolsError
  | ManyABIs _ _ => KernelMultiABIError
  end.

Definition DQUOTE : str := [chr 34].
(** f'{arch_name}' *)
Definition show_name (n : option str) : str := match n with Some s => s | None => $"None" end.

(** kernel.py 44-83 again, as M_Kernel.kernel_init, with the arguments of the exceptions.  The
    exception of [version] (132) is told apart from those of reading it. *)
Definition kernel_new (arch_name : option str) (vmlinux : option elf) (kdir : bool)
    (get_version : outcome version) : outcome (trouble + arch) :=
  if negb kdir && match vmlinux with None => true | Some _ => false end then Raise ValueError
  else if match arch_name, vmlinux with None, None => true | _, _ => false end then Raise ValueError
  else
    let with_version (f : version -> outcome arch) : outcome (trouble + arch) :=
      match get_version with
      | Ok v => a <- f v ;; Ok (inr a)
      | Raise KernelVersionError => Ok (inl NoVersion)
      | Raise x => Raise x
      | Exit c => Exit c
      | Diverge => Diverge
      end in
    let made : outcome (trouble + arch) :=
      match arch_name, vmlinux with
      | Some n, _ => with_version (arch_from_name n)
      | None, Some e =>
          m <- arch_from_vmlinux e ;;
          match m with
          | None => Ok (inl (BadArch $"Failed to detect kernel architecture/ABI"))
          | Some (k, bits32, abis) =>
              if 1 <? len abis then Ok (inl (ManyABIs k abis))
              else with_version (fun v => abi <- index_ abis 0 ;; arch_new k v abi bits32)
          end
      | None, None => Raise ValueError
      end in
    match vmlinux with
    | None => made
    | Some e =>
        match e_symbols e with
        | [] => Ok (inl NoSymbols)
        | _ =>
            r <- made ;;
            match r with
            | inl t => Ok (inl t)
            | inr a =>
                ok <- arch_matches a e ;;
                if ok : bool then Ok (inr a)
                else Ok (inl (BadArch ($"Architecture " ++ show_name arch_name ++ $" does not match provided vmlinux")))
            end
        end
    end.

(** __main__.py 138-156: the messages *)
Definition trouble_lines (argv0 : str) (t : trouble) : list str :=
  match t with
  | NoVersion =>
      [$"Unable to determine kernel version!"; $"Did you specify a valid kernel source directory (--kdir) or vmlinux path?"]
  | BadArch text => [text; $"See '" ++ argv0 ++ $" --arch help' for more information"]
  | NoSymbols =>
      [$"The provided kernel image has no symbols, which are necessary for Systrack to work.";
       $"You can try unstripping the image with tools such as " ++ DQUOTE ++ $"vmlinux-to-elf" ++ DQUOTE ++ $"."]
  | ManyABIs k abis =>
      [$"Detected architecture: " ++ class_name k; $"Detected ABIs: " ++ join $", " abis;
       $"This kernel was built with support for multiple syscall ABIs.";
       $"Select one using --arch NAME (see --arch HELP for more info)."]
  end.

(** Say something and end. *)
Definition refuse (silent : bool) (lines : list str) (status : Z) : mio Z :=
  _ <-- eprints silent lines ;; ret (Ok status).
(** __main__.py 132-156.  The class of an exception that comes from ELF() or from make decides the
    messages of the first and the third kind; none of the four comes from there. *)
Definition instantiate (o : voice) (silent : bool) (x : outcome (trouble + arch)) : mio arch :=
  match x with
  | Ok (inr a) => ret (Ok a)
  | Ok (inl t) => _ <-- eprints silent (trouble_lines (vo_argv0 o) t) ;; ret (Exit 1)
  | Raise e => ret (instantiate_kernel (Raise e))
  | Exit c => ret (Exit c)
  | Diverge => ret Diverge
  end.

(** __main__.py 206-255 *)
Definition prepare_saying (o : voice) (m : machine) (g : args) (silent : bool) (arch_name : option str) (kdir : option path) : mio Z :=
  let cross := match g_cross g with Some c => c | None => [] end in
  bad <-- match g_out g with
         | Some (c :: s) =>
             let out := path_of_str (c :: s) in
             there <-- ask (fun h => mc_exists m h out && negb (mc_is_dir m h out)) ;;
             if there : bool
             then ret (Ok [$"Output directory " ++ DQUOTE ++ (c :: s) ++ DQUOTE ++ $" already exists and is not a directory"])
             else
               why <-- ask (fun h => vo_why o h out) ;;
               fine <-- act (MadeDir out) (fun h => Ok (mc_mkdir m h out)) ;;
               ret (Ok (if fine : bool then []
                        else [$"Failed to create output directory " ++ DQUOTE ++ (c :: s) ++ DQUOTE ++ $": " ++ why]))
         | _ => ret (Ok [])
         end ;;
  match bad : list str with
  | _ :: _ => refuse silent bad 1
  | [] =>
    gcc <-- ask (fun h => mc_available m h (cross ++ $"gcc")) ;;
    if negb gcc
    then refuse silent [$"Command " ++ DQUOTE ++ cross ++ $"gcc" ++ DQUOTE ++ $" not found";
                        $"Make sure your cross-compilation toolchain is in $PATH"] 127
    else
      _ <-- (if g_config g || g_build g
             then v <-- try_ (fun h => mc_gcc_version m h (cross ++ $"gcc")) ;; eprint silent ($"Compiler: " ++ v)
             else ret (Ok tt)) ;;
      x <-- ask (fun h => kernel_new arch_name None (match kdir with Some _ => true | None => false end)
                            (fst (get_version None (Some (mc_make_version m h)) vstate0))) ;;
      a <-- instantiate o silent x ;;
      let version_str_now : mio str :=
        try_ (fun h => let '(r, s) := get_version None (Some (mc_make_version m h)) vstate0 in
                       v <- r ;; Ok (version_str v (match vs_source s with Some x => x | None => $"None" end))) in
      let clean := _ <-- eprint silent $"Cleaning kernel sources" ;; act (Cleaned kdir a) (fun h => mc_clean m h a) in
      let configure :=
        v <-- version_str_now ;;
        _ <-- eprint silent ($"Detected kernel version: " ++ v) ;;
        _ <-- eprint silent $"Configuring kernel" ;;
        act (Configured kdir a) (fun h => mc_configure m h a) in
      if g_build g then
        _ <-- clean ;; _ <-- configure ;;
        _ <-- eprint silent $"Building kernel (might take a while)" ;;
        t <-- act (Built kdir a (g_disable_opt g)) (fun h => mc_build m h a (g_disable_opt g)) ;;
        _ <-- eprint silent ($"Build took " ++ format_duration (fst t) (snd t)) ;;
        ret (Ok 0)
      else if g_config g then
        _ <-- clean ;; _ <-- configure ;; _ <-- eprint silent $"Done" ;; ret (Ok 0)
      else
        _ <-- clean ;; _ <-- eprint silent $"Done" ;; ret (Ok 0)
  end.

(** __main__.py 257-321 *)
Definition analyse_saying (o : voice) (m : machine) (g : args) (silent : bool) (arch_name : option str) (kdir : option path) : mio Z :=
  let auto := match g_checkout g with Some c => str_eqb c $"auto" | None => false end in
  if auto && negb (given (g_vmlinux g)) then refuse silent [$"Cannot perform auto-checkout without a vmlinux image!"] 1
  else
    vmlinux <-- ret match path_arg (g_vmlinux g), kdir with
                    | Some v, _ => Ok v
                    | None, Some k => Ok (path_join k (Path [] [$"vmlinux"]))
                    | None, None => Raise TypeError
                    end ;;
    there <-- ask (fun h => mc_is_file m h vmlinux) ;;
    if negb there
    then refuse silent [$"Unable to find vmlinux at " ++ DQUOTE ++ str_of_path vmlinux ++ DQUOTE ++ $".";
                        $"Build the kernel or provide a valid path."] 1
    else
      readelf <-- ask (fun h => mc_available m h $"readelf") ;;
      if negb readelf
      then refuse silent [$"Command " ++ DQUOTE ++ $"readelf" ++ DQUOTE ++ $" unavailable, can't do much without it!"] 127
      else
        e <-- try_ (fun h => instantiate_kernel (mc_elf m h vmlinux)) ;;
        let '(r, s) := get_version (Some (version_from_vmlinux e)) None vstate0 in
        let source := match vs_source s with Some x => x | None => $"None" end in
        a <-- instantiate o silent (kernel_new arch_name (Some e) (match kdir with Some _ => true | None => false end) r) ;;
        v <-- ret r ;;
        _ <-- eprint silent ($"Detected kernel version: " ++ version_str v source) ;;
        _ <-- (if auto then
                 _ <-- ret (assert_ (str_eqb source $"vmlinux")) ;;
                 tag <-- ret (version_tag v) ;;
                 _ <-- eprint silent ($"Checking out to " ++ tag) ;;
                 act (CheckedOut kdir tag) (fun h => mc_checkout m h tag)
               else ret (Ok tt)) ;;
        scs <-- try_ (fun h => mc_syscalls m h a e v) ;;
        match scs with
        | [] => ret (Ok 1)
        | _ =>
            shown <-- ret (mapM (show_path kdir (g_absolute g)) scs) ;;
            _ <-- eprints silent (summary kdir scs) ;;
            d <-- ret (output_syscalls (mc_version m) (version_tag v) source (adjust_abi a e) shown (g_format g)) ;;
            _ <-- act (Printed d) (fun _ => Ok tt) ;;
            ret (Ok 0)
        end.

(** __main__.py 158-321, from 165 on *)
Definition main_saying (o : voice) (m : machine) (g : args) : mio Z :=
  let silent := lc_silent (setup_logging (g_quiet g) (g_verbose g)) in
  let arch_name := option_map lower (g_arch g) in
  match arch_messages silent (g_arch g) with
  | (lines, Some status) => fun h => (h ++ map Said lines, Ok status)
  | (_, None) =>
      if negb (given (g_kdir g)) && negb (given (g_vmlinux g))
      then refuse silent [$"Need to specify a kernel source direcory and/or path to vmlinux"; $"See --help for more information"] 1
      else if negb (given (g_kdir g)) && (given (g_checkout g) || g_config g || g_build g)
      then refuse silent [$"Need to specify a kernel source direcory (--kdir)"] 1
      else if negb (given arch_name) && (g_config g || g_build g)
      then refuse silent [$"Need to specify an architecture/ABI combination (--arch)"; $"See --arch HELP for a list"] 1
      else
        let kdir := path_arg (g_kdir g) in
        _ <-- match g_checkout g with
              | Some (c :: s) =>
                  if str_eqb (c :: s) $"auto" then ret (Ok tt)
                  else _ <-- eprint silent ($"Checking out to " ++ c :: s) ;; act (CheckedOut kdir (c :: s)) (fun h => mc_checkout m h (c :: s))
              | _ => ret (Ok tt)
              end ;;
        if g_clean g || g_config g || g_build g then prepare_saying o m g silent arch_name kdir
        else analyse_saying o m g silent arch_name kdir
  end.
