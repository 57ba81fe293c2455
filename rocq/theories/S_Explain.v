(** Specification for C109: why a run fails, and what it should say then. *)
From Coq Require Import List Bool Ascii String ZArith.
From Verif Require Import PyBase M_Utils M_Elf M_Syscall M_Arch M_Config M_Kernel M_Output M_Main M_Explain S_Utils S_Output S_Arch S_Init S_Main.
Import ListNotations.
Open Scope Z_scope.
Open Scope list_scope.

(** Kinds of reasons *)
Inductive fault :=
| UnknownArch | NothingGiven | KdirMissing | ArchMissing            (* the command line *)
| OutIsNoDirectory | OutNotMade | NoCompiler                       (* preparing *)
| AutoWithoutImage | ImageMissing | NoReadelf                      (* analysing *)
| VersionUnknown | Stripped | MachineUnknown | SeveralABIs | OtherArch   (* the image or the sources *)
| NothingFound.

Definition quoted (s : str) : str := [chr 34] ++ s ++ [chr 34].
Definition compiler (g : args) : str := match g_cross g with Some c => c | None => [] end ++ $"gcc".
(** The ABIs of an image; 32-bit ARM has two, and a table for the older one (C45) *)
Definition abis_of (e : elf) (abis : list str) : Prop :=
  NoDup abis /\ (e_machine e <> 40 -> forall abi, In abi abis <-> supports_abi e abi) /\
  (e_machine e = 40 -> abis = [$"eabi"; $"oabi"] /\ sym_present e $"sys_oabi_call_table").
Definition opens (m : machine) (g : args) (h : list action) (e : elf) : Prop :=
  ~ preparing g /\ exists p, S_Main.image_of g p /\ mc_elf m h p = Ok e.

(** [because o m g h f r lines]: after [h], the run fails for a reason of kind [f], ends with [r], and
    [lines] are what should be said. *)
Inductive because (o : voice) (m : machine) (g : args) (h : list action) : fault -> outcome Z -> list str -> Prop :=
| bc_arch n : g_arch g = Some n -> ~ known_arch n -> ~ asks_help n ->
    because o m g h UnknownArch (Ok 1) [$"Unsupported architecture/ABI combination: " ++ lower n; $"See --arch HELP for a list"]
| bc_nothing : ~ present (g_kdir g) -> ~ present (g_vmlinux g) ->
    because o m g h NothingGiven (Ok 1)
      [$"Need to specify a kernel source direcory and/or path to vmlinux"; $"See --help for more information"]
| bc_kdir : ~ present (g_kdir g) -> present (g_vmlinux g) -> present (g_checkout g) \/ g_config g = true \/ g_build g = true ->
    because o m g h KdirMissing (Ok 1) [$"Need to specify a kernel source direcory (--kdir)"]
| bc_noarch : present (g_kdir g) -> g_arch g = None -> g_config g = true \/ g_build g = true ->
    because o m g h ArchMissing (Ok 1) [$"Need to specify an architecture/ABI combination (--arch)"; $"See --arch HELP for a list"]
| bc_out s : preparing g -> g_out g = Some s -> s <> [] ->
    mc_exists m h (path_of_str s) = true -> mc_is_dir m h (path_of_str s) = false ->
    because o m g h OutIsNoDirectory (Ok 1) [$"Output directory " ++ quoted s ++ $" already exists and is not a directory"]
| bc_mkdir s h0 : preparing g -> g_out g = Some s -> s <> [] ->
    h = h0 ++ [MadeDir (path_of_str s)] -> mc_mkdir m h0 (path_of_str s) = false ->
    because o m g h OutNotMade (Ok 1)
      [$"Failed to create output directory " ++ quoted s ++ $": " ++ vo_why o h0 (path_of_str s)]
| bc_gcc : preparing g -> mc_available m h (compiler g) = false ->
    because o m g h NoCompiler (Ok 127)
      [$"Command " ++ quoted (compiler g) ++ $" not found"; $"Make sure your cross-compilation toolchain is in $PATH"]
| bc_auto : ~ preparing g -> g_checkout g = Some $"auto" -> ~ present (g_vmlinux g) ->
    because o m g h AutoWithoutImage (Ok 1) [$"Cannot perform auto-checkout without a vmlinux image!"]
| bc_image p : ~ preparing g -> S_Main.image_of g p -> mc_is_file m h p = false ->
    because o m g h ImageMissing (Ok 1)
      [$"Unable to find vmlinux at " ++ quoted (str_of_path p) ++ $"."; $"Build the kernel or provide a valid path."]
| bc_readelf : ~ preparing g -> mc_available m h $"readelf" = false ->
    because o m g h NoReadelf (Ok 127) [$"Command " ++ quoted $"readelf" ++ $" unavailable, can't do much without it!"]
| bc_version : (preparing g /\ present (g_kdir g) /\ mc_make_version m h = Ok None) \/
    (exists e, opens m g h e /\ e_symbols e <> [] /\ version_from_vmlinux e = Ok None) ->
    because o m g h VersionUnknown (Exit 1)
      [$"Unable to determine kernel version!"; $"Did you specify a valid kernel source directory (--kdir) or vmlinux path?"]
| bc_symbols e : opens m g h e -> e_symbols e = [] ->
    because o m g h Stripped (Exit 1)
      [$"The provided kernel image has no symbols, which are necessary for Systrack to work.";
       $"You can try unstripping the image with tools such as " ++ quoted $"vmlinux-to-elf" ++ $"."]
| bc_machine e : opens m g h e -> e_symbols e <> [] -> g_arch g = None -> (forall k, ~ machine_of (e_machine e) k) ->
    because o m g h MachineUnknown (Exit 1)
      [$"Failed to detect kernel architecture/ABI"; $"See '" ++ vo_argv0 o ++ $" --arch help' for more information"]
| bc_abis e k abis : opens m g h e -> e_symbols e <> [] -> g_arch g = None ->
    machine_of (e_machine e) k -> machine_bits (e_machine e) (e_bits32 e) -> abis_of e abis -> (2 <= List.length abis)%nat ->
    because o m g h SeveralABIs (Exit 1)
      [$"Detected architecture: " ++ class_name k; $"Detected ABIs: " ++ join $", " abis;
       $"This kernel was built with support for multiple syscall ABIs.";
       $"Select one using --arch NAME (see --arch HELP for more info)."]
| bc_other e n d v : opens m g h e -> e_symbols e <> [] -> g_arch g = Some n -> S_Main.named n d ->
    version_from_vmlinux e = Ok (Some v) -> since (d_since d) v -> ~ S_Init.image_of e (d_class d) (d_kernel32 d) ->
    because o m g h OtherArch (Exit 1)
      [$"Architecture " ++ lower n ++ $" does not match provided vmlinux"; $"See '" ++ vo_argv0 o ++ $" --arch help' for more information"]
| bc_empty e v h0 a : ~ preparing g -> opens m g h0 e -> version_from_vmlinux e = Ok (Some v) -> mc_syscalls m h a e v = Ok [] ->
    because o m g h NothingFound (Ok 1) [].

(** Nothing that main calls ends with one of the four exceptions it has messages for. *)
Record frank (m : machine) : Prop := {
  fk_elf h p x : mc_elf m h p = Raise x -> ~ kernel_error x;
  fk_make h x : mc_make_version m h = Raise x -> ~ kernel_error x
}.
(** Something that main calls ended the run: a command that failed (C96), with its own message. *)
Inductive gave_up (m : machine) (c : Z) : Prop :=
| gu_checkout h ref : mc_checkout m h ref = Exit c -> gave_up m c
| gu_gcc h cmd : mc_gcc_version m h cmd = Exit c -> gave_up m c
| gu_elf h p : mc_elf m h p = Exit c -> gave_up m c
| gu_make h : mc_make_version m h = Exit c -> gave_up m c
| gu_clean h a : mc_clean m h a = Exit c -> gave_up m c
| gu_configure h a : mc_configure m h a = Exit c -> gave_up m c
| gu_build h a b : mc_build m h a b = Exit c -> gave_up m c
| gu_syscalls h a e v : mc_syscalls m h a e v = Exit c -> gave_up m c.
