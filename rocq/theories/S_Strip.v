(** Specification for C116: symbols that have nothing to do with syscalls. *)
From Coq Require Import List Bool Ascii String ZArith.
From Verif Require Import PyBase M_Config M_Command M_Elf M_Syscall M_Arch M_Kernel M_Main M_Program S_Arch.
Import ListNotations.
Open Scope Z_scope.
Open Scope list_scope.

(** The names that say something about the image, whatever the architecture *)
Definition telling_names : list str :=
  [$"linux_banner"; $"sys_call_table"; $"sys_oabi_call_table"; $"compat_sys_call_table"; $"sys32_call_table"; $"sysn32_call_table";
   $"compat_sys_execve"; $".compat_sys_execve"; $"spu_syscall_table"; $"ia32_sys_call_table"; $"ia32_sys_call"; $"x32_sys_call_table"; $"x32_sys_call";
   $"arm_syscall"; $"exc_real_0xc00_system_call"; $"__start_syscalls_metadata"; $"__stop_syscalls_metadata"; $"__syscall_meta__open"].

(** The image without some of its symbols; a symbol stands under its name. *)
Definition without (gone : symbol -> bool) (d : dict str symbol) : dict str symbol := filter (fun x => negb (gone (snd x))) d.
Definition stripped (gone : symbol -> bool) (e : elf) : elf :=
  Elf (e_file e) (e_bits32 e) (e_big e) (e_machine e) (e_flags e) (e_sections e) (without gone (e_symbols e)) (without gone (e_functions e)).
Definition by_name (e : elf) : Prop :=
  forall n s, In (n, s) (e_symbols e) \/ In (n, s) (e_functions e) -> n = sym_name s.
Definition left_in (gone : symbol -> bool) (e : elf) (s : symbol) : Prop := In s (map snd (e_symbols e)) /\ gone s = false.

(** A name that tells nothing about the image *)
Definition mute (s : symbol) : Prop :=
  ~ In (sym_name s) telling_names /\ forall u v, sym_name s <> u ++ $"x32_compat_sys" ++ v.
(** The table of the architecture, and code whose end is where the next symbol is *)
Definition open_ended (table : option str) (y : symbol) : Prop :=
  (table = Some (sym_name y) /\ sym_size y <= 128) \/ sym_name y = $"exc_real_0xc00_system_call".
(** A symbol that can go: [table] is the name of the table, [dispatcher] of the function that stands for it, [entry] the addresses of syscalls *)
Record needless (gone : symbol -> bool) (e : elf) (table : option str) (dispatcher : str) (entry : Z -> Prop) (s : symbol) : Prop := Needless {
  nl_mute : mute s;
  nl_table : table <> Some (sym_name s);
  nl_dispatcher : sym_name s <> dispatcher;
  nl_ni : ~ (sym_type s = $"FUNC" /\ ni_name (sym_name s));
  nl_entry : ~ entry (sym_vaddr s);
  (* it does not tell where something ends: another symbol that stays is before it *)
  nl_end : forall y, left_in gone e y -> open_ended table y ->
    sym_real s <= sym_real y \/ exists z, left_in gone e z /\ sym_real y < sym_real z /\ sym_vaddr z <= sym_vaddr s
}.
Definition all_needless (gone : symbol -> bool) (e : elf) (table : option str) (dispatcher : str) (entry : Z -> Prop) : Prop :=
  forall s, In s (map snd (e_symbols e)) \/ In s (map snd (e_functions e)) -> gone s = true -> needless gone e table dispatcher entry s.
(** The addresses of syscalls in the table of an image, or in what stands for it *)
Definition starts_syscall (t : env) (a : arch) (e : elf) (v : Z) : Prop :=
  exists l, syscall_vaddrs t (adjust_abi a e) e = Ok l /\ In v (map snd l).

(** The computer with an image from which some symbols are gone *)
Definition image_without (gone : symbol -> bool) (m : machine) : machine :=
  Machine (mc_checkout m) (mc_exists m) (mc_is_dir m) (mc_mkdir m) (mc_is_file m) (mc_available m) (mc_gcc_version m)
    (fun h p => e <- mc_elf m h p ;; Ok (stripped gone e))
    (mc_make_version m) (mc_clean m) (mc_configure m) (mc_build m) (mc_syscalls m) (mc_version m).
(** All that is gone is needless, whatever image is read *)
Definition strippable (c : computer) (g : args) (gone : symbol -> bool) : Prop := forall h e, open_elf c h (image_path g) = Ok e ->
  (exists s, left_in gone e s) /\
  (forall s, In s (map snd (e_symbols e)) \/ In s (map snd (e_functions e)) -> gone s = true -> mute s) /\
  forall a v kd, version_from_vmlinux e = Ok (Some v) -> kernel_init (option_map lower (g_arch g)) (Some e) kd (Ok v) = Ok a ->
    all_needless gone e (a_table (adjust_abi a e)) (a_abi (adjust_abi a e) ++ $"_sys_call")
      (starts_syscall (M_Kernel.Env (pc_decode c) (pc_same c) (pc_insn_order c) (pc_ni_order c) (fun l => Ok l)) a e).
