(** Specification: syscalls outside the table (C90). *)
From Coq Require Import List Bool Ascii String ZArith.
From Verif Require Import PyBase M_Elf M_Syscall M_Arch S_Arch S_Dummy.
Import ListNotations.
Open Scope Z_scope.
Open Scope list_scope.

(** Parameters of the private syscalls of ARM (arch/arm/kernel/traps.c, arm_syscall()). *)
Inductive arm_params : str -> list str -> Prop :=
| ar_breakpoint : arm_params $"breakpoint" []
| ar_cacheflush : arm_params $"cacheflush" [$"unsigned long start"; $"unsigned long end"; $"int flags"]
| ar_usr26 : arm_params $"usr26" []
| ar_usr32 : arm_params $"usr32" []
| ar_set_tls : arm_params $"set_tls" [$"unsigned long val"]
| ar_get_tls : arm_params $"get_tls" [].

(** Number, name, symbol, Kconfig option and parameters of the syscalls outside the table. *)
Inductive outside (k : klass) (ver : list Z) (abi : str) (e : elf) : Z -> str -> symbol -> option str -> list str -> Prop :=
| ou_arm base n name sym params : k = KArm -> fun_present e $"arm_syscall" -> number_base KArm abi base ->
    arm_private ver n name -> arm_params name params -> dget str_eqb $"arm_syscall" (e_symbols e) = Some sym ->
    outside k ver abi e (base + n) name sym None params
| ou_switch exc ws option : k = KPowerPC -> abi = $"ppc64" -> before [6;12] ver ->
    dget str_eqb $"exc_real_0xc00_system_call" (e_symbols e) = Some exc -> Forall is_word32 ws ->
    vaddr_read e (sym_vaddr exc)
      (match next_symbol e exc with Some s => sym_vaddr s - sym_vaddr exc | None => 128 end) = Ok (ppc_code (e_big e) ws) ->
    endian_switch tgt_low ws ->
    (since [4;15] ver /\ option = Some $"PPC_FAST_ENDIAN_SWITCH") \/ (before [4;15] ver /\ option = None) ->
    outside k ver abi e 7870 (* 0x1ebe *) $"switch_endian" exc option [].

(** The order of these syscalls, and what each of them looks like. *)
Definition number_before (s t : syscall) : Prop := sc_number s < sc_number t.
Definition described (k : klass) (ver : list Z) (abi : str) (e : elf) (s : syscall) : Prop :=
  sc_esoteric s = true /\ sc_index s = None /\ sc_origname s = sc_name s /\
  exists sig, sc_signature s = Some sig /\ outside k ver abi e
    (sc_number s) (sc_name s) (sc_symbol s) (sc_kconfig s) sig.
