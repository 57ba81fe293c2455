(** Properties C82-C85 (registers, base configuration, version and architecture of an image). *)
From Coq Require Import List Bool Ascii String ZArith Lia.
From Verif Require Import PyBase PyFacts M_Utils S_Utils M_Elf M_Syscall M_Arch S_Arch M_Emu M_Kernel S_Kernel S_Init L_Init L_Arch.
Import ListNotations.
Open Scope Z_scope.
Open Scope list_scope.

(** A small image: machine, bitness, byte order and symbol names. *)
Definition small (m : Z) (b big : bool) (names : list str) : elf :=
  let syms := map (fun n => (n, Symbol 4096 4096 16 $"FUNC" n)) names in
  Elf [] b big m 0 [] syms syms.

(** ** C82 *)

(** Full statement: without the second hypothesis, for which see the next two. *)
Theorem C82_registers_partial : forall k v abi b a e n r, arch_new k v abi b = Ok a -> abi <> $"aarch32" ->
  (convention abi n r <-> a_num_reg (adjust_abi a e) = Some n /\ a_arg_regs (adjust_abi a e) = r).
Proof. exact registers_iff. Qed.
Print Assumptions C82_registers_partial.

(** The registers shown for the 32-bit ABI of arm64 are those of the 64-bit ABI. *)
Theorem C82_aarch32 : forall v b a e, arch_new KArm64 v $"aarch32" b = Ok a ->
  a_num_reg (adjust_abi a e) = Some $"w8" /\ a_arg_regs (adjust_abi a e) = [$"x0"; $"x1"; $"x2"; $"x3"; $"x4"; $"x5"].
Proof. exact aarch32_registers. Qed.
Print Assumptions C82_aarch32.
Theorem C82_registers_refuted : exists k v abi b a e n r, arch_new k v abi b = Ok a /\ convention abi n r /\
  a_num_reg (adjust_abi a e) <> Some n /\ a_arg_regs (adjust_abi a e) <> r.
Proof.
  eexists KArm64, [6;1], $"aarch32", false, _, (small 183 false false []), _, _. split; [reflexivity|]. split; [constructor|].
  split; vm_compute; discriminate.
Qed.
Print Assumptions C82_registers_refuted.

Example C82_example :
  match arch_new KMips [5;4] $"o32" false with
  | Ok a => a_num_reg a = Some $"v0" /\ len (a_arg_regs a) = 8 /\ convention $"o32" $"v0" (a_arg_regs a)
  | _ => False
  end.
Proof. split; [reflexivity|]. split; [reflexivity|constructor]. Qed.

(** ** C83 *)

Theorem C83_base_targets : forall k v abi b a e l, arch_new k v abi b = Ok a ->
  (base_config v k b l <-> a_targets (adjust_abi a e) = l).
Proof. exact base_config_ok. Qed.
Print Assumptions C83_base_targets.

Example C83_example :
  match arch_new KRiscV [5;10] $"rv32" true with
  | Ok a => a_targets a = [$"rv32_defconfig"] /\ base_config [5;10] KRiscV true [$"rv32_defconfig"]
  | _ => False
  end.
Proof.
  split; [reflexivity|]. apply bc_rv32; [|apply lex_lt; reflexivity]. right. apply lex_eq, lex_lt. reflexivity.
Qed.

(** ** C84 *)

(** The version is that in the banner of the image, whether or not its symbol has a size. *)
Theorem C84_banner : forall e s text, dget str_eqb $"linux_banner" (e_symbols e) = Some s -> sym_real s = sym_vaddr s ->
  holds e s text -> version_from_vmlinux e = Ok (version_from_banner text).
Proof. exact banner_text. Qed.
Print Assumptions C84_banner.

Theorem C84_version : forall e s x y z a b c r,
  dget str_eqb $"linux_banner" (e_symbols e) = Some s -> sym_real s = sym_vaddr s ->
  is_number x a -> is_number y b -> is_number z c -> ~ starts_with_digit r ->
  holds e s ($"Linux version " ++ x ++ $"." ++ y ++ $"." ++ z ++ r) ->
  version_from_vmlinux e = Ok (Some [a; b; c]).
Proof. exact banner_version. Qed.
Print Assumptions C84_version.

Theorem C84_without : forall e, ~ sym_present e $"linux_banner" -> version_from_vmlinux e = Ok None.
Proof. exact banner_without. Qed.
Print Assumptions C84_without.

Definition banner_image (size : Z) : elf :=
  let s := Symbol 8193 8193 size $"OBJECT" $"linux_banner" in
  Elf ($"xxxLinux version 5.10.3 (gcc)" ++ [chr 0] ++ $"yyy") false false 62 0
    [($".data", Section_ $".data" 8192 2 100)] [($"linux_banner", s)] [].
Example C84_example :
  version_from_vmlinux (banner_image 27) = Ok (Some [5;10;3]) /\ version_from_vmlinux (banner_image 0) = Ok (Some [5;10;3]) /\
  holds (banner_image 0) (Symbol 8193 8193 0 $"OBJECT" $"linux_banner") $"Linux version 5.10.3 (gcc)".
Proof.
  split; [reflexivity|]. split; [reflexivity|].
  eapply (holds_string _ _ (Section_ $".data" 8192 2 100) $"xxx"); cbn; try lia; try reflexivity.
  - left. reflexivity.
  - intros x [<-|[]] _. reflexivity.
  - intros H. repeat (destruct H as [H|H]; [discriminate H|]). destruct H.
Qed.

(** ** C85 *)

(** Without a name the image must be of one ABI (of 32-bit ARM: C45), which is then used. *)
Theorem C85_detected : forall e kd v a, kernel_init None (Some e) kd (Ok v) = Ok a ->
  image_of e (a_class a) (a_bits32 a) /\ a_version a = v /\ e_symbols e <> [] /\
  (a_class a <> KArm -> forall abi, supports_abi e abi <-> abi = a_abi a).
Proof. exact init_detected. Qed.
Print Assumptions C85_detected.
Theorem C85_several_abis : forall e kd rv x y, e_symbols e <> [] -> supports_abi e x -> supports_abi e y -> x <> y ->
  machine_bits (e_machine e) (e_bits32 e) -> kernel_init None (Some e) kd rv = Raise KernelMultiABIError.
Proof. exact init_several. Qed.
Print Assumptions C85_several_abis.
Theorem C85_unknown_machine : forall e kd rv, e_symbols e <> [] -> (forall k, ~ machine_of (e_machine e) k) ->
  kernel_init None (Some e) kd rv = Raise KernelArchError.
Proof. exact init_unknown. Qed.
Print Assumptions C85_unknown_machine.
Theorem C85_no_symbols : forall an e kd rv, e_symbols e = [] ->
  kernel_init an (Some e) kd rv = Raise KernelWithoutSymbolsError.
Proof. exact init_no_symbols. Qed.
Print Assumptions C85_no_symbols.

(** With a name the image must be of that machine and word size. Full statement: without the
    third hypothesis, for which see the next two. *)
Theorem C85_named_partial : forall n e kd v a, e_symbols e <> [] -> arch_from_name n v = Ok a ->
  (a_class a = KPowerPC -> e_big e = true) ->
  named n v a /\
  (image_of e (a_class a) (a_bits32 a) -> kernel_init (Some n) (Some e) kd (Ok v) = Ok a) /\
  (~ image_of e (a_class a) (a_bits32 a) -> kernel_init (Some n) (Some e) kd (Ok v) = Raise KernelArchError).
Proof. exact init_named. Qed.
Print Assumptions C85_named_partial.
(** With the name of a PowerPC architecture, little-endian images of any machine end in an
    AssertionError instead. *)
Theorem C85_named_powerpc : forall n e kd v a, e_symbols e <> [] -> arch_from_name n v = Ok a ->
  a_class a = KPowerPC -> e_big e = false -> kernel_init (Some n) (Some e) kd (Ok v) = Raise AssertionError.
Proof. exact init_little_ppc. Qed.
Print Assumptions C85_named_powerpc.
Theorem C85_named_refuted : exists n e v a, e_symbols e <> [] /\ arch_from_name n v = Ok a /\
  e_machine e = 62 /\ ~ image_of e (a_class a) (a_bits32 a) /\
  kernel_init (Some n) (Some e) false (Ok v) <> Raise KernelArchError.
Proof.
  eexists $"powerpc64", (small 62 false false [$"sys_call_table"]), [6;1], _. split; [discriminate|].
  split; [vm_compute; reflexivity|]. split; [reflexivity|]. split; [|vm_compute; discriminate].
  intros (M & _). inversion M.
Qed.
Print Assumptions C85_named_refuted.
(** A name is not compared with the ABIs the image supports. *)
Theorem C85_named_abi_refuted : exists n e v a, kernel_init (Some n) (Some e) false (Ok v) = Ok a /\
  ~ supports_abi e (a_abi a).
Proof.
  eexists $"x86-64-x32", (small 62 false false [$"sys_call_table"]), [5;3], _. split; [vm_compute; reflexivity|].
  exact no_x32.
Qed.
Print Assumptions C85_named_abi_refuted.

Example C85_example :
  let e := small 62 false false [$"sys_call_table"; $"ia32_sys_call_table"] in
  kernel_init None (Some e) false (Ok [5;4]) = Raise KernelMultiABIError /\
  supports_abi e $"x64" /\ supports_abi e $"ia32" /\
  (exists a, kernel_init (Some $"ia32-64") (Some e) false (Ok [5;4]) = Ok a /\ a_abi a = $"ia32" /\ image_of e KX86 false) /\
  kernel_init (Some $"x86") (Some e) false (Ok [5;4]) = Raise KernelArchError /\
  (exists a, kernel_init None (Some (small 183 false false [$"x"])) false (Ok [5;4]) = Ok a /\ a_abi a = $"aarch64").
Proof.
  split; [reflexivity|]. split; [apply sa_native, na_x86_64; reflexivity|].
  split. { apply (sa_marker _ 62 $"ia32" [$"ia32_sys_call_table"; $"ia32_sys_call"] $"ia32_sys_call_table"); try (left; reflexivity); try reflexivity.
           right. left. reflexivity. }
  split. { eexists. split; [vm_compute; reflexivity|]. split; [reflexivity|]. repeat split; constructor. }
  split; [reflexivity|]. eexists. split; [vm_compute; reflexivity|reflexivity].
Qed.
