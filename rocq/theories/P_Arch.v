(** Properties C05, C09, C29, C30, C37, C38, C39, C44-C47 (arch/). *)
From Coq Require Import List Bool Ascii String ZArith.
From Verif Require Import PyBase PyFacts M_Utils S_Utils M_Elf M_Syscall M_Arch S_Arch L_Arch L_Arch2 L_Arch3.
Import ListNotations.
Open Scope Z_scope.
Open Scope list_scope.

(** A small image: machine, bitness, byte order, flags and symbol names. *)
Definition image (m : Z) (b big : bool) (flags : Z) (names : list str) : elf :=
  let syms := map (fun n => (n, Symbol 4096 4096 16 $"FUNC" n)) names in
  Elf [] b big m flags [] syms syms.

(** ** C05 *)

(** Instances of one class whose constructors add the same options do not disturb each
    other; instances of other classes never matter (next theorem). *)
Theorem C05_isolation_partial : forall h a v, let p := run_process h in
  In a (p_objs p) -> (forall a', In a' (p_objs p) -> a_class a' = a_class a -> same_kind a a') ->
  fresh_kconfig a v = Some (fst (arch_kconfig a v (p_world p))).
Proof. exact kconfig_isolated. Qed.
Print Assumptions C05_isolation_partial.

Theorem C05_other_classes : forall p x k, 
  match x with
  | New k' _ _ _ => k' <> k
  | Ask i _ => forall a, nth_error (p_objs p) i = Some a -> a_class a <> k
  end ->
  p_world (act_step p x) k = p_world p k.
Proof. exact other_class_step'. Qed.
Print Assumptions C05_other_classes.

(** Without that restriction it is false: the options live in the class. *)
Theorem C05_isolation_refuted : exists h a v, In a (p_objs (run_process h)) /\
  fresh_kconfig a v <> Some (fst (arch_kconfig a v (p_world (run_process h)))).
Proof. exact kconfig_leak. Qed.
Print Assumptions C05_isolation_refuted.

Example C05_example :
  let p := run_process [New KX86 [5;0] $"x64" false; New KArm [5;0] $"eabi" true; Ask 0 [4;1];
                        New KX86 [5;0] $"x32" false] in
  map a_abi (p_objs p) = [$"x64"; $"eabi"; $"x32"] /\
  (match p_objs p with
   | [a; _; c] => same_kind a c /\
       option_map (dmem str_eqb $"X86_X32=y") (fresh_kconfig a [5;0]) = Some true
   | _ => False
   end).
Proof. vm_compute. repeat split. Qed.

(** ** C09 *)

Theorem C09_normalisation_exact : forall k v abi b a name r, arch_new k v abi b = Ok a ->
  (normalize_syscall_name a name = r <-> normal_name a name r).
Proof. exact normalize_iff. Qed.
Print Assumptions C09_normalisation_exact.

Theorem C09_contiguous_part : forall k v abi b a name, arch_new k v abi b = Ok a ->
  exists p q, name = p ++ normalize_syscall_name a name ++ q.
Proof. exact normalize_part. Qed.
Print Assumptions C09_contiguous_part.

Theorem C09_untouched : forall k v abi b a s, arch_new k v abi b = Ok a -> plain_name a s ->
  normalize_syscall_name a s = s.
Proof. exact normalize_plain. Qed.
Print Assumptions C09_untouched.

Example C09_example :
  match arch_new KX86 [5;0] $"ia32" false, arch_new KArm [5;0] $"oabi" true with
  | Ok a, Ok o =>
      map (normalize_syscall_name a)
        [$"sys32_x86_clone"; $"futex_time32"; $"clock_gettime64"; $"old_select"; $"read"; $"32_old_ia32_x86_y"]
      = [$"clone"; $"futex"; $"clock_gettime"; $"select"; $"read"; $"x86_y"] /\
      normalize_syscall_name o $"oabi_arm_fadvise" = $"fadvise" /\
      plain_name a $"read"
  | _, _ => False
  end.
Proof.
  split; [reflexivity|]. split; [reflexivity|].
  split; intros x Hx [t Ht]; cbn [In app] in Hx.
  - repeat destruct Hx as [<-|Hx]; try contradiction; apply (f_equal (@rev ascii)) in Ht;
      rewrite rev_app_distr in Ht; discriminate Ht.
  - vm_compute in Hx. repeat destruct Hx as [<-|Hx]; try contradiction; discriminate Ht.
Qed.

(** ** C29 *)

Theorem C29_ni_symbols_exact : forall s,
  symbol_is_ni_syscall s = true <-> sym_type s = $"FUNC" /\ ni_name (sym_name s).
Proof. exact ni_symbol_iff. Qed.
Print Assumptions C29_ni_symbols_exact.

Example C29_example :
  map (fun n => symbol_is_ni_syscall (Symbol 1 1 1 $"FUNC" n))
    [$"sys_ni_syscall"; $"__x64_sys_ni_syscall"; $"__pfx_sys_ni_syscall"; $"compat_ni_syscall"; $"sys_ni_syscall_x"]
  = [true; true; false; true; false] /\
  symbol_is_ni_syscall (Symbol 1 1 1 $"NOTYPE" $"sys_ni_syscall") = false.
Proof. split; reflexivity. Qed.

(** ** C30 *)

Theorem C30_one_of_both : forall a x y, preferred_symbol a x y = x \/ preferred_symbol a x y = y.
Proof. exact preferred_or. Qed.
Print Assumptions C30_one_of_both.

(** The compat rule comes first on the architectures that use it. *)
Theorem C30_compat : forall a x y,
  uses_compat (a_class a) -> has_compat (sym_name x) -> ~ has_compat (sym_name y) ->
  preferred_symbol a x y = (if a_compat a then x else y) /\
  preferred_symbol a y x = (if a_compat a then x else y).
Proof. exact preferred_compat. Qed.
Print Assumptions C30_compat.

Theorem C30_marker : forall a x y m, abi_marker (a_class a) (a_abi a) (a_bits32 a) m ->
  is_prefix m (sym_name x) -> ~ is_prefix m (sym_name y) ->
  (uses_compat (a_class a) -> (has_compat (sym_name x) <-> has_compat (sym_name y))) ->
  preferred_symbol a x y = x /\ preferred_symbol a y x = x.
Proof. exact preferred_marker. Qed.
Print Assumptions C30_marker.

Example C30_example :
  match arch_new KX86 [5;0] $"x64" false, arch_new KArm64 [5;0] $"aarch32" false with
  | Ok a, Ok c =>
      let s n := Symbol 1 1 1 $"FUNC" n in
      preferred_symbol a (s $"sys_fork") (s $"__x64_sys_fork") = s $"__x64_sys_fork" /\
      abi_marker (a_class a) (a_abi a) (a_bits32 a) $"__x64_" /\
      preferred_symbol c (s $"__arm64_sys_x") (s $"__arm64_compat_sys_x") = s $"__arm64_compat_sys_x" /\
      uses_compat (a_class c)
  | _, _ => False
  end.
Proof. split; [reflexivity|]. split; [constructor|]. split; [reflexivity|]. right; left; reflexivity. Qed.

(** ** C37 *)

Theorem C37_arm_private_syscalls : forall v abi b a e, arch_new KArm v abi b = Ok a ->
  exists l, extract_esoteric_syscalls (adjust_abi a e) e = Ok l /\ NoDup (map eso_number l) /\
    (forall x, In x l -> eso_symbol x = $"arm_syscall") /\
    forall n name, (exists x, In x l /\ eso_number x = n /\ eso_name x = name) <->
      fun_present e $"arm_syscall" /\ exists base, number_base KArm abi base /\ arm_private v (n - base) name.
Proof. exact arm_esoteric_iff. Qed.
Print Assumptions C37_arm_private_syscalls.

Example C37_example :
  match arch_new KArm [4;14] $"oabi" true with
  | Ok a => match extract_esoteric_syscalls a (image 40 true false 0 [$"arm_syscall"]) with
            | Ok l => map eso_number l = [10420225; 10420226; 10420227; 10420228; 10420229]
            | _ => False
            end
  | _ => False
  end.
Proof. reflexivity. Qed.

(** ** C38 *)

(** The number given to the entry at index [i] is [a_base a + i] (kernel.py 392). *)
Theorem C38_x86_filter_exact : forall v abi b a i, arch_new KX86 v abi b = Ok a -> 0 <= i < 2 ^ 30 ->
  (skip_syscall a i (a_base a + i) = true <-> x86_foreign v abi b (a_base a + i)).
Proof. exact x86_skip_iff. Qed.
Print Assumptions C38_x86_filter_exact.

Theorem C38_others_drop_nothing : forall k v abi b a i n, arch_new k v abi b = Ok a ->
  k <> KX86 -> k <> KPowerPC -> skip_syscall a i n = false.
Proof. exact other_skip. Qed.
Print Assumptions C38_others_drop_nothing.

Example C38_example :
  match arch_new KX86 [5;3] $"x32" false with
  | Ok a => map (fun i => skip_syscall a i (a_base a + i)) [12; 13; 59; 512; 513]
            = [false; true; true; false; false]
            /\ x86_foreign [5;3] $"x32" false (1073741824 + 59)
  | _ => False
  end.
Proof.
  split; [reflexivity|]. apply (xf_x32 [5;3] false 59 $"execve").
  - apply lex_eq, lex_lt. reflexivity.
  - vm_compute. do 10 right. left. reflexivity.
Qed.

(** ** C39 *)

Theorem C39_interleaved_tables : forall v abi b a i n, arch_new KPowerPC v abi b = Ok a ->
  (b = true \/ since [5;0] v -> skip_syscall a i n = false /\ adjust_syscall_number a n = n) /\
  (b = false -> before [5;0] v ->
    (skip_syscall a i n = false <-> (if str_eqb abi $"ppc32" then Z.Odd i else Z.Even i)) /\
    adjust_syscall_number a n = n / 2).
Proof. exact ppc_skip_iff. Qed.
Print Assumptions C39_interleaved_tables.

Theorem C39_others_keep_numbers : forall k v abi b a n, arch_new k v abi b = Ok a -> k <> KPowerPC ->
  adjust_syscall_number a n = n.
Proof. exact other_number. Qed.
Print Assumptions C39_others_keep_numbers.

Example C39_example :
  match arch_new KPowerPC [4;19] $"ppc32" false with
  | Ok a => map (fun i => (skip_syscall a i i, adjust_syscall_number a i)) [6; 7] = [(true, 3); (false, 3)]
            /\ before [5;0] [4;19]
  | _ => False
  end.
Proof. split; [reflexivity|]. apply lex_lt. reflexivity. Qed.

(** ** C44 *)

Theorem C44_at_most_one_class : forall k1 k2 e r1 r2,
  arch_match k1 e = Ok (Some r1) -> arch_match k2 e = Ok (Some r2) -> k1 = k2.
Proof. exact match_unique. Qed.
Print Assumptions C44_at_most_one_class.

Theorem C44_class_by_machine : forall e k, machine_of (e_machine e) k ->
  machine_bits (e_machine e) (e_bits32 e) ->
  exists abis, arch_from_vmlinux e = Ok (Some (k, e_bits32 e, abis)).
Proof. exact detect_good. Qed.
Print Assumptions C44_class_by_machine.

Theorem C44_inconsistent_image : forall e k, machine_of (e_machine e) k ->
  ~ machine_bits (e_machine e) (e_bits32 e) -> arch_from_vmlinux e = Raise AssertionError.
Proof. exact detect_bad. Qed.
Print Assumptions C44_inconsistent_image.

Theorem C44_unknown_machine : forall e, (forall k, ~ machine_of (e_machine e) k) ->
  arch_from_vmlinux e = Ok None.
Proof. exact detect_unknown. Qed.
Print Assumptions C44_unknown_machine.

(** Full statement: without the condition on the byte order, for which see the next two. *)
Theorem C44_self_consistent_partial : forall e k b abis abi v a,
  arch_from_vmlinux e = Ok (Some (k, b, abis)) -> arch_new k v abi b = Ok a ->
  (k = KPowerPC -> e_big e = true) -> arch_matches a e = Ok true.
Proof. exact detect_matches. Qed.
Print Assumptions C44_self_consistent_partial.

Theorem C44_little_endian_ppc : forall e k b abis abi v a,
  arch_from_vmlinux e = Ok (Some (k, b, abis)) -> arch_new k v abi b = Ok a ->
  k = KPowerPC -> e_big e = false -> arch_matches a e = Raise AssertionError.
Proof. exact detect_ppc_le. Qed.
Print Assumptions C44_little_endian_ppc.

Theorem C44_self_consistent_refuted : exists e k b abis abi v a,
  arch_from_vmlinux e = Ok (Some (k, b, abis)) /\ In abi abis /\ arch_new k v abi b = Ok a /\
  arch_matches a e <> Ok true.
Proof. exact detect_ppc_le_ex. Qed.
Print Assumptions C44_self_consistent_refuted.

Example C44_example :
  arch_from_vmlinux (image 62 false false 0 [$"ia32_sys_call_table"]) = Ok (Some (KX86, false, [$"x64"; $"ia32"])) /\
  match arch_new KX86 [5;0] $"ia32" false with
  | Ok a => arch_matches a (image 62 false false 0 [$"ia32_sys_call_table"]) = Ok true
  | _ => False
  end.
Proof. split; reflexivity. Qed.

(** ** C45 *)

Theorem C45_abis_exact : forall e k b abis, k <> KArm ->
  arch_from_vmlinux e = Ok (Some (k, b, abis)) ->
  (forall abi, In abi abis <-> supports_abi e abi) /\ NoDup abis /\
  exists nat rest, abis = nat :: rest /\ native_abi e nat.
Proof. exact abis_exact. Qed.
Print Assumptions C45_abis_exact.

(** 32-bit ARM: full statement is without the third hypothesis. *)
Theorem C45_arm_partial : forall e abis l, e_machine e = 40 -> e_bits32 e = true ->
  sym_present e $"sys_oabi_call_table" \/ Z.land (e_flags e) 4278190080 = 0 ->
  arch_from_vmlinux e = Ok (Some (KArm, true, abis)) -> arm_abis e l -> abis = l.
Proof. exact arm_abis_partial. Qed.
Print Assumptions C45_arm_partial.

Theorem C45_arm_refuted : exists e abis l, e_machine e = 40 /\ e_bits32 e = true /\
  arch_from_vmlinux e = Ok (Some (KArm, true, abis)) /\ arm_abis e l /\ abis <> l.
Proof. exact arm_eabi_bug. Qed.
Print Assumptions C45_arm_refuted.

(** What happens instead: EABI is never detected without an OABI table. *)
Theorem C45_arm_without_oabi_table : forall e abis, e_machine e = 40 -> e_bits32 e = true ->
  ~ sym_present e $"sys_oabi_call_table" ->
  arch_from_vmlinux e = Ok (Some (KArm, true, abis)) -> abis = [$"oabi"].
Proof. exact arm_eabi_always_wrong. Qed.
Print Assumptions C45_arm_without_oabi_table.

Example C45_example :
  let e := image 21 false true 0 [$"spu_syscall_table"; $".compat_sys_execve"] in
  arch_from_vmlinux e = Ok (Some (KPowerPC, false, [$"ppc64"; $"ppc32"; $"spu"])) /\ supports_abi e $"spu".
Proof.
  split; [reflexivity|]. apply (sa_marker _ 21 $"spu" [$"spu_syscall_table"] $"spu_syscall_table").
  - do 3 right. left. reflexivity.
  - reflexivity.
  - reflexivity.
  - left. reflexivity.
  - left. reflexivity.
Qed.

(** ** C46 (the lower-casing of --arch is in C70's model) *)

Theorem C46_documented_names_build : forall d n v,
  In d documented -> In n (d_names d) -> since (d_since d) v ->
  exists a, arch_from_name n v = Ok a /\ a_class a = d_class d /\ a_version a = v /\ a_abi a = d_abi d /\
            a_bits32 a = d_kernel32 d /\ a_abi_bits32 a = d_abi32 d.
Proof. exact arch_name_supported. Qed.
Print Assumptions C46_documented_names_build.

Theorem C46_too_old : forall d n v, In d documented -> In n (d_names d) -> before (d_since d) v ->
  arch_from_name n v = Raise AssertionError.
Proof. exact arch_name_too_old. Qed.
Print Assumptions C46_too_old.

Theorem C46_no_other_name : forall n v, (forall d, In d documented -> ~ In n (d_names d)) ->
  arch_from_name n v = Raise KeyError.
Proof. exact arch_name_unknown. Qed.
Print Assumptions C46_no_other_name.

Theorem C46_aliases : forall name alias v, In (name, alias) ARCH_ALIASES ->
  arch_from_name alias v = arch_from_name name v.
Proof. exact alias_same. Qed.
Print Assumptions C46_aliases.

Example C46_example :
  arch_from_name $"x32" [5;4] = arch_from_name $"x86-64-x32" [5;4] /\
  In ($"x86-64-x32", $"x32") ARCH_ALIASES /\
  option_map a_abi (match arch_from_name $"x32" [5;4] with Ok a => Some a | _ => None end) = Some $"x32".
Proof. split; [reflexivity|]. split; [|reflexivity]. vm_compute. tauto. Qed.

(** ** C47 *)

Theorem C47_table_exact : forall e k v abi b a t, arch_new k v abi b = Ok a ->
  (table_for e v k abi b t <-> a_table (adjust_abi a e) = t).
Proof. exact table_for_iff. Qed.
Print Assumptions C47_table_exact.

Theorem C47_number_base : forall k v abi b a e z, arch_new k v abi b = Ok a -> number_base k abi z ->
  a_base (adjust_abi a e) = z.
Proof. exact number_base_ok. Qed.
Print Assumptions C47_number_base.

Theorem C47_compat_flag : forall e k v abi b a, arch_new k v abi b = Ok a ->
  (a_compat (adjust_abi a e) = true <->
   match k with
   | KArm => abi = $"oabi" /\ sym_present e $"sys_oabi_call_table"
   | KArm64 => abi = $"aarch32"
   | KMips => b = false /\ abi <> $"n64"
   | KPowerPC => b = false /\ abi <> $"ppc64"
   | KRiscV => b = false /\ abi = $"rv32"
   | KX86 => b = false /\ abi <> $"x64"
   end).
Proof. exact compat_ok. Qed.
Print Assumptions C47_compat_flag.

Example C47_example :
  match arch_new KX86 [6;9] $"x64" false, arch_new KX86 [5;4] $"x32" false with
  | Ok a, Ok c =>
      a_table (adjust_abi a (image 62 false false 0 [$"x64_sys_call"])) = None /\
      a_table (adjust_abi a (image 62 false false 0 [$"sys_call_table"])) = Some $"sys_call_table" /\
      a_table (adjust_abi c (image 62 false false 0 [$"sys_call_table"])) = Some $"x32_sys_call_table" /\
      a_base c = 1073741824
  | _, _ => False
  end.
Proof. repeat split. Qed.
