(** Properties C31-C36 (dummy syscalls and the PowerPC endian switch). *)
From Coq Require Import List Bool Ascii String ZArith Lia.
From Verif Require Import PyBase PyFacts M_Utils S_Utils M_Elf M_Syscall M_Arch S_Arch S_Dummy L_Dummy L_Dummy2 L_Dummy3 P_Arch.
Import ListNotations.
Open Scope Z_scope.
Open Scope list_scope.

(** An image with one section at address 4096 holding [code], in a file that starts with it. *)
Definition code_image (m : Z) (b big : bool) (code : bytes) : elf :=
  Elf code b big m 0 [($".text", Section_ $".text" 4096 0 (len code))] [] [].

(** ** C31 *)

(** The reference is what kernel.py 501-502 reads; it must not be empty. *)
Theorem C31_reference_partial : forall a sym e ni c,
  read_symbol e ni = Ok c -> len c = sym_size ni -> 0 < sym_size ni ->
  (exists r, vaddr_read e (sym_real sym) (len c) = Ok r) ->
  (is_dummy_syscall a sym e (Some ni) (Some c) = Ok true <->
   sym_real sym = sym_real ni \/
   (image_has e (sym_real ni) c /\ image_has e (sym_real sym) c /\ c <> [] /\ len c = sym_size ni) \/
   exists d, dummy_syscall_code a sym e = Ok (Some d)).
Proof. exact is_dummy_ref_nonempty. Qed.
Print Assumptions C31_reference_partial.

Theorem C31_no_reference : forall a sym e, is_dummy_syscall a sym e None None = Ok true <->
  exists d, dummy_syscall_code a sym e = Ok (Some d).
Proof. exact is_dummy_noref. Qed.
Print Assumptions C31_no_reference.

(** The code of a reference without its symbol (no caller does that): where the code matches, the
    name of the symbol is missing for the message. *)
Theorem C31_code_alone : forall a sym e c r, vaddr_read e (sym_real sym) (len c) = Ok r ->
  (r = c -> is_dummy_syscall a sym e None (Some c) = Raise AttributeError) /\
  (r <> c -> is_dummy_syscall a sym e None (Some c) = is_dummy_syscall a sym e None None).
Proof.
  intros a sym e c r R. unfold is_dummy_syscall. rewrite R. cbn [bind]. split.
  - intros ->. now rewrite str_eqb_refl.
  - intros N. destruct (str_eqb r c) eqn:E; [apply str_eqb_eq in E; contradiction|reflexivity].
Qed.
Print Assumptions C31_code_alone.

(** A reference of size 0 (the symbol tables of some images give no sizes) matches every
    syscall whose address can be read. *)
Theorem C31_empty_reference : forall a sym e ni, sym_size ni = 0 ->
  (exists r, read_symbol e ni = Ok r) -> (exists r, vaddr_read e (sym_real sym) 0 = Ok r) ->
  read_symbol e ni = Ok [] /\ is_dummy_syscall a sym e (Some ni) (Some []) = Ok true.
Proof. exact is_dummy_empty. Qed.
Print Assumptions C31_empty_reference.

Theorem C31_only_non_implemented_refuted : exists a sym e ni c,
  read_symbol e ni = Ok c /\ is_dummy_syscall a sym e (Some ni) (Some c) = Ok true /\
  sym_real sym <> sym_real ni /\ dummy_syscall_code a sym e = Ok None /\
  exists x y, x <> y /\ image_has e (sym_real ni) [x] /\ image_has e (sym_real sym) [y].
Proof. exact is_dummy_empty_bug. Qed.
Print Assumptions C31_only_non_implemented_refuted.

(* endbr64; mov rax,-38; ret twice, then something else *)
Definition C31_image : elf :=
  let ni := bts [243;15;30;250;72;199;192;218;255;255;255;195] in
  code_image EM_X86_64 false false (ni ++ ni ++ bts [72;137;248;195;144;144;144;144;144;144;144;144]).
Definition C31_sym (v n : Z) : symbol := Symbol v v n $"FUNC" $"f".
Example C31_example :
  let ni := C31_sym 4096 12 in
  match arch_new KX86 [5;10] $"x64" false, read_symbol C31_image ni with
  | Ok a, Ok c =>
      len c = sym_size ni /\
      is_dummy_syscall a (C31_sym 4108 12) C31_image (Some ni) (Some c) = Ok true /\
      is_dummy_syscall a (C31_sym 4120 12) C31_image (Some ni) (Some c) = Ok false
  | _, _ => False
  end.
Proof. cbv zeta. vm_compute. repeat split. Qed.

(** ** C32-C34: the code of the symbol is [c]. *)

Theorem C32_x86_exact : forall a sym e c, a_class a = KX86 ->
  read_symbol e sym = Ok c -> len c = sym_size sym ->
  (x86_stub c -> dummy_syscall_code a sym e = Ok (Some c)) /\
  (~ x86_stub c -> dummy_syscall_code a sym e = Ok None).
Proof. exact x86_code_exact. Qed.
Print Assumptions C32_x86_exact.

Example C32_example :
  (exists c, x86_stub c /\ len c = 12) /\
  match arch_new KX86 [5;10] $"x64" false with
  | Ok a => dummy_syscall_code a (C31_sym 4108 12) C31_image =
              Ok (Some (bts [243;15;30;250;72;199;192;218;255;255;255;195])) /\
            dummy_syscall_code a (C31_sym 4120 12) C31_image = Ok None
  | _ => False
  end.
Proof.
  split; [|vm_compute; split; reflexivity].
  exists (bts [243;15;30;250;72;199;192;218;255;255;255;195]). split; [|reflexivity].
  exists (bts [243;15;30;250]), (bts [72;199;192;218;255;255;255]), (bts [195]), ENOSYS.
  split; [left; reflexivity|]. split; [exact eb_64|]. split; [exact (mv_rax ENOSYS)|]. split; [exact lv_ret|reflexivity].
Qed.

Theorem C33_mips_exact : forall a sym e c, a_class a = KMips ->
  read_symbol e sym = Ok c -> len c = sym_size sym ->
  (mips_stub (e_big e) c -> dummy_syscall_code a sym e = Ok (Some c)) /\
  (~ mips_stub (e_big e) c -> dummy_syscall_code a sym e = Ok None).
Proof. exact mips_code_exact. Qed.
Print Assumptions C33_mips_exact.

Theorem C34_arm_exact : forall a sym e c, a_class a = KArm ->
  read_symbol e sym = Ok c -> len c = sym_size sym ->
  (arm_stub c -> dummy_syscall_code a sym e = Ok (Some c)) /\
  (~ arm_stub c -> dummy_syscall_code a sym e = Ok None).
Proof. exact arm_code_exact. Qed.
Print Assumptions C34_arm_exact.

Example C33_C34_example :
  match arch_new KMips [5;10] $"o32" true, arch_new KArm [5;10] $"eabi" true with
  | Ok m, Ok a =>
    dummy_syscall_code m (C31_sym 4096 8) (code_image EM_MIPS true true (bts [3;224;0;8;36;2;255;234])) <> Ok None /\
    dummy_syscall_code m (C31_sym 4096 8) (code_image EM_MIPS true false (bts [3;224;0;8;36;2;255;234])) = Ok None /\
    dummy_syscall_code a (C31_sym 4096 6) (code_image EM_ARM true false (bts [111;240;37;0;112;71])) <> Ok None
  | _, _ => False
  end.
Proof. vm_compute. repeat split; discriminate. Qed.

(** ** C35 *)

Theorem C35_ppc_exact : forall a sym e ws, a_class a = KPowerPC -> Forall is_word32 ws ->
  read_symbol e sym = Ok (ppc_code (e_big e) ws) -> len (ppc_code (e_big e) ws) = sym_size sym ->
  (ppc_stub ws -> dummy_syscall_code a sym e = Ok (Some (ppc_code (e_big e) ws))) /\
  (~ ppc_stub ws -> dummy_syscall_code a sym e = Ok None).
Proof. exact ppc_code_exact. Qed.
Print Assumptions C35_ppc_exact.

(** Code that is not a number of whole instructions is not rejected but stops the program. *)
Theorem C35_odd_size : forall a sym e c, a_class a = KPowerPC -> read_symbol e sym = Ok c ->
  8 <= sym_size sym -> len c mod 4 <> 0 -> dummy_syscall_code a sym e = Raise StructError.
Proof. exact ppc_code_odd. Qed.
Print Assumptions C35_odd_size.

(** Running a detected dummy returns -ENOSYS and nothing else, if its branches are calls
    made before the li. *)
Theorem C35_sound_partial : forall ws r3, ppc_stub ws ->
  (forall a w b, ws = a ++ w :: b -> back_branch w -> Z.odd w = true /\ In (li_r3 (- ENOSYS)) b) ->
  forall v, ppc_runs ws r3 v <-> v = - ENOSYS.
Proof. exact ppc_stub_sound. Qed.
Print Assumptions C35_sound_partial.

(** Without that condition: b elsewhere; li r3,-38; blr. *)
Theorem C35_sound_refuted : exists ws v, Forall is_word32 ws /\ ppc_stub ws /\ ppc_runs ws 0 v /\ v <> - ENOSYS.
Proof. exact ppc_stub_unsound. Qed.
Print Assumptions C35_sound_refuted.

(* mflr r0; bl _mcount; li r3,-38; blr *)
Example C35_example :
  let ws := [mflr_r0; 1275068161; li_r3 (- ENOSYS); blr] in
  ppc_stub ws /\
  (forall a w b, ws = a ++ w :: b -> back_branch w -> Z.odd w = true /\ In (li_r3 (- ENOSYS)) b) /\
  match arch_new KPowerPC [5;10] $"ppc64" false with
  | Ok a => dummy_syscall_code a (C31_sym 4096 16) (code_image EM_PPC64 false true (ppc_code true ws)) =
            Ok (Some (ppc_code true ws))
  | _ => False
  end.
Proof.
  assert (Hb : back_branch 1275068161) by (exists (1275068161 - 18 * 2 ^ 26); split; lia).
  split; [|split; [|vm_compute; reflexivity]].
  - apply (ppc_stub_fillers [mflr_r0; 1275068161]). apply Forall_cons; [|apply Forall_cons; [|apply Forall_nil]].
    + split; [unfold is_word32, mflr_r0; lia|]. left. left. reflexivity.
    + split; [unfold is_word32; lia|]. right. left. assumption.
  - intros a w b E Hw. destruct a as [|a0 [|a1 [|a2 [|a3 [|a4 a]]]]]; injection E; intros; subst; try discriminate.
    + destruct Hw as (x & Hx & E1). unfold mflr_r0 in E1. lia.
    + split; [reflexivity|left; reflexivity].
    + now apply branch_not_li with (n := - ENOSYS) in Hw.
    + now apply branch_not_blr in Hw.
Qed.

(** ** C36 *)

(** The code of the vector goes up to the next symbol, or is 128 bytes long. *)
Theorem C36_endian_switch_exact : forall a e exc ws,
  a_class a = KPowerPC -> a_abi a = $"ppc64" -> before [6;12] (a_version a) ->
  dget str_eqb $"exc_real_0xc00_system_call" (e_symbols e) = Some exc ->
  Forall is_word32 ws ->
  vaddr_read e (sym_vaddr exc)
    (match next_symbol e exc with Some s => sym_vaddr s - sym_vaddr exc | None => 128 end) = Ok (ppc_code (e_big e) ws) ->
  exists kconf, (kconf = Some $"PPC_FAST_ENDIAN_SWITCH" /\ since [4;15] (a_version a) \/
                 kconf = None /\ before [4;15] (a_version a)) /\
  (endian_switch tgt_low ws -> extract_esoteric_syscalls a e = Ok [(7870, $"switch_endian", sym_name exc, [], kconf)]) /\
  (~ endian_switch tgt_low ws -> extract_esoteric_syscalls a e = Ok []).
Proof. exact ppc_esoteric_exact. Qed.
Print Assumptions C36_endian_switch_exact.

Theorem C36_not_reported : forall a e, a_class a = KPowerPC ->
  a_abi a <> $"ppc64" \/ since [6;12] (a_version a) \/ dget str_eqb $"exc_real_0xc00_system_call" (e_symbols e) = None ->
  extract_esoteric_syscalls a e = Ok [].
Proof. exact ppc_esoteric_none. Qed.
Print Assumptions C36_not_reported.

(** Up to 32 KiB of code the target is the one of the instruction set, for forward branches. *)
Theorem C36_target_is_the_real_one : forall ws, len ws <= 8192 ->
  (endian_switch tgt_low ws <-> endian_switch tgt_forward ws).
Proof. exact fast_switch_isa. Qed.
Print Assumptions C36_target_is_the_real_one.

(* cmpdi r0,0x1ebe; beq- +8; nop; mfsrr1 r12; xori; mtsrr1; rfid *)
Definition C36_words : list Z :=
  [cmpdi_r0_1ebe; 1103233032; nop; mfsrr1_r12; xori_r12_1; mtsrr1_r12; rfid].
Definition C36_image : elf :=
  let s := Symbol 4096 4096 0 $"NOTYPE" $"exc_real_0xc00_system_call" in
  let n := Symbol 4124 4124 0 $"NOTYPE" $"next" in
  Elf (ppc_code true C36_words) false true EM_PPC64 0 [($".text", Section_ $".text" 4096 0 28)]
    [(sym_name s, s); (sym_name n, n)] [].
Example C36_example : endian_switch tgt_low C36_words /\
  match arch_new KPowerPC [5;10] $"ppc64" false with
  | Ok a => extract_esoteric_syscalls a C36_image =
      Ok [(7870, $"switch_endian", $"exc_real_0xc00_system_call", [], Some $"PPC_FAST_ENDIAN_SWITCH")]
  | _ => False
  end.
Proof.
  split; [|vm_compute; reflexivity].
  exists 0, 1103233032, 8, 3, 4, 5, 6. unfold at_. repeat split; try lia; try reflexivity.
  exists 14. repeat split; try lia. cbn. auto.
Qed.
