(** Property C107 (the list of architectures). *)
From Coq Require Import List Bool Ascii String ZArith.
From Verif Require Import PyBase M_Arch M_Main M_HelpText M_Help S_Utils S_Elf S_Arch S_Main S_Help L_Arch L_Help.
Import ListNotations.
Open Scope Z_scope.
Open Scope list_scope.

(** The names in the table are those that stand for an architecture. *)
Theorem C107_names n : (exists v a, arch_from_name n v = Ok a) <-> exists r, shown SUPPORTED_ARCHS_HELP r /\ In n (row_names r).
Proof. exact (help_names n). Qed.
Print Assumptions C107_names.

(** --arch takes them in any case, and nothing else. *)
Theorem C107_accepted silent n : arch_messages silent (Some n) = ([], None) <->
  exists r m, shown SUPPORTED_ARCHS_HELP r /\ In m (row_names r) /\ Forall2 same_letter n m.
Proof. exact (accepted silent n). Qed.
Print Assumptions C107_accepted.

Theorem C107_asked silent n : asks_help n ->
  arch_messages silent (Some n) = (if silent then [] else [SUPPORTED_ARCHS_HELP], Some 0).
Proof. exact (asked silent n). Qed.
Print Assumptions C107_asked.

Theorem C107_refused silent n : ~ asks_help n ->
  ~ (exists r m, shown SUPPORTED_ARCHS_HELP r /\ In m (row_names r) /\ Forall2 same_letter n m) ->
  arch_messages silent (Some n) =
    (if silent then [] else [$"Unsupported architecture/ABI combination: " ++ lower n; $"See --arch HELP for a list"], Some 1).
Proof. exact (refused silent n). Qed.
Print Assumptions C107_refused.

(** The function used by the model of main is the same without the messages. *)
Theorem C107_main silent arch : snd (arch_messages silent arch) = check_arch (option_map lower arch).
Proof. exact (messages_check silent arch). Qed.
Print Assumptions C107_main.

(** What a row says about class, word sizes and ABI is so in every version. *)
Theorem C107_row r n v a : shown SUPPORTED_ARCHS_HELP r -> In n (row_names r) -> arch_from_name n v = Ok a ->
  arch_label (a_class a) (r_arch r) /\ a_bits32 a = r_kernel32 r /\ a_abi_bits32 a = r_abi32 r /\ abi_label (a_abi a) (r_abi r).
Proof. exact (help_row r n v a). Qed.
Print Assumptions C107_row.

Theorem C107_aliases r n n' v : shown SUPPORTED_ARCHS_HELP r -> In n (row_names r) -> In n' (row_names r) ->
  arch_from_name n v = arch_from_name n' v.
Proof. exact (help_same r n n' v). Qed.
Print Assumptions C107_aliases.

(** The row with its footnotes names one list of targets for each version.  It is the one used, unless the
    kernel is v3.7 for ARM. *)
Theorem C107_build r n v a : shown SUPPORTED_ARCHS_HELP r -> In n (row_names r) -> arch_from_name n v = Ok a ->
  exists l, based SUPPORTED_ARCHS_HELP r v l /\ (forall l', based SUPPORTED_ARCHS_HELP r v l' -> l' = l) /\
    (a_targets a = l <-> ~ (a_class a = KArm /\ since [3;7] v /\ before [3;8] v)).
Proof. exact (help_targets r n v a). Qed.
Print Assumptions C107_build.

Theorem C107_build_refuted : exists r n v a l, shown SUPPORTED_ARCHS_HELP r /\ In n (row_names r) /\ arch_from_name n v = Ok a /\
  based SUPPORTED_ARCHS_HELP r v l /\ a_targets a <> l.
Proof.
  eexists (Row $"arm" [$"arm-eabi"; $"eabi"] $"ARM" true true $"EABI" [$"multi_v7_defconfig"] [$"2"]), $"arm", [3;7;0], _, [$"defconfig"].
  split; [apply rows_shown; now left|]. split; [now left|]. split; [vm_compute; reflexivity|].
  split; [|discriminate]. apply ba_arm; [now left|apply note_2_there|]. apply before_iff. reflexivity.
Qed.
Print Assumptions C107_build_refuted.

(** Footnote 1: the kernel is configured the same whichever of the ABIs of the architecture is named. *)
Theorem C107_all_abis r r' n n' v a a' w opts : shown SUPPORTED_ARCHS_HELP r -> In $"1" (r_notes r) ->
  shown SUPPORTED_ARCHS_HELP r' -> same_kernel r r' -> In n (row_names r) -> In n' (row_names r') ->
  arch_from_name n v = Ok a -> arch_from_name n' v = Ok a' ->
  a_targets a = a_targets a' /\ (fresh_kconfig a w = Some opts -> fresh_kconfig a' w = Some opts).
Proof. exact (noted_same r r' n n' v a a' w opts). Qed.
Print Assumptions C107_all_abis.

(** It is missing in a row for which this holds as well: arm64. *)
Theorem C107_footnote_refuted : exists r r', shown SUPPORTED_ARCHS_HELP r /\ shown SUPPORTED_ARCHS_HELP r' /\ r <> r' /\ same_kernel r r' /\
  ~ In $"1" (r_notes r) /\ forall n n' v a a' w opts, In n (row_names r) -> In n' (row_names r') ->
    arch_from_name n v = Ok a -> arch_from_name n' v = Ok a' ->
    a_targets a = a_targets a' /\ (fresh_kconfig a w = Some opts -> fresh_kconfig a' w = Some opts).
Proof.
  exists (Row $"arm64" [$"aarch64"] $"ARM" false false $"AArch64" [$"defconfig"] []),
    (Row $"arm64-aarch32" [$"aarch32"] $"ARM" false true $"AArch32" [$"defconfig"] [$"1"]).
  assert (R : shown SUPPORTED_ARCHS_HELP (Row $"arm64" [$"aarch64"] $"ARM" false false $"AArch64" [$"defconfig"] [])) by (apply rows_shown; cbn; tauto).
  assert (R' : shown SUPPORTED_ARCHS_HELP (Row $"arm64-aarch32" [$"aarch32"] $"ARM" false true $"AArch32" [$"defconfig"] [$"1"])) by (apply rows_shown; cbn; tauto).
  split; [exact R|]. split; [exact R'|]. split; [discriminate|]. split; [now split|]. split; [intros []|].
  intros n n' v a a' w opts. now apply (kernel64_same _ _ n n' v a a' w opts R R' (conj eq_refl eq_refl)).
Qed.
Print Assumptions C107_footnote_refuted.

(** For ARM, where the rows do not have the footnote, it does not hold. *)
Theorem C107_arm : exists r r' n n' v a a' opts opts', shown SUPPORTED_ARCHS_HELP r /\ shown SUPPORTED_ARCHS_HELP r' /\ same_kernel r r' /\
  In n (row_names r) /\ In n' (row_names r') /\ arch_from_name n v = Ok a /\ arch_from_name n' v = Ok a' /\
  fresh_kconfig a v = Some opts /\ fresh_kconfig a' v = Some opts' /\
  In $"OABI_COMPAT=n" (dkeys opts) /\ In $"OABI_COMPAT=y" (dkeys opts').
Proof.
  eexists (Row $"arm" [$"arm-eabi"; $"eabi"] $"ARM" true true $"EABI" [$"multi_v7_defconfig"] [$"2"]),
    (Row $"arm-oabi" [$"oabi"] $"ARM" true true $"OABI" [$"multi_v7_defconfig"] [$"2"; $"4"]), $"arm", $"oabi", [5;10], _, _, _, _.
  split; [apply rows_shown; cbn; tauto|]. split; [apply rows_shown; cbn; tauto|]. split; [now split|]. split; [now left|]. split; [right; now left|].
  split; [vm_compute; reflexivity|]. split; [vm_compute; reflexivity|]. split; [vm_compute; reflexivity|]. split; [vm_compute; reflexivity|].
  split; cbn; tauto.
Qed.
Print Assumptions C107_arm.

Example C107_riscv : exists r, shown SUPPORTED_ARCHS_HELP r /\ In $"rv32" (row_names r) /\
  based SUPPORTED_ARCHS_HELP r [6;7;3] [$"rv32_defconfig"] /\ based SUPPORTED_ARCHS_HELP r [6;8;0] [$"defconfig"; $"32-bit.config"].
Proof.
  exists (Row $"riscv" [$"riscv32"; $"rv32"] $"RISC-V" true true $"""RV32""" [$"defconfig"; $"32-bit.config"] [$"3"; $"6"]).
  split; [apply rows_shown; cbn; tauto|]. split; [cbn; tauto|]. split.
  - apply ba_rv32_later; [now left|apply note_3_there|apply since_iff; reflexivity|apply before_iff; reflexivity].
  - apply ba_cell; [intros [X|[X|[]]]; discriminate X|intros _; apply since_iff; reflexivity].
Qed.
Example C107_case : arch_messages false (Some $"X86-64") = ([], None) /\ snd (arch_messages false (Some $"x87")) = Some 1 /\
  arch_messages false (Some $"HELP") = ([SUPPORTED_ARCHS_HELP], Some 0).
Proof. vm_compute. auto. Qed.
Example C107_not_a_name : ~ exists r, shown SUPPORTED_ARCHS_HELP r /\ In $"Value" (row_names r).
Proof. rewrite <- C107_names. intros (v & a & H). discriminate H. Qed.
