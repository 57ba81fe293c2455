(** Lemmas for C82-C85 (proofs for P_Init). *)
From Coq Require Import List Bool Ascii String ZArith Lia ZifyBool.
From Verif Require Import PyBase PyFacts M_Utils S_Utils L_Utils M_Elf M_Syscall M_KconfigTables M_Arch S_Arch L_Arch L_Arch2
  L_Elf M_Emu M_Kernel S_Kernel L_Kernel S_Init.
Import ListNotations.
Open Scope Z_scope.
Open Scope list_scope.

(** * C82 *)
Lemma convention_fun abi n r n' r' : convention abi n r -> convention abi n' r' -> n = n' /\ r = r'.
Proof. intros H H'. destruct H; inversion H'; subst; auto. Qed.

Lemma adjust_regs a e : a_num_reg (adjust_abi a e) = a_num_reg a /\ a_arg_regs (adjust_abi a e) = a_arg_regs a /\
  a_targets (adjust_abi a e) = a_targets a.
Proof. unfold adjust_abi. destruct (a_class a); repeat match goal with |- context [if ?c then _ else _] => destruct c end; auto. Qed.

Lemma registers k v abi b a e : arch_new k v abi b = Ok a -> abi <> $"aarch32" ->
  exists n r, convention abi n r /\ a_num_reg (adjust_abi a e) = Some n /\ a_arg_regs (adjust_abi a e) = r.
Proof.
  intros H N. destruct (adjust_regs a e) as (-> & -> & _).
  pose proof (arch_new_bits _ _ _ _ _ H) as Hb. pose proof (arch_new_fields _ _ _ _ _ H) as (_ & _ & _ & _ & Hin).
  destruct k; cbn [arch_abis In] in Hin; repeat destruct Hin as [<-|Hin]; try contradiction;
    try (now elim N); cbn [arch_new] in H;
    unfold arm_new, arm64_new, mips_new, ppc_new, riscv_new, x86_new in H; destr_binds H;
    destruct b; try (discriminate (Hb eq_refl)); cbn -[ver_geb ver_ltb list_ascii_of_string] in H;
    destr_binds H; try discriminate; injection H as <-; eexists _, _; split; constructor; reflexivity.
Qed.
Lemma registers_iff k v abi b a e n r : arch_new k v abi b = Ok a -> abi <> $"aarch32" ->
  (convention abi n r <-> a_num_reg (adjust_abi a e) = Some n /\ a_arg_regs (adjust_abi a e) = r).
Proof.
  intros H N. destruct (registers _ _ _ _ _ e H N) as (n' & r' & C & -> & <-). split.
  - intros C'. destruct (convention_fun _ _ _ _ _ C C') as [-> ->]. auto.
  - intros [[= <-] <-]. assumption.
Qed.
Lemma aarch32_registers v b a e : arch_new KArm64 v $"aarch32" b = Ok a ->
  a_num_reg (adjust_abi a e) = Some $"w8" /\ a_arg_regs (adjust_abi a e) = [$"x0"; $"x1"; $"x2"; $"x3"; $"x4"; $"x5"].
Proof.
  intros H. destruct (adjust_regs a e) as (-> & -> & _). cbn [arch_new] in H. unfold arm64_new in H. destr_binds H.
  injection H as <-. split; reflexivity.
Qed.

(** * C83 *)
Lemma since_before_far w w' v : ver_ltb w w' = true -> since w' v -> before w v -> False.
Proof.
  intros L S B. apply before_iff in B. pose proof (ver_ltb_trans _ _ _ B L) as T.
  exact (since_not_before _ _ S (proj2 (before_iff _ _) T)).
Qed.
Lemma base_config_fun v k b l l' : base_config v k b l -> base_config v k b l' -> l = l'.
Proof.
  intros H H'. destruct H; inversion H'; subst; try reflexivity; exfalso;
    first [ match goal with A : since ?w ?u, B : before ?w ?u |- _ => exact (since_not_before w u A B) end
          | match goal with A : since ?w ?u, B : before ?w' ?u |- _ => exact (since_before_far w' w u eq_refl A B) end ].
Qed.
Lemma base_config_ok k v abi b a e l : arch_new k v abi b = Ok a ->
  (base_config v k b l <-> a_targets (adjust_abi a e) = l).
Proof.
  intros H. destruct (adjust_regs a e) as (_ & _ & ->).
  assert (X : base_config v k b (a_targets a)).
  { pose proof (arch_new_bits _ _ _ _ _ H) as Hb.
    destruct k; cbn [arch_new] in H;
      unfold arm_new, arm64_new, mips_new, ppc_new, riscv_new, x86_new in H; destr_binds H.
    - injection H as <-. subst b. cbn [a_targets]. destruct (ver_geb v [3;7]) eqn:E'.
      + apply bc_arm, since_iff, E'.
      + apply bc_arm_old, before_iff. rewrite ver_geb_ltb in E'. now destruct (ver_ltb v [3;7]).
    - injection H as <-. subst b. constructor.
    - destruct b; destr_binds H; injection H as <-; constructor.
    - destruct b; destr_binds H; injection H as <-; constructor.
    - injection H as <-. cbn [a_targets]. destruct b; [|constructor].
      destruct (ver_geb v [6;8]) eqn:E8; [apply bc_rv32_new, since_iff, E8|].
      assert (before [6;8] v) by (apply before_iff; rewrite ver_geb_ltb in E8; now destruct (ver_ltb v [6;8])).
      destruct (ver_geb v [5;1]) eqn:E5; [apply bc_rv32; [apply since_iff, E5|assumption]|].
      apply bc_rv32_old, before_iff. rewrite ver_geb_ltb in E5. now destruct (ver_ltb v [5;1]).
    - destruct b; destr_binds H; injection H as <-; constructor. }
  split; [intros Y; exact (base_config_fun _ _ _ _ _ X Y)|intros <-; exact X].
Qed.

(** * C84 *)
Lemma off_unique e v sec : In sec (dvalues (e_sections e)) ->
  (forall x, In x (dvalues (e_sections e)) -> sec_vaddr x <= v < sec_vaddr x + sec_size x -> x = sec) ->
  sec_vaddr sec <= v < sec_vaddr sec + sec_size sec ->
  vaddr_to_file_offset e v = Ok (sec_off sec + (v - sec_vaddr sec)).
Proof.
  intros I U V. destruct (proj2 (vaddr_off_iff e v)) as [off Ho]; [eauto|].
  destruct (vaddr_off_value _ _ _ Ho) as (s & Hs & Hv & ->). now rewrite (U s Hs Hv) in Ho.
Qed.
Lemma banner_text e s text : dget str_eqb $"linux_banner" (e_symbols e) = Some s -> sym_real s = sym_vaddr s ->
  holds e s text -> version_from_vmlinux e = Ok (version_from_banner text).
Proof.
  intros D R H. unfold version_from_vmlinux. rewrite D.
  destruct H as [sec pre text post I U V F L Z N|sec pre text post I U V F L Z N];
    pose proof (off_unique _ _ _ I U V) as O; rewrite <- L in O.
  - assert (sym_size s =? 0 = false) as ->.
    { destruct text; [now elim N|]. rewrite Z. unfold len. cbn [List.length]. lia. }
    cbn [negb]. unfold read_symbol. rewrite R, (vaddr_read_bytes _ _ _ _ _ _ O F (eq_sym Z)). reflexivity.
  - rewrite Z. cbn [negb Z.eqb]. now rewrite (read_string_found _ _ _ _ _ O F N).
Qed.

(** * C85 *)
Lemma image_of_iff e k b : image_of e k b <-> e_bits32 e = b /\
  match k with
  | KArm => e_machine e = 40 /\ b = true
  | KArm64 => e_machine e = 183 /\ b = false
  | KMips => e_machine e = 8
  | KPowerPC => e_machine e = if b then 20 else 21
  | KRiscV => e_machine e = 243
  | KX86 => e_machine e = if b then 3 else 62
  end.
Proof.
  unfold image_of. split.
  - intros (M & B & <-). split; [reflexivity|]. destruct (e_bits32 e); inversion M; inversion B; try congruence; auto; exfalso; lia.
  - intros [<- H]. destruct k; [destruct H as [H H']; rewrite H, H'|destruct H as [H H']; rewrite H, H'|rewrite H ..];
      destruct (e_bits32 e); repeat split; constructor.
Qed.
Lemma image_fits a e k v abi b : arch_new k v abi b = Ok a -> (k = KPowerPC -> e_big e = true) ->
  exists r, arch_matches a e = Ok r /\ (r = true <-> image_of e k b).
Proof.
  intros H P. pose proof (arch_new_bits _ _ _ _ _ H) as Hb.
  pose proof (arch_new_fields _ _ _ _ _ H) as (Hk & _ & _ & Hbit & _).
  unfold arch_matches. rewrite Hk, Hbit. destruct k; try (rewrite (P eq_refl); cbn [assert_ bind]);
    (eexists; split; [reflexivity|]); rewrite image_of_iff, andb_true_iff, ?eqb_true_iff, ?negb_true_iff, Z.eqb_eq;
    unfold EM_ARM, EM_AARCH64, EM_MIPS, EM_PPC, EM_PPC64, EM_RISCV, EM_386, EM_X86_64; try (subst b); intuition congruence.
Qed.
Lemma image_matches a e k v abi b : arch_new k v abi b = Ok a -> (k = KPowerPC -> e_big e = true) ->
  (image_of e k b -> arch_matches a e = Ok true) /\ (~ image_of e k b -> arch_matches a e = Ok false).
Proof.
  intros H P. destruct (image_fits _ _ _ _ _ _ H P) as (r & -> & I). split; intros X.
  - f_equal. now apply I.
  - f_equal. destruct r; [now elim X; apply I|reflexivity].
Qed.
Lemma little_ppc a e v abi b : arch_new KPowerPC v abi b = Ok a -> e_big e = false -> arch_matches a e = Raise AssertionError.
Proof.
  intros H E. pose proof (arch_new_fields _ _ _ _ _ H) as (Hk & _). unfold arch_matches. rewrite Hk, E. reflexivity.
Qed.

Lemma named_iff n v a : arch_from_name n v = Ok a -> named n v a /\ exists k abi b, arch_new k v abi b = Ok a /\
  a_class a = k /\ a_abi a = abi /\ a_bits32 a = b.
Proof.
  intros H. split.
  - assert (D : exists d, In d documented /\ In n (d_names d)).
    { destruct (existsb (fun d => existsb (str_eqb n) (d_names d)) documented) eqn:E.
      - apply existsb_exists in E as (d & I & J). apply existsb_str in J. eauto.
      - rewrite (arch_name_unknown n v) in H; [discriminate|]. intros d I J.
        assert (X : existsb (fun d => existsb (str_eqb n) (d_names d)) documented = true).
        { apply existsb_exists. exists d. split; [assumption|]. now apply existsb_str. }
        congruence. }
    destruct D as (d & I & J). destruct (since_or_before (d_since d) v) as [S|B].
    + destruct (arch_name_supported d n v I J S) as (a' & E & Q). rewrite H in E. injection E as <-.
      exists d. intuition.
    + now rewrite (arch_name_too_old d n v I J B) in H.
  - unfold arch_from_name in H. destruct (dget str_eqb n SUPPORTED_ARCHS) as [[[k abi] b]|]; [|discriminate].
    exists k, abi, b. pose proof (arch_new_fields _ _ _ _ _ H). intuition.
Qed.

(** With a name: the image must be of that architecture. *)
Lemma init_named n e kd v a : e_symbols e <> [] -> arch_from_name n v = Ok a ->
  (a_class a = KPowerPC -> e_big e = true) ->
  named n v a /\
  (image_of e (a_class a) (a_bits32 a) -> kernel_init (Some n) (Some e) kd (Ok v) = Ok a) /\
  (~ image_of e (a_class a) (a_bits32 a) -> kernel_init (Some n) (Some e) kd (Ok v) = Raise KernelArchError).
Proof.
  intros S H P. destruct (named_iff _ _ _ H) as [N (k & abi & b & A & Hk & Ha & Hb)]. split; [assumption|].
  rewrite Hk, Hb. rewrite Hk in P. destruct (image_matches _ e _ _ _ _ A P) as [M1 M2].
  unfold kernel_init. rewrite andb_false_r. destruct (e_symbols e); [now elim S|]. cbn [bind]. rewrite H. cbn [bind].
  split; intros I; [rewrite (M1 I)|rewrite (M2 I)]; reflexivity.
Qed.
(** Without: the image must support one ABI only. *)
Lemma init_detected e kd v a : kernel_init None (Some e) kd (Ok v) = Ok a ->
  image_of e (a_class a) (a_bits32 a) /\ a_version a = v /\ e_symbols e <> [] /\
  (a_class a <> KArm -> forall abi, supports_abi e abi <-> abi = a_abi a).
Proof.
  unfold kernel_init. rewrite andb_false_r. destruct (e_symbols e) eqn:S; [discriminate|]. cbn [bind].
  intros H. apply bind_Ok in H as (a' & H & M). apply bind_Ok in H as (m & D & H).
  destruct m as [[[k b] abis]|]; [|discriminate]. destruct (1 <? len abis) eqn:L; [discriminate|].
  cbn [bind] in H. apply bind_Ok in H as (abi & I & A). apply bind_Ok in M as (r & M & R). destruct r; [|discriminate]. injection R as ->.
  pose proof (arch_new_fields _ _ _ _ _ A) as (Hk & Hv & Ha & Hb & _).
  assert (P : k = KPowerPC -> e_big e = true).
  { intros ->. destruct (e_big e) eqn:G; [reflexivity|]. now rewrite (little_ppc _ _ _ _ _ A G) in M. }
  rewrite Hk, Hb, Ha. split; [|split; [assumption|split; [discriminate|]]].
  - destruct (image_fits _ _ _ _ _ _ A P) as (r & E & X). apply X. congruence.
  - intros N abi'. destruct (abis_exact e k b abis N D) as (X & _ & n & rest & -> & _).
    assert (rest = []) as -> by (destruct rest; [reflexivity|]; unfold len in L; cbn in L; lia).
    injection I as <-. rewrite <- X. cbn. intuition.
Qed.
Lemma init_no_symbols an e kd rv : e_symbols e = [] -> kernel_init an (Some e) kd rv = Raise KernelWithoutSymbolsError.
Proof. intros S. unfold kernel_init. rewrite andb_false_r, S. destruct an; reflexivity. Qed.
Lemma init_multi e kd rv k b abis x y : e_symbols e <> [] -> arch_from_vmlinux e = Ok (Some (k, b, abis)) ->
  In x abis -> In y abis -> x <> y -> kernel_init None (Some e) kd rv = Raise KernelMultiABIError.
Proof.
  intros S D X Y N. unfold kernel_init. rewrite andb_false_r. destruct (e_symbols e); [now elim S|]. cbn [bind].
  rewrite D. cbn [bind]. assert (1 <? len abis = true) as ->; [|reflexivity].
  destruct abis as [|a1 [|a2 r]]; [destruct X| |unfold len; cbn [List.length]; lia].
  destruct X as [<-|[]], Y as [<-|[]]. now elim N.
Qed.
Lemma init_several e kd rv x y : e_symbols e <> [] -> supports_abi e x -> supports_abi e y -> x <> y ->
  machine_bits (e_machine e) (e_bits32 e) -> kernel_init None (Some e) kd rv = Raise KernelMultiABIError.
Proof.
  intros S X Y N B. assert (K : exists k, machine_of (e_machine e) k /\ k <> KArm).
  { destruct X as [abi X|m abi ms s I E _ _ _|s p q E _ _].
    - destruct X as [E|E|E|E|E|E _|E _|E _|E _]; rewrite E; eexists; (split; [constructor|discriminate]).
    - cbn [optional_abi In] in I. repeat (destruct I as [I|I]; [injection I as <- _ _; rewrite E; eexists; (split; [constructor|discriminate])|]). destruct I.
    - rewrite E. exists KX86. split; [constructor|discriminate]. }
  destruct K as (k & K & NA). destruct (detect_good e k K B) as [abis D].
  destruct (abis_exact e k _ abis NA D) as (E & _). exact (init_multi e kd rv _ _ abis x y S D (proj2 (E _) X) (proj2 (E _) Y) N).
Qed.
Lemma init_unknown e kd rv : e_symbols e <> [] -> (forall k, ~ machine_of (e_machine e) k) ->
  kernel_init None (Some e) kd rv = Raise KernelArchError.
Proof.
  intros S U. unfold kernel_init. rewrite andb_false_r. destruct (e_symbols e); [now elim S|]. cbn [bind].
  now rewrite (detect_unknown e U).
Qed.
Lemma init_little_ppc n e kd v a : e_symbols e <> [] -> arch_from_name n v = Ok a -> a_class a = KPowerPC -> e_big e = false ->
  kernel_init (Some n) (Some e) kd (Ok v) = Raise AssertionError.
Proof.
  intros S H K L. destruct (named_iff _ _ _ H) as [_ (k & abi & b & A & Hk & _)]. rewrite Hk in K. subst k.
  unfold kernel_init. rewrite andb_false_r. destruct (e_symbols e); [now elim S|]. cbn [bind]. rewrite H. cbn [bind].
  now rewrite (little_ppc _ _ _ _ _ A L).
Qed.
Lemma banner_version e s x y z a b c r :
  dget str_eqb $"linux_banner" (e_symbols e) = Some s -> sym_real s = sym_vaddr s ->
  is_number x a -> is_number y b -> is_number z c -> ~ starts_with_digit r ->
  holds e s ($"Linux version " ++ x ++ $"." ++ y ++ $"." ++ z ++ r) ->
  version_from_vmlinux e = Ok (Some [a; b; c]).
Proof.
  intros D R X Y Z N H. rewrite (banner_text _ _ _ D R H), banner_ok, (version_three _ _ _ _ _ _ _ X Y Z N). reflexivity.
Qed.
Lemma banner_without e : ~ sym_present e $"linux_banner" -> version_from_vmlinux e = Ok None.
Proof.
  intros N. unfold version_from_vmlinux. apply has_sym_false in N. unfold has_sym in N.
  unfold dmem in N. destruct (dget str_eqb $"linux_banner" (e_symbols e)); [discriminate|reflexivity].
Qed.
Lemma no_x32 : ~ supports_abi (Elf [] false false 62 0 []
    [($"sys_call_table", Symbol 4096 4096 16 $"FUNC" $"sys_call_table")]
    [($"sys_call_table", Symbol 4096 4096 16 $"FUNC" $"sys_call_table")]) $"x32".
Proof.
  intros H. destruct (abis_exact (Elf [] false false 62 0 []
    [($"sys_call_table", Symbol 4096 4096 16 $"FUNC" $"sys_call_table")]
    [($"sys_call_table", Symbol 4096 4096 16 $"FUNC" $"sys_call_table")]) KX86 false [$"x64"]) as (X & _);
    [discriminate|reflexivity|]. apply X in H. destruct H as [H|[]]. discriminate H.
Qed.
