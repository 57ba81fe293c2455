(** Lemmas about M_Arch (proofs for P_Arch). *)
From Coq Require Import List Bool Ascii String ZArith Lia ZifyBool.
From Verif Require Import PyBase PyFacts M_Utils S_Utils L_Utils M_Elf M_Syscall M_KconfigTables M_Arch S_Arch.
Import ListNotations.
Open Scope Z_scope.
Open Scope list_scope.

(** * Generalities *)

Lemma since_iff w v : since w v <-> ver_geb v w = true.
Proof. unfold since, ver_geb. symmetry. apply ver_leb_lexle. Qed.
Lemma before_iff w v : before w v <-> ver_ltb v w = true.
Proof. unfold before. symmetry. apply ver_ltb_lexlt. Qed.
Lemma ver_geb_ltb v w : ver_geb v w = negb (ver_ltb v w).
Proof. reflexivity. Qed.
Lemma since_or_before w v : since w v \/ before w v.
Proof. rewrite since_iff, before_iff, ver_geb_ltb. destruct (ver_ltb v w); auto. Qed.
Lemma since_not_before w v : since w v -> before w v -> False.
Proof. rewrite since_iff, before_iff, ver_geb_ltb. destruct (ver_ltb v w); discriminate. Qed.

Lemma dmem_str {V} k (d : dict str V) : dmem str_eqb k d = true <-> In k (map fst d).
Proof.
  unfold dmem. induction d as [|[k' x] d IH]; cbn; [split; [discriminate|tauto]|].
  destruct (str_eqb k k') eqn:E.
  - apply str_eqb_eq in E. subst. tauto.
  - apply str_eqb_neq in E. rewrite IH. split; [auto|]. intros [H|H]; [congruence|assumption].
Qed.
Lemma has_sym_iff e n : has_sym e n = true <-> sym_present e n.
Proof. apply dmem_str. Qed.
Lemma has_sym_false e n : has_sym e n = false <-> ~ sym_present e n.
Proof. rewrite <- has_sym_iff. destruct (has_sym e n); split; congruence. Qed.

Lemma existsb_str s l : existsb (str_eqb s) l = true <-> In s l.
Proof.
  rewrite existsb_exists. split.
  - intros (x & H & E). apply str_eqb_eq in E. now subst.
  - intros H. exists s. split; [assumption|apply str_eqb_refl].
Qed.
Lemma zin_iff z l : zin z l = true <-> In z l.
Proof.
  unfold zin. rewrite existsb_exists. split.
  - intros (x & H & E). apply Z.eqb_eq in E. now subst.
  - intros H. exists z. split; [assumption|apply Z.eqb_refl].
Qed.

Lemma assert_Ok b u : assert_ b = Ok u <-> b = true.
Proof. destruct b, u; cbn; split; congruence. Qed.

Lemma is_prefix_iff p s : startswith s p = true <-> is_prefix p s.
Proof. apply startswith_iff. Qed.
Lemma is_prefix_false p s : startswith s p = false <-> ~ is_prefix p s.
Proof. rewrite <- is_prefix_iff. destruct (startswith s p); split; congruence. Qed.
Lemma is_suffix_iff p s : endswith s p = true <-> is_suffix p s.
Proof. apply endswith_iff. Qed.
Lemma is_suffix_false p s : endswith s p = false <-> ~ is_suffix p s.
Proof. rewrite <- is_suffix_iff. destruct (endswith s p); split; congruence. Qed.

(** * Constructors *)

(** What arch_new = Ok says about the arguments. *)
Ltac split_abi H :=
  let E := fresh in
  unfold abi_in in H; apply existsb_str in H; cbn [In] in H;
  repeat destruct H as [<-|H]; try contradiction.

Definition arch_abis (k : klass) : list str :=
  match k with
  | KArm => [$"eabi"; $"oabi"]
  | KArm64 => [$"aarch64"; $"aarch32"]
  | KMips => [$"o32"; $"n32"; $"n64"]
  | KPowerPC => [$"ppc32"; $"ppc64"; $"spu"]
  | KRiscV => [$"rv32"; $"rv64"]
  | KX86 => [$"x64"; $"ia32"; $"x32"]
  end.

Ltac destr_binds H :=
  repeat match type of H with
         | bind _ _ = Ok _ =>
             let x := fresh "x" in let E := fresh "E" in
             apply bind_Ok in H as (x & E & H); try (apply assert_Ok in E)
         end.

Lemma arch_new_fields k v abi b a : arch_new k v abi b = Ok a ->
  a_class a = k /\ a_version a = v /\ a_abi a = abi /\ a_bits32 a = b /\ In abi (arch_abis k).
Proof.
  destruct k; cbn [arch_new arch_abis].
  - unfold arm_new. intros H. destr_binds H. split_abi E0; injection H as <-; cbn; rewrite ?E; auto 10.
  - unfold arm64_new. intros H. destr_binds H. apply negb_true_iff in E.
    split_abi E1; injection H as <-; cbn; rewrite ?E; auto 10.
  - unfold mips_new. intros H. destr_binds H.
    split_abi E; destruct b; cbn in H; try discriminate; injection H as <-; cbn; auto 10.
  - unfold ppc_new. intros H. destr_binds H.
    split_abi E; destruct b; cbn in H; destr_binds H; injection H as <-; cbn; auto 10.
  - unfold riscv_new. intros H. destr_binds H. split_abi E0; injection H as <-; cbn; auto 10.
  - unfold x86_new. intros H. destr_binds H.
    split_abi E; destruct b; cbn in H; try discriminate; injection H as <-; cbn; auto 10.
Qed.

(** * C44, C45: detection *)

Lemma machine_of_det m k1 k2 : machine_of m k1 -> machine_of m k2 -> k1 = k2.
Proof. intros H1 H2. inversion H1; subst; inversion H2; reflexivity. Qed.

Lemma match_machine k e r : arch_match k e = Ok (Some r) ->
  machine_of (e_machine e) k /\ machine_bits (e_machine e) (e_bits32 e) /\ fst r = e_bits32 e.
Proof.
  destruct k; cbn [arch_match];
    unfold arm_match, arm64_match, mips_match, ppc_match, riscv_match, x86_match.
  - destruct (e_machine e =? EM_ARM) eqn:E; cbn [negb]; [|discriminate].
    apply Z.eqb_eq in E. rewrite E. destruct (e_bits32 e); cbn; [|discriminate].
    intros H; injection H as <-. repeat split; constructor.
  - destruct (e_machine e =? EM_AARCH64) eqn:E; cbn [negb]; [|discriminate].
    apply Z.eqb_eq in E. rewrite E. destruct (e_bits32 e); cbn; [discriminate|].
    intros H; injection H as <-. repeat split; constructor.
  - destruct (e_machine e =? EM_MIPS) eqn:E; cbn [negb]; [|discriminate].
    apply Z.eqb_eq in E. rewrite E. intros H; injection H as <-. repeat split; constructor.
  - destruct (e_machine e =? EM_PPC) eqn:E; cbn [negb orb].
    + apply Z.eqb_eq in E. rewrite E. destruct (e_bits32 e); cbn; [|discriminate].
      intros H; injection H as <-. repeat split; constructor.
    + destruct (e_machine e =? EM_PPC64) eqn:E2; cbn [negb]; [|discriminate].
      apply Z.eqb_eq in E2. rewrite E2. destruct (e_bits32 e); cbn; [discriminate|].
      intros H; injection H as <-. repeat split; constructor.
  - destruct (e_machine e =? EM_RISCV) eqn:E; cbn [negb]; [|discriminate].
    apply Z.eqb_eq in E. rewrite E. intros H; injection H as <-. repeat split; constructor.
  - destruct (e_machine e =? EM_386) eqn:E; cbn [negb orb].
    + apply Z.eqb_eq in E. rewrite E. destruct (e_bits32 e); cbn; [|discriminate].
      intros H; injection H as <-. repeat split; constructor.
    + destruct (e_machine e =? EM_X86_64) eqn:E2; cbn [negb]; [|discriminate].
      apply Z.eqb_eq in E2. rewrite E2. destruct (e_bits32 e); cbn; [discriminate|].
      intros H; injection H as <-. repeat split; constructor.
Qed.

Lemma match_unique k1 k2 e r1 r2 :
  arch_match k1 e = Ok (Some r1) -> arch_match k2 e = Ok (Some r2) -> k1 = k2.
Proof.
  intros H1 H2. apply match_machine in H1, H2. eapply machine_of_det; [apply H1|apply H2].
Qed.

(** A class says None exactly for the machines that are not its own. *)
Lemma match_None k e : arch_match k e = Ok None <-> ~ machine_of (e_machine e) k.
Proof.
  split.
  - intros H Hm. destruct k; cbn [arch_match] in H;
      unfold arm_match, arm64_match, mips_match, ppc_match, riscv_match, x86_match in H;
      inversion Hm as [Em|Em|Em|Em|Em|Em|Em|Em]; rewrite <- Em in H; cbn in H;
      destruct (e_bits32 e); cbn in H; discriminate.
  - intros Hm. destruct k; cbn [arch_match];
      unfold arm_match, arm64_match, mips_match, ppc_match, riscv_match, x86_match;
      repeat match goal with
             | |- context [e_machine e =? ?m] =>
                 let E := fresh in
                 destruct (e_machine e =? m) eqn:E; [apply Z.eqb_eq in E; exfalso; apply Hm; rewrite E; constructor|]
             end; reflexivity.
Qed.

Lemma match_bad_bits k e : machine_of (e_machine e) k -> ~ machine_bits (e_machine e) (e_bits32 e) ->
  arch_match k e = Raise AssertionError.
Proof.
  intros Hm Hb. destruct k; cbn [arch_match];
    unfold arm_match, arm64_match, mips_match, ppc_match, riscv_match, x86_match;
    inversion Hm as [Em|Em|Em|Em|Em|Em|Em|Em]; rewrite <- Em in *; cbn;
    destruct (e_bits32 e); cbn; try reflexivity; exfalso; apply Hb; constructor.
Qed.

Lemma match_good_bits k e : machine_of (e_machine e) k -> machine_bits (e_machine e) (e_bits32 e) ->
  exists abis, arch_match k e = Ok (Some (e_bits32 e, abis)).
Proof.
  intros Hm Hb. destruct k; cbn [arch_match];
    unfold arm_match, arm64_match, mips_match, ppc_match, riscv_match, x86_match;
    inversion Hm as [Em|Em|Em|Em|Em|Em|Em|Em]; rewrite <- Em in *; cbn;
    inversion Hb as [E1|E1|E1|E1|E1|E1|b E1|b E1]; try rewrite <- E1; cbn; eauto.
Qed.

Lemma first_match_at ks e k : In k ks -> machine_of (e_machine e) k ->
  first_match ks e =
  (m <- arch_match k e ;; Ok (match m with Some (b, abis) => Some (k, b, abis) | None => None end)).
Proof.
  intros Hin Hm. induction ks as [|k' ks IH]; [destruct Hin|]. cbn [first_match].
  destruct Hin as [->|Hin].
  - destruct (arch_match k e) as [[[b abis]|]| | |] eqn:E; cbn; try reflexivity.
    exfalso. now apply match_None in E.
  - destruct (arch_match k' e) as [[[b abis]|]|ex|n|] eqn:E; cbn [bind].
    + assert (k' = k) as ->; [|rewrite E; reflexivity].
      apply match_machine in E. eapply machine_of_det; [apply E|exact Hm].
    + now apply IH.
    + assert (k' = k) as ->; [|rewrite E; reflexivity].
      destruct (klass_eqb k' k) eqn:Ek; [destruct k', k; try reflexivity; discriminate|].
      exfalso. assert (Hn : ~ machine_of (e_machine e) k').
      { intros Hm'. pose proof (machine_of_det _ _ _ Hm Hm'). subst. destruct k'; discriminate. }
      apply match_None in Hn. congruence.
    + exfalso. assert (Hn : arch_match k' e = Ok None \/ arch_match k' e <> Exit n); [|destruct Hn; congruence].
      clear. destruct k'; cbn [arch_match];
        unfold arm_match, arm64_match, mips_match, ppc_match, riscv_match, x86_match, assert_; right;
        repeat match goal with |- context [if ?x then _ else _] => destruct x; cbn [bind] end; congruence.
    + exfalso. assert (Hn : arch_match k' e <> Diverge); [|congruence].
      clear. destruct k'; cbn [arch_match];
        unfold arm_match, arm64_match, mips_match, ppc_match, riscv_match, x86_match, assert_;
        repeat match goal with |- context [if ?x then _ else _] => destruct x; cbn [bind] end; congruence.
Qed.

Lemma first_match_none ks e : (forall k, ~ machine_of (e_machine e) k) -> first_match ks e = Ok None.
Proof.
  intros H. induction ks as [|k ks IH]; cbn; [reflexivity|].
  assert (arch_match k e = Ok None) as -> by (apply match_None, H). cbn. exact IH.
Qed.

Lemma detect_good e k : machine_of (e_machine e) k -> machine_bits (e_machine e) (e_bits32 e) ->
  exists abis, arch_from_vmlinux e = Ok (Some (k, e_bits32 e, abis)).
Proof.
  intros Hm Hb. destruct (match_good_bits k e Hm Hb) as [abis E]. exists abis.
  unfold arch_from_vmlinux. rewrite (first_match_at _ _ k), E; [reflexivity| |assumption].
  destruct k; cbn; auto 10.
Qed.
Lemma detect_bad e k : machine_of (e_machine e) k -> ~ machine_bits (e_machine e) (e_bits32 e) ->
  arch_from_vmlinux e = Raise AssertionError.
Proof.
  intros Hm Hb. unfold arch_from_vmlinux. rewrite (first_match_at _ _ k), match_bad_bits; try assumption; [reflexivity|].
  destruct k; cbn; auto 10.
Qed.
Lemma detect_unknown e : (forall k, ~ machine_of (e_machine e) k) -> arch_from_vmlinux e = Ok None.
Proof. apply first_match_none. Qed.

Lemma detect_iff e k b abis : arch_from_vmlinux e = Ok (Some (k, b, abis)) <->
  machine_of (e_machine e) k /\ machine_bits (e_machine e) (e_bits32 e) /\
  arch_match k e = Ok (Some (b, abis)).
Proof.
  split.
  - unfold arch_from_vmlinux. generalize ARCH_CLASSES. induction l as [|k' l IH]; cbn; [discriminate|].
    destruct (arch_match k' e) as [[[b' abis']|]| | |] eqn:E; cbn; try discriminate; [|exact IH].
    intros H. injection H as -> -> ->. pose proof (match_machine _ _ _ E) as (H1 & H2 & _). auto.
  - intros (Hm & Hb & E). unfold arch_from_vmlinux. rewrite (first_match_at _ _ k), E; [reflexivity| |assumption].
    destruct k; cbn; auto 10.
Qed.

Lemma detect_matches e k b abis abi v a :
  arch_from_vmlinux e = Ok (Some (k, b, abis)) -> arch_new k v abi b = Ok a ->
  (k = KPowerPC -> e_big e = true) -> arch_matches a e = Ok true.
Proof.
  intros H Ha Hp. apply detect_iff in H as (Hm & Hb & E).
  pose proof (match_machine _ _ _ E) as (_ & _ & Eb). cbn in Eb. subst b.
  pose proof (arch_new_fields _ _ _ _ _ Ha) as (Hk & _ & _ & Hbits & _).
  unfold arch_matches. rewrite Hk, ?Hbits.
  destruct k; rewrite ?Hp by reflexivity; cbn [assert_ bind];
    inversion Hm as [Em|Em|Em|Em|Em|Em|Em|Em]; rewrite <- Em in *; inversion Hb as [E1|E1|E1|E1|E1|E1|bb E1|bb E1]; try reflexivity;
    destruct (e_bits32 e); reflexivity.
Qed.

Lemma detect_ppc_le e k b abis abi v a :
  arch_from_vmlinux e = Ok (Some (k, b, abis)) -> arch_new k v abi b = Ok a ->
  k = KPowerPC -> e_big e = false -> arch_matches a e = Raise AssertionError.
Proof.
  intros H Ha -> He. pose proof (arch_new_fields _ _ _ _ _ Ha) as (Hk & _).
  unfold arch_matches. now rewrite Hk, He.
Qed.

(** adjust_abi does not change class and bits. *)
Lemma adjust_abi_class a e : a_class (adjust_abi a e) = a_class a /\ a_bits32 (adjust_abi a e) = a_bits32 a /\
  a_abi (adjust_abi a e) = a_abi a /\ a_version (adjust_abi a e) = a_version a /\ a_base (adjust_abi a e) = a_base a.
Proof.
  unfold adjust_abi. destruct (a_class a) eqn:E;
    repeat match goal with |- context [if ?x then _ else _] => destruct x end; cbn; auto.
Qed.

Lemma detect_ppc_le_ex : exists e k b abis abi v a,
  arch_from_vmlinux e = Ok (Some (k, b, abis)) /\ In abi abis /\ arch_new k v abi b = Ok a /\
  arch_matches a e <> Ok true.
Proof.
  exists (Elf [] false false 21 0 [] [] []), KPowerPC, false, [$"ppc64"], $"ppc64", [6;1].
  eexists. repeat split; try reflexivity; [now left|]. vm_compute. discriminate.
Qed.

(** ** ABIs *)

Lemma in_add_if b l x : In x (add_if b l) <-> b = true /\ In x l.
Proof. destruct b; cbn; intuition congruence. Qed.

Lemma x32_marker e : existsb (fun s => contains s $"x32_compat_sys") (dkeys (e_symbols e)) = true <->
  exists s a b, sym_present e s /\ s = a ++ $"x32_compat_sys" ++ b.
Proof.
  rewrite existsb_exists. split.
  - intros (s & H & Hc). apply contains_iff in Hc as (a & b & E). exists s, a, b. auto.
  - intros (s & a & b & H & E). exists s. split; [exact H|]. apply contains_iff. eauto.
Qed.

Lemma supports_arm_no e abi : e_machine e = 40 -> ~ supports_abi e abi.
Proof.
  intros Hm H. destruct H as [abi H|m abi ms s Hin Em|s a b Em].
  - inversion H; congruence.
  - cbn [optional_abi In] in Hin. repeat destruct Hin as [Hin|Hin]; try contradiction; injection Hin as <- <- <-; congruence.
  - congruence.
Qed.

Lemma supports_x64_ext e :
  e_machine e = 62 -> e_bits32 e = false -> forall abi, supports_abi e abi <->
  abi = $"x64" \/
  (abi = $"ia32" /\ (has_sym e $"ia32_sys_call_table" = true \/ has_sym e $"ia32_sys_call" = true)) \/
  (abi = $"x32" /\ (has_sym e $"x32_sys_call_table" = true \/ has_sym e $"x32_sys_call" = true \/
      existsb (fun s => contains s $"x32_compat_sys") (dkeys (e_symbols e)) = true)).
Proof.
  intros Hm Hb abi. rewrite !has_sym_iff, x32_marker. split.
  - intros H. destruct H as [abi H|m abi ms s Hin Em Eb Hs Hp|s a b Em Hp Es].
    + inversion H; try congruence. auto.
    + cbn [optional_abi In] in Hin. repeat destruct Hin as [Hin|Hin]; try contradiction;
        injection Hin as <- <- <-; try congruence; cbn [In] in Hs;
        repeat destruct Hs as [<-|Hs]; try contradiction; auto 10.
    + right; right. split; [reflexivity|]. right; right. eauto 10.
  - intros [->|[[-> H]|[-> H]]].
    + apply sa_native, na_x86_64, Hm.
    + destruct H as [H|H]; (eapply (sa_marker e 62 _ [$"ia32_sys_call_table"; $"ia32_sys_call"]); [cbn; auto| | | |exact H]; cbn; auto).
    + destruct H as [H|[H|(s & a & b & H & E)]].
      1-2: eapply (sa_marker e 62 _ [$"x32_sys_call_table"; $"x32_sys_call"]); [cbn; auto| | | |exact H]; cbn; auto.
      eapply sa_x32; eassumption.
Qed.

Ltac inv_supports H :=
  let abi := fresh "abi" in let m := fresh "m" in let ms := fresh "ms" in let s := fresh "s" in
  let Hin := fresh "Hin" in let Em := fresh "Em" in let Eb := fresh "Eb" in let Hs := fresh "Hs" in
  let Hp := fresh "Hp" in let a := fresh "a" in let b := fresh "b" in let Es := fresh "Es" in
  destruct H as [abi H|m abi ms s Hin Em Eb Hs Hp|s a b Em Hp Es];
  [inversion H; try congruence; auto
  |cbn [optional_abi In] in Hin; repeat destruct Hin as [Hin|Hin]; try contradiction;
     injection Hin as <- <- <-; try congruence; cbn [In] in Hs;
     repeat destruct Hs as [<-|Hs]; try contradiction; auto 12
  |congruence].

Lemma ok_some_pair {A B} (a a' : A) (b b' : B) : Ok (Some (a, b)) = Ok (Some (a', b')) -> a = a' /\ b = b'.
Proof. intros H. injection H. auto. Qed.

Lemma abis_exact e k b abis : k <> KArm -> arch_from_vmlinux e = Ok (Some (k, b, abis)) ->
  (forall abi, In abi abis <-> supports_abi e abi) /\ NoDup abis /\
  exists nat rest, abis = nat :: rest /\ native_abi e nat.
Proof.
  intros Hk H. apply detect_iff in H as (Hm & Hb & E).
  destruct k; [congruence| | | | |]; cbn [arch_match] in E;
    unfold arm64_match, mips_match, ppc_match, riscv_match, x86_match in E.
  - (* arm64 *)
    inversion Hm as [E0|E0|E0|E0|E0|E0|E0|E0]. rewrite <- E0 in *. cbn -[has_sym list_ascii_of_string add_if contains dkeys] in E. inversion Hb as [H1|H1|H1|H1|H1 E1|H1 E1|? H1|? H1].
    rewrite <- E1 in E. cbn -[has_sym list_ascii_of_string add_if contains dkeys] in E. apply ok_some_pair in E as [_ <-]. split; [|split].
    + intros abi. split.
      * destruct (has_sym e $"compat_sys_call_table") eqn:Es; cbn [In].
        -- intros [<-|[<-|[]]]; [apply sa_native, na_aarch64; congruence|].
           apply has_sym_iff in Es. eapply (sa_marker e 183 _ [$"compat_sys_call_table"]); [cbn; auto 10| | | |exact Es]; cbn; auto.
        -- intros [<-|[]]. apply sa_native, na_aarch64; congruence.
      * intros H. destruct (has_sym e $"compat_sys_call_table") eqn:Es; cbn [In].
        -- inv_supports H.
        -- apply has_sym_false in Es. inv_supports H.
    + destruct (has_sym e _); repeat constructor; cbn; intuition discriminate.
    + destruct (has_sym e _); eexists _, _; (split; [reflexivity|apply na_aarch64; congruence]).
  - (* mips *)
    inversion Hm as [E0|E0|E0|E0|E0|E0|E0|E0]. rewrite <- E0 in *. cbn -[has_sym list_ascii_of_string add_if contains dkeys] in E. apply ok_some_pair in E as [<- <-].
    destruct (e_bits32 e) eqn:Eb.
    + split; [|split].
      * intros abi. cbn [In]. split.
        -- intros [<-|[]]. apply sa_native, na_mips32; congruence.
        -- intros H. inv_supports H.
      * repeat constructor; cbn; tauto.
      * eexists _, _. split; [reflexivity|apply na_mips32; congruence].
    + split; [|split].
      * intros abi. cbn [app In]. rewrite in_app_iff, !in_add_if, !has_sym_iff. split.
        -- intros [<-|[[Hp [<-|[]]]|[Hp [<-|[]]]]].
           ++ apply sa_native, na_mips64; congruence.
           ++ eapply (sa_marker e 8 _ [$"sys32_call_table"]); [cbn; auto 10| | | |exact Hp]; cbn; auto.
           ++ eapply (sa_marker e 8 _ [$"sysn32_call_table"]); [cbn; auto 10| | | |exact Hp]; cbn; auto.
        -- intros H. cbn [In]. inv_supports H.
      * destruct (has_sym e $"sys32_call_table"), (has_sym e $"sysn32_call_table"); repeat constructor; cbn; intuition discriminate.
      * eexists _, _. split; [reflexivity|apply na_mips64; congruence].
  - (* ppc *)
    inversion Hm as [E0|E0|E0|E0|E0|E0|E0|E0]; rewrite <- E0 in *; cbn -[has_sym list_ascii_of_string add_if contains dkeys] in E;
      inversion Hb as [H1 E1|H1 E1|H1 E1|H1 E1|H1 E1|H1 E1|? H1|? H1]; rewrite <- E1 in E; cbn -[has_sym list_ascii_of_string add_if contains dkeys] in E; apply ok_some_pair in E as [_ <-].
    + split; [|split].
      * intros abi. cbn [In]. split.
        -- intros [<-|[]]. apply sa_native, na_ppc; congruence.
        -- intros H. inv_supports H.
      * repeat constructor; cbn; tauto.
      * eexists _, _. split; [reflexivity|apply na_ppc; congruence].
    + split; [|split].
      * intros abi. cbn [app In]. rewrite in_app_iff, !in_add_if, !orb_true_iff, !has_sym_iff. split.
        -- intros [<-|[[Hp [<-|[]]]|[Hp [<-|[]]]]].
           ++ apply sa_native, na_ppc64; congruence.
           ++ destruct Hp as [[Hp|Hp]|Hp];
                (eapply (sa_marker e 21 _ [$"compat_sys_call_table"; $"compat_sys_execve"; $".compat_sys_execve"]);
                 [cbn; auto 10| | | |exact Hp]; cbn; auto).
           ++ eapply (sa_marker e 21 _ [$"spu_syscall_table"]); [cbn; auto 10| | | |exact Hp]; cbn; auto.
        -- intros H. cbn [In]. inv_supports H.
      * destruct (has_sym e $"compat_sys_call_table" || has_sym e $"compat_sys_execve" || has_sym e $".compat_sys_execve"),
          (has_sym e $"spu_syscall_table"); repeat constructor; cbn; intuition discriminate.
      * eexists _, _. split; [reflexivity|apply na_ppc64; congruence].
  - (* riscv *)
    inversion Hm as [E0|E0|E0|E0|E0|E0|E0|E0]. rewrite <- E0 in *. cbn -[has_sym list_ascii_of_string add_if contains dkeys] in E. apply ok_some_pair in E as [<- <-].
    destruct (e_bits32 e) eqn:Eb.
    + split; [|split].
      * intros abi. cbn [In]. split.
        -- intros [<-|[]]. apply sa_native, na_riscv32; congruence.
        -- intros H. inv_supports H.
      * repeat constructor; cbn; tauto.
      * eexists _, _. split; [reflexivity|apply na_riscv32; congruence].
    + split; [|split].
      * intros abi. cbn [app In]. rewrite !in_add_if, !has_sym_iff. split.
        -- intros [<-|[Hp [<-|[]]]].
           ++ apply sa_native, na_riscv64; congruence.
           ++ eapply (sa_marker e 243 _ [$"compat_sys_call_table"]); [cbn; auto 10| | | |exact Hp]; cbn; auto.
        -- intros H. cbn [In]. inv_supports H.
      * destruct (has_sym e $"compat_sys_call_table"); repeat constructor; cbn; intuition discriminate.
      * eexists _, _. split; [reflexivity|apply na_riscv64; congruence].
  - (* x86 *)
    inversion Hm as [E0|E0|E0|E0|E0|E0|E0|E0]; rewrite <- E0 in *; cbn -[has_sym list_ascii_of_string add_if contains dkeys] in E;
      inversion Hb as [H1 E1|H1 E1|H1 E1|H1 E1|H1 E1|H1 E1|? H1|? H1]; rewrite <- E1 in E; cbn -[has_sym list_ascii_of_string add_if contains dkeys] in E; apply ok_some_pair in E as [_ <-].
    + split; [|split].
      * intros abi. cbn [In]. split.
        -- intros [<-|[]]. apply sa_native, na_386; congruence.
        -- intros H. inv_supports H.
      * repeat constructor; cbn; tauto.
      * eexists _, _. split; [reflexivity|apply na_386; congruence].
    + split; [|split].
      * intros abi. rewrite supports_x64_ext by congruence. clear. cbn [In]. rewrite in_app_iff.
        destruct (has_sym e $"ia32_sys_call_table"), (has_sym e $"ia32_sys_call"), (has_sym e $"x32_sys_call_table"),
          (has_sym e $"x32_sys_call"), (existsb (fun s => contains s $"x32_compat_sys") (dkeys (e_symbols e)));
          cbn [In]; intuition congruence.
      * clear. destruct (has_sym e $"ia32_sys_call_table"), (has_sym e $"ia32_sys_call"), (has_sym e $"x32_sys_call_table"),
          (has_sym e $"x32_sys_call"), (existsb (fun s => contains s $"x32_compat_sys") (dkeys (e_symbols e)));
          repeat constructor; cbn; intuition discriminate.
      * eexists _, _. split; [reflexivity|apply na_x86_64; congruence].
Qed.

Lemma arm_detect e abis : e_machine e = 40 -> e_bits32 e = true ->
  (arch_from_vmlinux e = Ok (Some (KArm, true, abis)) <->
   abis = if has_sym e $"sys_oabi_call_table" then [$"eabi"; $"oabi"] else [$"oabi"]).
Proof.
  intros Hm Hb. rewrite detect_iff, Hm, Hb. cbn [arch_match]. unfold arm_match. rewrite Hm, Hb. cbn.
  split.
  - intros (_ & _ & H). injection H as <-. reflexivity.
  - intros ->. repeat split; constructor.
Qed.

Lemma arm_abis_det e l : arm_abis e l ->
  l = if has_sym e $"sys_oabi_call_table" then [$"eabi"; $"oabi"]
      else if Z.land (e_flags e) 4278190080 =? 0 then [$"oabi"] else [$"eabi"].
Proof.
  intros [H|H1 H2|H1 H2].
  - apply has_sym_iff in H. now rewrite H.
  - apply has_sym_false in H1. rewrite H1. apply Z.eqb_neq in H2. now rewrite H2.
  - apply has_sym_false in H1. rewrite H1, H2. reflexivity.
Qed.

Lemma arm_abis_partial e abis l : e_machine e = 40 -> e_bits32 e = true ->
  sym_present e $"sys_oabi_call_table" \/ Z.land (e_flags e) 4278190080 = 0 ->
  arch_from_vmlinux e = Ok (Some (KArm, true, abis)) -> arm_abis e l -> abis = l.
Proof.
  intros Hm Hb Hc H Hl. apply arm_detect in H; [|assumption..]. apply arm_abis_det in Hl. subst.
  destruct (has_sym e $"sys_oabi_call_table") eqn:E; [reflexivity|].
  destruct Hc as [Hc|Hc]; [apply has_sym_iff in Hc; congruence|]. rewrite Hc. reflexivity.
Qed.

Lemma arm_eabi_bug : exists e abis l, e_machine e = 40 /\ e_bits32 e = true /\
  arch_from_vmlinux e = Ok (Some (KArm, true, abis)) /\ arm_abis e l /\ abis <> l.
Proof.
  exists (Elf [] true false 40 83886592 [] [] []), [$"oabi"], [$"eabi"].
  repeat split; try reflexivity; [|discriminate].
  apply aa_eabi; [intros []|vm_compute; discriminate].
Qed.

Lemma arm_eabi_always_wrong e abis : e_machine e = 40 -> e_bits32 e = true ->
  ~ sym_present e $"sys_oabi_call_table" ->
  arch_from_vmlinux e = Ok (Some (KArm, true, abis)) -> abis = [$"oabi"].
Proof.
  intros Hm Hb Hn H. apply arm_detect in H; [|assumption..]. apply has_sym_false in Hn. now rewrite Hn in H.
Qed.

(** * C46: names *)

Lemma doc_rows_new : Forall (fun d => forall v,
  (since (d_since d) v -> exists a, arch_new (d_class d) v (d_abi d) (d_kernel32 d) = Ok a /\
     a_abi_bits32 a = d_abi32 d) /\
  (before (d_since d) v -> arch_new (d_class d) v (d_abi d) (d_kernel32 d) = Raise AssertionError)) documented.
Proof.
  assert (Hnil : forall v, before [] v -> False) by (intros v H; inversion H).
  assert (H15 : forall v, ver_geb v [2;6;15] = false -> ver_geb v [2;6;16] = false).
  { intros v. rewrite !ver_geb_ltb, !negb_false_iff. intros H. eapply ver_ltb_trans; [exact H|reflexivity]. }
  assert (H16 : forall v, ver_geb v [2;6;16] = true -> ver_geb v [2;6;15] = true).
  { intros v H. specialize (H15 v). destruct (ver_geb v [2;6;15]); [reflexivity|]. rewrite H15 in H by reflexivity. discriminate. }
  assert (H31 : forall v, ver_geb v [2;6;31] = true -> ver_geb v [2;6;15] = true).
  { intros v. rewrite !ver_geb_ltb, !negb_true_iff. intros H.
    destruct (ver_ltb v [2;6;15]) eqn:E; [|reflexivity].
    rewrite (ver_ltb_trans v [2;6;15] [2;6;31] E eq_refl) in H. discriminate. }
  assert (H519 : forall v, ver_geb v [5;19] = true -> ver_geb v [4;15] = true).
  { intros v. rewrite !ver_geb_ltb, !negb_true_iff. intros H.
    destruct (ver_ltb v [4;15]) eqn:E; [|reflexivity].
    rewrite (ver_ltb_trans v [4;15] [5;19] E eq_refl) in H. discriminate. }
  assert (Hb : forall w v, before w v -> ver_geb v w = false)
    by (intros w v H; apply before_iff in H; rewrite ver_geb_ltb, H; reflexivity).
  unfold documented. repeat (apply Forall_cons; [intros v; cbn [d_since d_class d_abi d_kernel32 d_abi32];
    split; [intros H; apply since_iff in H|intros H; first [exfalso; exact (Hnil v H)|apply Hb in H]]|]);
    [..|apply Forall_nil];
    cbn [arch_new]; unfold arm_new, arm64_new, mips_new, ppc_new, riscv_new, x86_new;
    cbn -[ver_geb ver_ltb list_ascii_of_string];
    rewrite ?(H16 _ H), ?(H31 _ H), ?(H519 _ H); rewrite ?H; cbn -[ver_geb ver_ltb list_ascii_of_string];
    try (eexists; split; reflexivity); try reflexivity.
  (* too old: either of two assertions *)
  all: repeat match goal with
       | |- context [ver_geb ?v ?w] => destruct (ver_geb v w) eqn:?
       end; try reflexivity; congruence.
Qed.

Lemma doc_names : forallb (fun d => forallb (fun n =>
   match dget str_eqb n SUPPORTED_ARCHS with
   | Some (k, abi, b) => klass_eqb k (d_class d) && str_eqb abi (d_abi d) && Bool.eqb b (d_kernel32 d)
   | None => false
   end) (d_names d)) documented = true.
Proof. vm_compute. reflexivity. Qed.

Lemma klass_eqb_eq a b : klass_eqb a b = true <-> a = b.
Proof. destruct a, b; cbn; split; congruence. Qed.

Lemma doc_name_entry d n : In d documented -> In n (d_names d) ->
  dget str_eqb n SUPPORTED_ARCHS = Some (d_class d, d_abi d, d_kernel32 d).
Proof.
  intros Hd Hn. pose proof doc_names as H. rewrite forallb_forall in H. specialize (H d Hd).
  rewrite forallb_forall in H. specialize (H n Hn).
  destruct (dget str_eqb n SUPPORTED_ARCHS) as [[[k abi] b]|]; [|discriminate].
  apply andb_prop in H as [H H3]. apply andb_prop in H as [H1 H2].
  apply klass_eqb_eq in H1. apply str_eqb_eq in H2. apply eqb_prop in H3. now subst.
Qed.

Lemma arch_name_supported d n v : In d documented -> In n (d_names d) -> since (d_since d) v ->
  exists a, arch_from_name n v = Ok a /\ a_class a = d_class d /\ a_version a = v /\ a_abi a = d_abi d /\
            a_bits32 a = d_kernel32 d /\ a_abi_bits32 a = d_abi32 d.
Proof.
  intros Hd Hn Hv. unfold arch_from_name.
  match goal with |- context [dget str_eqb n SUPPORTED_ARCHS] => assert (dget str_eqb n SUPPORTED_ARCHS = Some (d_class d, d_abi d, d_kernel32 d)) as -> by exact (doc_name_entry d n Hd Hn) end.
  pose proof doc_rows_new as H. rewrite Forall_forall in H. destruct (proj1 (H d Hd v) Hv) as (a & Ha & Hb).
  exists a. pose proof (arch_new_fields _ _ _ _ _ Ha) as (H1 & H2 & H3 & H4 & _). auto 10.
Qed.

Lemma arch_name_too_old d n v : In d documented -> In n (d_names d) -> before (d_since d) v ->
  arch_from_name n v = Raise AssertionError.
Proof.
  intros Hd Hn Hv. unfold arch_from_name.
  match goal with |- context [dget str_eqb n SUPPORTED_ARCHS] => assert (dget str_eqb n SUPPORTED_ARCHS = Some (d_class d, d_abi d, d_kernel32 d)) as -> by exact (doc_name_entry d n Hd Hn) end.
  pose proof doc_rows_new as H. rewrite Forall_forall in H. exact (proj2 (H d Hd v) Hv).
Qed.

Lemma supported_names_documented :
  forallb (fun n => existsb (fun d => existsb (str_eqb n) (d_names d)) documented) (dkeys SUPPORTED_ARCHS) = true.
Proof. vm_compute. reflexivity. Qed.

Lemma arch_name_unknown n v : (forall d, In d documented -> ~ In n (d_names d)) -> arch_from_name n v = Raise KeyError.
Proof.
  intros H. unfold arch_from_name. destruct (dget str_eqb n SUPPORTED_ARCHS) as [x|] eqn:E; [exfalso|reflexivity].
  assert (Hin : In n (dkeys SUPPORTED_ARCHS)).
  { apply dmem_str. unfold dmem. now rewrite E. }
  pose proof supported_names_documented as Hs. rewrite forallb_forall in Hs. specialize (Hs n Hin).
  apply existsb_exists in Hs as (d & Hd & Hn). apply existsb_str in Hn. exact (H d Hd Hn).
Qed.

Lemma alias_same : forall name alias v, In (name, alias) ARCH_ALIASES ->
  arch_from_name alias v = arch_from_name name v.
Proof.
  intros name alias v H. unfold arch_from_name.
  assert (dget str_eqb alias SUPPORTED_ARCHS = dget str_eqb name SUPPORTED_ARCHS) as ->; [|reflexivity].
  revert H. cbn [ARCH_ALIASES In]. intros H.
  repeat (destruct H as [H|H]; [injection H as <- <-; vm_compute; reflexivity|]). destruct H.
Qed.

(** * C47: table, base and compat *)

Lemma table_for_fun e v k abi b a t : arch_new k v abi b = Ok a -> table_for e v k abi b t ->
  a_table (adjust_abi a e) = t.
Proof.
  intros Ha Ht.
  destruct Ht; cbn [arch_new] in Ha;
    unfold arm_new, arm64_new, mips_new, ppc_new, riscv_new, x86_new in Ha; destr_binds Ha;
    repeat match goal with
           | H : since _ _ |- _ => apply since_iff in H
           | H : before _ _ |- _ => apply before_iff in H
           | H : sym_present _ _ |- _ => apply has_sym_iff in H
           | H : ~ sym_present _ _ |- _ => apply has_sym_false in H
           end.
  all: try (match goal with E : abi_in _ _ = true |- _ => split_abi E end).
  all: cbn -[ver_geb ver_ltb list_ascii_of_string has_sym] in Ha; destr_binds Ha.
  all: try (destruct b; cbn -[ver_geb ver_ltb list_ascii_of_string has_sym] in Ha; try discriminate).
  all: try discriminate.
  all: try (injection Ha as <-); unfold adjust_abi; cbn -[ver_geb ver_ltb list_ascii_of_string has_sym].
  all: try reflexivity.
  all: rewrite ?ver_geb_ltb in *; repeat match goal with
       | H : negb _ = true |- _ => apply negb_true_iff in H
       end.
  all: try match goal with H : ver_ltb ?v [5;4] = true |- _ =>
         assert (ver_ltb v [6;9] = true) by (eapply ver_ltb_trans; [exact H|reflexivity]) end.
  all: repeat match goal with
       | |- context [ver_ltb ?v ?w] => destruct (ver_ltb v w) eqn:?
       | |- context [has_sym ?v ?w] => destruct (has_sym v w) eqn:?
       end; first [reflexivity|congruence|idtac].
Qed.
