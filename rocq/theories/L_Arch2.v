(** More lemmas about M_Arch (proofs for P_Arch). *)
From Coq Require Import List Bool Ascii String ZArith Lia ZifyBool.
From Verif Require Import PyBase PyFacts M_Utils S_Utils L_Utils M_Elf M_Syscall M_KconfigTables M_Arch S_Arch L_Arch.
Import ListNotations.
Open Scope Z_scope.
Open Scope list_scope.

Lemma sym_dec e n : sym_present e n \/ ~ sym_present e n.
Proof. rewrite <- has_sym_iff. destruct (has_sym e n); [left|right]; congruence. Qed.

Lemma arch_new_bits k v abi b a : arch_new k v abi b = Ok a ->
  match k with
  | KArm => b = true
  | KArm64 => b = false
  | KMips => b = true -> abi = $"o32"
  | KX86 => b = true -> abi = $"ia32"
  | _ => True
  end.
Proof.
  destruct k; cbn [arch_new]; auto; intros H.
  - unfold arm_new in H. destr_binds H. assumption.
  - unfold arm64_new in H. destr_binds H. now apply negb_true_iff in E.
  - intros ->. unfold mips_new in H. destr_binds H. now apply str_eqb_eq in E0.
  - intros ->. unfold x86_new in H. destr_binds H. now apply str_eqb_eq in E1.
Qed.

Lemma table_for_total e k v abi b a : arch_new k v abi b = Ok a -> exists t, table_for e v k abi b t.
Proof.
  intros H. pose proof (arch_new_bits _ _ _ _ _ H) as Hb.
  apply arch_new_fields in H as (_ & _ & _ & _ & Hin).
  destruct k; cbn [arch_abis In] in Hin.
  - destruct Hin as [<-|[<-|[]]]; [eexists; constructor|].
    destruct (sym_dec e $"sys_oabi_call_table"); eexists; [apply tf_arm_compat|apply tf_arm_oabi]; assumption.
  - destruct Hin as [<-|[<-|[]]]; eexists; constructor.
  - destruct b; [rewrite Hb by reflexivity; eexists; constructor|].
    destruct Hin as [<-|[<-|[<-|[]]]]; eexists; constructor.
  - destruct b; [eexists; apply tf_ppc|].
    destruct Hin as [<-|[<-|[<-|[]]]]; try (eexists; constructor; fail).
    destruct (since_or_before [5;0] v); eexists; [apply tf_ppc64_32|apply tf_ppc64_32_old]; assumption.
  - destruct b; [eexists; apply tf_riscv|]. destruct Hin as [<-|[<-|[]]]; eexists; constructor.
  - destruct (since_or_before [6;9] v) as [Hv|Hv].
    + destruct (sym_dec e $"sys_call_table") as [Hs|Hs]; [|eexists; now apply tf_new_none].
      destruct b; [rewrite Hb by reflexivity; eexists; now apply tf_new_x86_32|].
      destruct Hin as [<-|[<-|[<-|[]]]]; [eexists; now apply tf_new_x64| |]; eexists; now apply tf_new_compat.
    + destruct b; [rewrite Hb by reflexivity; eexists; now apply tf_x86_32|].
      destruct Hin as [<-|[<-|[<-|[]]]]; [eexists; now apply tf_x64|eexists; now apply tf_ia32|].
      destruct (since_or_before [5;4] v); eexists; [apply tf_x32|apply tf_x32_old]; assumption.
Qed.

Lemma table_for_iff e k v abi b a t : arch_new k v abi b = Ok a ->
  (table_for e v k abi b t <-> a_table (adjust_abi a e) = t).
Proof.
  intros H. split; [now apply table_for_fun|].
  intros <-. destruct (table_for_total e k v abi b a H) as [t Ht].
  now rewrite (table_for_fun e v k abi b a t H Ht).
Qed.

Lemma number_base_ok k v abi b a e z : arch_new k v abi b = Ok a -> number_base k abi z ->
  a_base (adjust_abi a e) = z.
Proof.
  intros H Hn. assert (a_base (adjust_abi a e) = a_base a) as -> by apply adjust_abi_class.
  pose proof (arch_new_bits _ _ _ _ _ H) as Hb.
  destruct Hn; cbn [arch_new] in H;
    unfold arm_new, arm64_new, mips_new, ppc_new, riscv_new, x86_new in H; destr_binds H;
    destruct b; try (discriminate (Hb eq_refl)); cbn -[ver_geb ver_ltb list_ascii_of_string] in H;
    destr_binds H; try discriminate; injection H as <-; reflexivity.
Qed.

Lemma number_base_total k v abi b a : arch_new k v abi b = Ok a -> exists z, number_base k abi z.
Proof.
  intros H. apply arch_new_fields in H as (_ & _ & _ & _ & Hin).
  destruct k; cbn [arch_abis In] in Hin; repeat destruct Hin as [<-|Hin]; try contradiction; eexists; constructor.
Qed.

(** compat: the ABI is not the main one of the kernel. *)
Lemma compat_ok e k v abi b a : arch_new k v abi b = Ok a ->
  (a_compat (adjust_abi a e) = true <->
   match k with
   | KArm => abi = $"oabi" /\ sym_present e $"sys_oabi_call_table"
   | KArm64 => abi = $"aarch32"
   | KMips => b = false /\ abi <> $"n64"
   | KPowerPC => b = false /\ abi <> $"ppc64"
   | KRiscV => b = false /\ abi = $"rv32"
   | KX86 => b = false /\ abi <> $"x64"
   end).
Proof.
  intros H. pose proof (arch_new_bits _ _ _ _ _ H) as Hb.
  pose proof (arch_new_fields _ _ _ _ _ H) as (_ & _ & _ & _ & Hin).
  pose proof (has_sym_iff e $"sys_oabi_call_table") as Hs.
  destruct k; cbn [arch_new] in H; unfold arm_new, arm64_new, mips_new, ppc_new, riscv_new, x86_new in H; destr_binds H;
    cbn [arch_abis In] in Hin;
    repeat destruct Hin as [<-|Hin]; try contradiction; destruct b; try discriminate;
    try (discriminate (Hb eq_refl));
    cbn -[ver_geb ver_ltb list_ascii_of_string] in H; destr_binds H; try discriminate; injection H as <-;
    unfold adjust_abi; cbn -[ver_geb ver_ltb list_ascii_of_string has_sym];
    repeat match goal with
       | |- context [ver_ltb ?v ?w] => destruct (ver_ltb v w) eqn:?
       | |- context [has_sym ?v ?w] => destruct (has_sym v w) eqn:?
       end; cbn; intuition (try congruence); try discriminate.
Qed.

(** * C38, C39: skipping *)

Lemma only_64_numbers : map fst only_64 = bad_x32_numbers.
Proof. reflexivity. Qed.

(** Clearing the x32 bit of a number that has it. *)
Lemma x32_bit n : 0 <= n < 2 ^ 30 -> Z.land (1073741824 + n) (Z.lnot 1073741824) = n.
Proof.
  intros H. change 1073741824 with (2 ^ 30).
  assert (E : 2 ^ 30 + n = Z.lor (2 ^ 30) n).
  { rewrite Z.add_nocarry_lxor.
    - symmetry. rewrite <- Z.lxor_lor; [reflexivity|].
      apply Z.bits_inj'. intros i Hi. rewrite Z.land_spec, Z.bits_0.
      destruct (Z.eq_dec i 30) as [->|Hne].
      + rewrite (Z.bits_above_log2 n 30); [apply andb_false_r|lia|].
        destruct (Z.eq_dec n 0) as [->|]; [reflexivity|]. apply Z.log2_lt_pow2; lia.
      + rewrite Z.pow2_bits_false by lia. reflexivity.
    - apply Z.bits_inj'. intros i Hi. rewrite Z.land_spec, Z.bits_0.
      destruct (Z.eq_dec i 30) as [->|Hne].
      + rewrite (Z.bits_above_log2 n 30); [apply andb_false_r|lia|].
        destruct (Z.eq_dec n 0) as [->|]; [reflexivity|]. apply Z.log2_lt_pow2; lia.
      + rewrite Z.pow2_bits_false by lia. reflexivity. }
  rewrite E. apply Z.bits_inj'. intros i Hi. rewrite Z.land_spec, Z.lor_spec, Z.lnot_spec by lia.
  destruct (Z.eq_dec i 30) as [->|Hne].
  - rewrite Z.pow2_bits_true by lia. cbn [orb negb andb]. symmetry. apply Z.bits_above_log2; [lia|].
    destruct (Z.eq_dec n 0) as [->|]; [reflexivity|]. apply Z.log2_lt_pow2; lia.
  - rewrite Z.pow2_bits_false by lia. cbn [orb negb]. now rewrite andb_true_r.
Qed.

Lemma x86_foreign_x32 v b m : x86_foreign v $"x32" b m ->
  before [5;4] v /\ exists n name, In (n, name) only_64 /\ m = 1073741824 + n.
Proof.
  intros H. remember $"x32" as abi. destruct H; try discriminate. eauto.
Qed.

(** The numbers of a table: base + index. *)
Lemma x86_skip_iff v abi b a i : arch_new KX86 v abi b = Ok a -> 0 <= i < 2 ^ 30 ->
  (skip_syscall a i (a_base a + i) = true <-> x86_foreign v abi b (a_base a + i)).
Proof.
  intros H Hi. pose proof (arch_new_bits _ _ _ _ _ H) as Hb.
  pose proof (arch_new_fields _ _ _ _ _ H) as (Hk & Hv & Habi & Hbits & Hin).
  destruct (number_base_total _ _ _ _ _ H) as [z Hz].
  pose proof (number_base_ok _ _ _ _ _ (Elf [] b false 0 0 [] [] []) _ H Hz) as Hbase.
  assert (Hbase' : a_base a = z) by (rewrite <- Hbase; symmetry; apply adjust_abi_class).
  unfold skip_syscall. rewrite Hk, Hv, Habi, Hbits, Hbase'. clear H Hk Hv Habi Hbits Hbase Hbase' a.
  cbn [arch_abis In] in Hin. destruct Hin as [<-|[<-|[<-|[]]]]; inversion Hz; subst; clear Hz.
  - (* x64 *)
    change (str_eqb $"x64" $"x64") with true. change (str_eqb $"x64" $"x32") with false.
    change (str_eqb $"x64" $"ia32") with false. cbn [andb].
    split.
    + intros Hs. assert (512 <= 0 + i <= 547) by (destruct ((512 <=? 0 + i) && (0 + i <=? 547)) eqn:E; [lia|discriminate Hs]).
      now apply xf_x64.
    + intros Hf. inversion Hf; subst; [|discriminate ..].
      assert ((512 <=? 0 + i) && (0 + i <=? 547) = true) as -> by lia. reflexivity.
  - (* ia32 *)
    change (str_eqb $"ia32" $"x64") with false. change (str_eqb $"ia32" $"x32") with false.
    change (str_eqb $"ia32" $"ia32") with true. cbn [andb].
    split.
    + destruct b; cbn [negb andb].
      * destruct (zin (0 + i) [380; 381; 382]) eqn:E; [|discriminate]. intros _. apply zin_iff in E. cbn in E.
        apply xf_pkey. lia.
      * destruct (zin (0 + i) [113; 166]) eqn:E; [|discriminate]. intros _. apply zin_iff in E. cbn [In] in E.
        destruct E as [<-|[<-|[]]]; [apply xf_vm86old|apply xf_vm86].
    + intros Hf. inversion Hf as [| | | |number Hn]; subst.
      * reflexivity.
      * reflexivity.
      * cbn [negb andb]. assert (zin (0 + i) [380; 381; 382] = true) as ->; [|reflexivity].
        apply zin_iff. cbn [In]. lia.
  - (* x32 *)
    destruct b; [discriminate (Hb eq_refl)|].
    change (str_eqb $"x32" $"x64") with false. change (str_eqb $"x32" $"x32") with true.
    change (str_eqb $"x32" $"ia32") with false. cbn [andb].
    destruct (ver_geb v [5;4]) eqn:Ev.
    + split; [discriminate|]. intros Hf. apply x86_foreign_x32 in Hf as (Hv & _).
      apply before_iff in Hv. rewrite ver_geb_ltb, Hv in Ev. discriminate.
    + rewrite x32_bit by assumption. destruct (zin i bad_x32_numbers) eqn:E.
      * split; [|reflexivity]. intros _. apply zin_iff in E. rewrite <- only_64_numbers in E.
        apply in_map_iff in E as ([n name] & En & Hn). cbn in En. subst n.
        apply (xf_x32 v false i name); [|assumption]. apply before_iff.
        rewrite ver_geb_ltb in Ev. now apply negb_false_iff in Ev.
      * split; [discriminate|]. intros Hf. apply x86_foreign_x32 in Hf as (Hv & n & name & Hn & Hx).
        assert (n = i) by lia. subst n. exfalso.
        assert (zin i bad_x32_numbers = true); [|congruence]. apply zin_iff. rewrite <- only_64_numbers.
        change i with (fst (i, name)). now apply in_map.
Qed.

Lemma ppc_skip_iff v abi b a i n : arch_new KPowerPC v abi b = Ok a ->
  (b = true \/ since [5;0] v -> skip_syscall a i n = false /\ adjust_syscall_number a n = n) /\
  (b = false -> before [5;0] v ->
    (skip_syscall a i n = false <-> (if str_eqb abi $"ppc32" then Z.Odd i else Z.Even i)) /\
    adjust_syscall_number a n = n / 2).
Proof.
  intros H. pose proof (arch_new_fields _ _ _ _ _ H) as (Hk & Hv & Habi & Hbits & _).
  unfold skip_syscall, adjust_syscall_number. rewrite Hk, Hv, Habi, Hbits. clear. split.
  - intros [->|H]; [auto|]. apply since_iff in H. rewrite H, orb_true_r. auto.
  - intros -> H. apply before_iff in H. rewrite ver_geb_ltb, H. cbn [orb negb]. split; [|reflexivity].
    destruct (str_eqb abi $"ppc32").
    + rewrite <- Z.odd_spec, Zmod_odd. destruct (Z.odd i); cbn; split; congruence.
    + rewrite <- Z.even_spec, Zmod_odd, <- Z.negb_odd. destruct (Z.odd i); cbn; split; congruence.
Qed.

Lemma other_skip k v abi b a i n : arch_new k v abi b = Ok a -> k <> KX86 -> k <> KPowerPC ->
  skip_syscall a i n = false.
Proof.
  intros H H1 H2. apply arch_new_fields in H as (Hk & _). unfold skip_syscall. rewrite Hk. destruct k; congruence.
Qed.
Lemma other_number k v abi b a n : arch_new k v abi b = Ok a -> k <> KPowerPC -> adjust_syscall_number a n = n.
Proof.
  intros H H2. apply arch_new_fields in H as (Hk & _). unfold adjust_syscall_number. rewrite Hk. destruct k; congruence.
Qed.

(** * C29 *)
Lemma ni_symbol_iff s : symbol_is_ni_syscall s = true <-> sym_type s = $"FUNC" /\ ni_name (sym_name s).
Proof.
  unfold symbol_is_ni_syscall, ni_name. rewrite !andb_true_iff, !negb_true_iff, str_eqb_eq, !is_prefix_false, anysuffix_iff.
  unfold is_suffix. split.
  - intros ((((H1 & (sx & t & Hin & E)) & H2) & H3) & H4). repeat split; try assumption.
    cbn [In] in Hin. destruct Hin as [<-|[<-|[]]]; eauto.
  - intros (H1 & H2 & H3 & H4 & H5). repeat split; try assumption.
    destruct H2 as [[t E]|[t E]]; eexists _, t; (split; [|exact E]); cbn; auto.
Qed.

(** * C09 *)

Lemma drop_prefix_det ps s t : (forall p q t u, In p ps -> In q ps -> p ++ t = q ++ u -> p = q) ->
  (drop_prefix ps s t <-> noprefix s ps = t).
Proof.
  intros Hx. split.
  - intros [(p & Hp & ->)|[-> Hn]].
    + apply in_split in Hp as (l1 & l2 & ->). clear -Hx.
      revert Hx. induction l1 as [|q l1 IH]; intros Hx; cbn [app noprefix].
      * rewrite startswith_app. apply slice_from_app.
      * destruct (startswith (p ++ t) q) eqn:E.
        -- apply startswith_iff in E as [u Eu].
           assert (p = q) by (apply (Hx p q t u); [right; apply in_or_app; right; left; reflexivity|left; reflexivity|assumption]).
           subst q. apply slice_from_app.
        -- apply IH. intros p' q' t' u' H1 H2. apply Hx; right; assumption.
    + induction ps as [|q ps IH]; cbn; [reflexivity|].
      assert (startswith s q = false) as -> by (apply is_prefix_false, Hn; left; reflexivity).
      apply IH; [intros p q' t u H1 H2; apply Hx; right; assumption|]. intros p Hp. apply Hn. now right.
  - intros <-. clear Hx. unfold drop_prefix. induction ps as [|q ps IH]; cbn [noprefix].
    + right. split; [reflexivity|]. intros p [].
    + destruct (startswith s q) eqn:E.
      * apply startswith_iff in E as [u ->]. left. exists q. split; [left; reflexivity|]. now rewrite slice_from_app.
      * destruct IH as [(p & Hp & Es)|[Es Hn]].
        -- left. exists p. split; [now right|assumption].
        -- right. split; [assumption|]. intros p [<-|Hp]; [now apply is_prefix_false|now apply Hn].
Qed.

Lemma drop_suffix_det ps s t : (forall p, In p ps -> p <> []) ->
  (forall p q t u, In p ps -> In q ps -> t ++ p = u ++ q -> p = q) ->
  (drop_suffix ps s t <-> nosuffix s ps = t).
Proof.
  intros Hne Hx. split.
  - intros [(p & Hp & ->)|[-> Hn]].
    + apply in_split in Hp as (l1 & l2 & ->). clear -Hx Hne.
      revert Hx Hne. induction l1 as [|q l1 IH]; intros Hx Hne; cbn [app nosuffix].
      * rewrite endswith_app. apply slice_to_neg. apply Hne. left; reflexivity.
      * destruct (endswith (t ++ p) q) eqn:E.
        -- apply endswith_iff in E as [u Eu].
           assert (p = q) by (apply (Hx p q t u); [right; apply in_or_app; right; left; reflexivity|left; reflexivity|assumption]).
           subst q. apply slice_to_neg, Hne. left; reflexivity.
        -- apply IH; [intros p' q' t' u' H1 H2; apply Hx; right; assumption|intros; apply Hne; now right].
    + induction ps as [|q ps IH]; cbn; [reflexivity|].
      assert (endswith s q = false) as -> by (apply is_suffix_false, Hn; left; reflexivity).
      apply IH; [intros; apply Hne; now right|intros p q' t u H1 H2; apply Hx; right; assumption|].
      intros p Hp. apply Hn. now right.
  - intros <-. clear Hx. unfold drop_suffix. induction ps as [|q ps IH]; cbn [nosuffix].
    + right. split; [reflexivity|]. intros p [].
    + destruct (endswith s q) eqn:E.
      * apply endswith_iff in E as [u ->]. left. exists q. split; [left; reflexivity|].
        rewrite slice_to_neg; [reflexivity|apply Hne; left; reflexivity].
      * destruct IH as [(p & Hp & Es)|[Es Hn]]; [intros; apply Hne; now right| |].
        -- left. exists p. split; [now right|assumption].
        -- right. split; [assumption|]. intros p [<-|Hp]; [now apply is_suffix_false|now apply Hn].
Qed.

Lemma drop_time_bits_det s t :
  drop_time_bits s t <-> (if endswith s $"time32" || endswith s $"time64" then slice_to s (-2) else s) = t.
Proof.
  assert (Hcut : forall u b, (b = $"32" \/ b = $"64") -> slice_to (u ++ $"time" ++ b) (-2) = u ++ $"time").
  { intros u b Hb. rewrite app_assoc. assert (-2 = - len b) as -> by (destruct Hb; subst; reflexivity).
    apply slice_to_neg. destruct Hb; subst; discriminate. }
  unfold drop_time_bits. split.
  - intros [(u & b & Hb & -> & ->)|(-> & H1 & H2)].
    + cbn [In] in Hb. assert (Hb' : b = $"32" \/ b = $"64") by (destruct Hb as [<-|[<-|[]]]; auto).
      assert (endswith (u ++ $"time" ++ b) $"time32" || endswith (u ++ $"time" ++ b) $"time64" = true) as ->.
      { apply orb_true_iff. destruct Hb' as [->| ->]; [left|right]; apply endswith_iff; exists u; reflexivity. }
      now apply Hcut.
    + apply is_suffix_false in H1, H2. now rewrite H1, H2.
  - intros <-. destruct (endswith s $"time32") eqn:E1; [|destruct (endswith s $"time64") eqn:E2]; cbn [orb].
    + apply endswith_iff in E1 as [u ->]. left. exists u, $"32". split; [cbn; auto|]. split; [reflexivity|].
      apply (Hcut u $"32"); auto.
    + apply endswith_iff in E2 as [u ->]. left. exists u, $"64". split; [cbn; auto|]. split; [reflexivity|].
      apply (Hcut u $"64"); auto.
    + right. apply is_suffix_false in E1, E2. auto.
Qed.

Ltac excl_prefix :=
  let p := fresh in let q := fresh in let t := fresh in let u := fresh in
  let H1 := fresh in let H2 := fresh in let E := fresh in
  intros p q t u H1 H2 E; cbn [In source_prefixes] in H1, H2;
  repeat destruct H1 as [<-|H1]; try contradiction; repeat destruct H2 as [<-|H2]; try contradiction;
  try reflexivity; cbn in E; discriminate E.

Lemma source_prefixes_excl k p q t u : In p (source_prefixes k) -> In q (source_prefixes k) ->
  p ++ t = q ++ u -> p = q.
Proof. revert p q t u. destruct k; excl_prefix. Qed.

Lemma arch_strip_iff k v abi b a s t : arch_new k v abi b = Ok a ->
  (arch_strip a s t <-> arch_normalize a s = t).
Proof.
  intros H. pose proof (arch_new_fields _ _ _ _ _ H) as (Hk & _ & Habi & _ & Hin).
  unfold arch_strip. rewrite Hk, Habi.
  assert (Ho : str_eqb abi $"oabi" = true -> k = KArm).
  { intros E. apply str_eqb_eq in E. rewrite E in Hin. destruct k; [reflexivity|..]; cbn [arch_abis In] in Hin;
      repeat destruct Hin as [Hin|Hin]; try contradiction; discriminate. }
  assert (Hs : forall u, drop_prefix (source_prefixes k) u t <-> noprefix u (source_prefixes k) = t)
    by (intros u; apply drop_prefix_det; apply source_prefixes_excl).
  unfold arch_normalize. rewrite Hk, Habi.
  destruct (str_eqb abi $"oabi") eqn:E.
  - rewrite Ho in * by reflexivity. split.
    + intros (u & H1 & H2). apply Hs in H2. apply drop_prefix_det in H1; [|excl_prefix]. now rewrite H1.
    + intros <-. exists (noprefix s [$"oabi_"]). split; [apply drop_prefix_det; [excl_prefix|reflexivity]|]. now apply Hs.
  - split.
    + intros (u & -> & H2). apply Hs in H2. destruct k; exact H2.
    + intros Ht. exists s. split; [reflexivity|]. apply Hs. destruct k; exact Ht.
Qed.

Lemma normalize_iff k v abi b a name r : arch_new k v abi b = Ok a ->
  (normalize_syscall_name a name = r <-> normal_name a name r).
Proof.
  intros H. unfold normalize_syscall_name, normal_name.
  assert (Hx : forall p q t u, In p [$"_time32"; $"_time64"] -> In q [$"_time32"; $"_time64"] -> t ++ p = u ++ q -> p = q).
  { intros p q t u H1 H2 E. apply (f_equal (@rev ascii)) in E. rewrite !rev_app_distr in E. cbn [In] in H1, H2.
    destruct H1 as [<-|[<-|[]]], H2 as [<-|[<-|[]]]; try reflexivity; cbn in E; discriminate E. }
  split.
  - intros <-. eexists _, _, _, _. split; [apply drop_suffix_det; [|exact Hx|reflexivity]|].
    + intros p Hp. cbn [In] in Hp. destruct Hp as [<-|[<-|[]]]; discriminate.
    + split; [apply drop_time_bits_det; reflexivity|].
      split; [apply drop_prefix_det; [excl_prefix|reflexivity]|].
      split; [apply drop_prefix_det; [excl_prefix|reflexivity]|].
      eapply arch_strip_iff; [exact H|reflexivity].
  - intros (s1 & s2 & s3 & s4 & H1 & H2 & H3 & H4 & H5).
    apply drop_suffix_det in H1; [|intros p Hp; cbn [In] in Hp; destruct Hp as [<-|[<-|[]]]; discriminate|exact Hx].
    apply drop_time_bits_det in H2. apply drop_prefix_det in H3; [|excl_prefix]. apply drop_prefix_det in H4; [|excl_prefix].
    eapply arch_strip_iff in H5; [|exact H]. rewrite H1, H2, H3, H4. exact H5.
Qed.

Lemma drop_prefix_part ps s t : drop_prefix ps s t -> exists p, s = p ++ t.
Proof. intros [(p & _ & E)|[-> _]]; [eauto|exists []; reflexivity]. Qed.
Lemma drop_suffix_part ps s t : drop_suffix ps s t -> exists p, s = t ++ p.
Proof. intros [(p & _ & E)|[-> _]]; [eauto|exists []; symmetry; apply app_nil_r]. Qed.
Lemma drop_time_part s t : drop_time_bits s t -> exists p, s = t ++ p.
Proof.
  intros [(u & b & _ & -> & ->)|[-> _]]; [exists b; now rewrite <- app_assoc|exists []; symmetry; apply app_nil_r].
Qed.

Lemma normalize_part k v abi b a name : arch_new k v abi b = Ok a ->
  exists p q, name = p ++ normalize_syscall_name a name ++ q.
Proof.
  intros H. destruct (proj1 (normalize_iff _ _ _ _ _ name _ H) eq_refl) as (s1 & s2 & s3 & s4 & H1 & H2 & H3 & H4 & u & H5 & H6).
  apply drop_suffix_part in H1 as [q1 ->]. apply drop_time_part in H2 as [q2 ->].
  apply drop_prefix_part in H3 as [p3 ->], H4 as [p4 ->], H6 as [p6 Hu].
  set (r := normalize_syscall_name _ _) in *. clearbody r.
  assert (H5' : exists p5, s4 = p5 ++ u).
  { destruct (str_eqb (a_abi a) $"oabi"); [now apply drop_prefix_part in H5|]. exists []. now subst. }
  destruct H5' as [p5 ->]. subst u. exists (p3 ++ p4 ++ p5 ++ p6), (q2 ++ q1). now rewrite <- !app_assoc.
Qed.

Lemma normalize_plain k v abi b a s : arch_new k v abi b = Ok a -> plain_name a s -> normalize_syscall_name a s = s.
Proof.
  intros H [H1 H2]. apply (normalize_iff _ _ _ _ _ s s H). exists s, s, s, s.
  split; [right; split; [reflexivity|intros p Hp; apply H1; cbn in *; tauto]|].
  split; [right; split; [reflexivity|split; apply H1; cbn; auto]|].
  split; [right; split; [reflexivity|intros p Hp; apply H2; cbn in *; tauto]|].
  split; [right; split; [reflexivity|intros p Hp; apply H2; cbn in *; tauto]|].
  exists s. split.
  - destruct (str_eqb (a_abi a) $"oabi"); [|reflexivity].
    right; split; [reflexivity|intros p Hp; apply H2; cbn in *; tauto].
  - right; split; [reflexivity|]. intros p Hp. apply H2. apply in_or_app. now right.
Qed.

(** * C30 *)
Lemma base_pref_or x y : base_preferred x y = x \/ base_preferred x y = y.
Proof. unfold base_preferred. repeat match goal with |- context [if ?c then _ else _] => destruct c end; auto. Qed.
Lemma prefer_compat_or a x y z : prefer_compat a x y = Some z -> z = x \/ z = y.
Proof.
  unfold prefer_compat; cbv zeta. repeat match goal with |- context [if ?c then _ else _] => destruct c end; intros E; try discriminate; injection E as <-; auto.
Qed.
Lemma preferred_or a x y : preferred_symbol a x y = x \/ preferred_symbol a x y = y.
Proof.
  unfold preferred_symbol. pose proof (base_pref_or x y).
  destruct (a_class a); [destruct (prefer_compat a x y) eqn:E; [now apply prefer_compat_or in E|auto]
    | destruct (prefer_compat a x y) eqn:E; [now apply prefer_compat_or in E|]
    | destruct (prefer_compat a x y) eqn:E; [now apply prefer_compat_or in E|]
    | unfold ppc_preferred
    | destruct (prefer_compat a x y) eqn:E; [now apply prefer_compat_or in E|]
    | unfold x86_preferred];
    repeat match goal with |- context [if ?c then _ else _] => destruct c end; auto.
Qed.

Lemma has_compat_iff s : has_compat s <-> contains s $"compat" = true.
Proof. unfold has_compat. symmetry. apply contains_iff. Qed.

Lemma prefer_compat_one a x y : contains (sym_name x) $"compat" = true -> contains (sym_name y) $"compat" = false ->
  prefer_compat a x y = Some (if a_compat a then x else y) /\ prefer_compat a y x = Some (if a_compat a then x else y).
Proof. intros H1 H2. unfold prefer_compat; cbv zeta. rewrite H1, H2. cbn. destruct (a_compat a); auto. Qed.
Lemma prefer_compat_same a x y : contains (sym_name x) $"compat" = contains (sym_name y) $"compat" ->
  prefer_compat a x y = None.
Proof. intros H. unfold prefer_compat; cbv zeta. rewrite H, xorb_nilpotent. reflexivity. Qed.

Lemma preferred_compat a x y : uses_compat (a_class a) -> has_compat (sym_name x) -> ~ has_compat (sym_name y) ->
  preferred_symbol a x y = (if a_compat a then x else y) /\ preferred_symbol a y x = (if a_compat a then x else y).
Proof.
  rewrite !has_compat_iff. intros Hk H1 H2. apply not_true_iff_false in H2.
  destruct (prefer_compat_one a x y H1 H2) as [E1 E2].
  unfold preferred_symbol. rewrite E1, E2. destruct Hk as [->|[->|[->| ->]]]; auto.
Qed.

Lemma preferred_marker a x y m : abi_marker (a_class a) (a_abi a) (a_bits32 a) m ->
  is_prefix m (sym_name x) -> ~ is_prefix m (sym_name y) ->
  (uses_compat (a_class a) -> (has_compat (sym_name x) <-> has_compat (sym_name y))) ->
  preferred_symbol a x y = x /\ preferred_symbol a y x = x.
Proof.
  rewrite !has_compat_iff. intros Hm Hx Hy Hc. apply is_prefix_iff in Hx. apply is_prefix_false in Hy.
  assert (Hc' : uses_compat (a_class a) -> contains (sym_name x) $"compat" = contains (sym_name y) $"compat").
  { intros Hu. specialize (Hc Hu). destruct (contains _ _), (contains (sym_name y) _); intuition congruence. }
  clear Hc. unfold preferred_symbol.
  remember (a_class a) as k eqn:Ek. remember (a_abi a) as abi eqn:Ea. remember (a_bits32 a) as b eqn:Eb.
  destruct Hm.
  - unfold x86_preferred. rewrite <- Ea, Hx, Hy. auto.
  - unfold x86_preferred. rewrite <- Ea, Hx, Hy. auto.
  - unfold x86_preferred. rewrite <- Ea, Hx, Hy. auto.
  - specialize (Hc' (or_intror (or_introl eq_refl))).
    rewrite !prefer_compat_same by congruence. rewrite Hx, Hy. auto.
  - specialize (Hc' (or_intror (or_intror (or_intror eq_refl)))).
    rewrite !prefer_compat_same by congruence. rewrite Hx, Hy. auto.
  - unfold ppc_preferred. rewrite <- Eb, Hx, Hy. auto.
Qed.

(** * C37 *)
Lemma fun_present_iff e n : dmem str_eqb n (e_functions e) = true <-> fun_present e n.
Proof. apply dmem_str. Qed.

Lemma arm_base v abi b a e : arch_new KArm v abi b = Ok a ->
  number_base KArm abi (a_base (adjust_abi a e)) /\ a_class (adjust_abi a e) = KArm /\ a_version (adjust_abi a e) = v.
Proof.
  intros H. destruct (number_base_total _ _ _ _ _ H) as [z Hz].
  pose proof (number_base_ok _ _ _ _ _ e _ H Hz) as ->. split; [assumption|].
  destruct (arch_new_fields _ _ _ _ _ H) as (<- & <- & _). split; apply adjust_abi_class.
Qed.
Lemma number_base_fun k abi z z' : number_base k abi z -> number_base k abi z' -> z = z'.
Proof. intros H H'. destruct H; inversion H'; reflexivity. Qed.

Lemma arm_esoteric_iff v abi b a e : arch_new KArm v abi b = Ok a ->
  exists l, extract_esoteric_syscalls (adjust_abi a e) e = Ok l /\ NoDup (map eso_number l) /\
    (forall x, In x l -> eso_symbol x = $"arm_syscall") /\
    forall n name, (exists x, In x l /\ eso_number x = n /\ eso_name x = name) <->
      fun_present e $"arm_syscall" /\ exists base, number_base KArm abi base /\ arm_private v (n - base) name.
Proof.
  intros H. destruct (arm_base _ _ _ _ e H) as (Hz & Hk & Hv).
  unfold extract_esoteric_syscalls. rewrite Hk. unfold arm_esoteric. rewrite Hv.
  set (z := a_base (adjust_abi a e)) in *. clearbody z. clear H Hk Hv.
  eexists. split; [reflexivity|].
  destruct (dmem str_eqb $"arm_syscall" (e_functions e)) eqn:E; cbn [negb].
  - apply fun_present_iff in E.
    split; [|split].
    + destruct (ver_geb v [4;15]); cbn [app map eso_number fst]; repeat constructor; cbn [In]; lia.
    + intros x Hx. apply in_app_or in Hx as [Hx|Hx]; cbn [In] in Hx;
        [repeat destruct Hx as [<-|Hx]; try contradiction; reflexivity|].
      destruct (ver_geb v [4;15]); [destruct Hx as [<-|[]]; reflexivity|contradiction].
    + intros n name. split.
      * intros (x & Hx & <- & <-). split; [assumption|]. exists z. split; [assumption|].
        apply in_app_or in Hx as [Hx|Hx]; cbn [In] in Hx.
        -- repeat destruct Hx as [<-|Hx]; try contradiction; unfold eso_number, eso_name; cbn [fst snd];
             match goal with |- arm_private _ ?m _ => ring_simplify m end; constructor.
        -- destruct (ver_geb v [4;15]) eqn:Ev; [|contradiction]. apply since_iff in Ev.
           destruct Hx as [<-|[]]. unfold eso_number, eso_name; cbn [fst snd].
           match goal with |- arm_private _ ?m _ => ring_simplify m end. now constructor.
      * intros (_ & base & Hb & Hp). assert (base = z) by (eapply number_base_fun; eassumption). subst base.
        remember (n - z) as m eqn:Em. assert (n = z + m) by lia. subst n. clear Em.
        destruct Hp as [| | | | |Hs].
        1-5: (eexists; split; [apply in_or_app; left; cbn [In]|split]).
        { left; reflexivity. } { unfold eso_number; cbn; lia. } { reflexivity. }
        { right; left; reflexivity. } { unfold eso_number; cbn; lia. } { reflexivity. }
        { do 2 right; left; reflexivity. } { unfold eso_number; cbn; lia. } { reflexivity. }
        { do 3 right; left; reflexivity. } { unfold eso_number; cbn; lia. } { reflexivity. }
        { do 4 right; left; reflexivity. } { unfold eso_number; cbn; lia. } { reflexivity. }
        apply since_iff in Hs. rewrite Hs.
        eexists; split; [apply in_or_app; right; left; reflexivity|].
        split; [unfold eso_number; cbn; lia|reflexivity].
  - split; [constructor|]. split; [intros x []|]. intros n name. split.
    + intros (x & [] & _).
    + intros (Hf & _). apply fun_present_iff in Hf. congruence.
Qed.
Lemma no_esoteric a e : a_class a <> KArm -> a_class a <> KPowerPC -> extract_esoteric_syscalls a e = Ok [].
Proof. unfold extract_esoteric_syscalls. destruct (a_class a); congruence. Qed.
