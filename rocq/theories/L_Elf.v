(** Lemmas about the model of elf.py *)
From Coq Require Import List Bool Ascii String ZArith Lia ZifyBool ZifyNat Permutation.
From Verif Require Import PyBase PyFacts Regex RegexFacts M_Elf S_Elf.
Import ListNotations.
Open Scope Z_scope.
Open Scope list_scope.

(** ** Header *)

Lemma file_read_at (pre x post : bytes) off n :
  len pre = off -> len x = n -> file_read (pre ++ x ++ post) off n = x.
Proof.
  intros H1 H2. unfold file_read. pose proof (len_nonneg x). destruct (n <? 0) eqn:E; [lia|].
  unfold len in *. subst. rewrite !Nat2Z.id. rewrite skipn_app_exact. apply firstn_app_exact.
Qed.

Lemma len_enc e n z : len (enc_uint e n z) = Z.of_nat n.
Proof. unfold len. now rewrite enc_uint_length. Qed.

Lemma unpack_enc e n z : 0 <= z < 256 ^ Z.of_nat n -> unpack_u e (Z.of_nat n) (enc_uint e n z) = Ok z.
Proof. intros. unfold unpack_u. rewrite len_enc, Z.eqb_refl. now rewrite uint_of_enc. Qed.

Definition head6 (h : header) : bytes :=
  [chr 127; "E"%char; "L"%char; "F"%char;
   chr (if h_64 h then 2 else 1); chr (if h_big h then 2 else 1)].

(** The 4 bytes at offset 0x24: what is read as e_flags. *)
Lemma elf_ident_header h rest : header_ok h ->
  elf_ident (encode_header h ++ rest) =
  Ok (negb (h_64 h), h_big h, h_machine h,
      if h_64 h then
        uint_of (h_big h) (file_read (enc_uint (h_big h) 8 (h_phoff h)) 4 4)
      else h_flags h).
Proof.
  intros (Hp & Ht & Hm & Hv & Hf & Hw). unfold elf_ident.
  assert (encode_header h = head6 h ++ h_pad h ++ enc_uint (h_big h) 2 (h_type h) ++
    enc_uint (h_big h) 2 (h_machine h) ++ enc_uint (h_big h) 4 (h_version h) ++
    (let w := if h_64 h then 8%nat else 4%nat in
     enc_uint (h_big h) w (h_entry h) ++ enc_uint (h_big h) w (h_phoff h) ++
     enc_uint (h_big h) w (h_shoff h) ++ enc_uint (h_big h) 4 (h_flags h))) as -> by reflexivity.
  assert (file_read ((head6 h ++ h_pad h ++ enc_uint (h_big h) 2 (h_type h) ++
    enc_uint (h_big h) 2 (h_machine h) ++ enc_uint (h_big h) 4 (h_version h) ++
    (let w := if h_64 h then 8%nat else 4%nat in
     enc_uint (h_big h) w (h_entry h) ++ enc_uint (h_big h) w (h_phoff h) ++
     enc_uint (h_big h) w (h_shoff h) ++ enc_uint (h_big h) 4 (h_flags h))) ++ rest) 0 6 = head6 h) as ->.
  { rewrite <- app_assoc. apply (file_read_at []); reflexivity. }
  change (len (head6 h) =? 6) with true. cbn [negb].
  assert (uint_of false (slice (head6 h) 4 5) = if h_64 h then 2 else 1) as ->
    by (unfold head6; destruct (h_64 h), (h_big h); reflexivity).
  assert (uint_of false (slice (head6 h) 5 6) = if h_big h then 2 else 1) as ->
    by (unfold head6; destruct (h_64 h), (h_big h); reflexivity).
  replace ((if h_64 h then 2 else 1) =? 1) with (negb (h_64 h)) by (destruct (h_64 h); reflexivity).
  replace ((if h_64 h then 2 else 1) =? 2) with (h_64 h) by (destruct (h_64 h); reflexivity).
  replace ((if h_big h then 2 else 1) =? 1) with (negb (h_big h)) by (destruct (h_big h); reflexivity).
  replace ((if h_big h then 2 else 1) =? 2) with (h_big h) by (destruct (h_big h); reflexivity).
  replace (bind (if negb (h_64 h) then Ok true else if h_64 h then Ok false else Exit 1))
    with (@bind bool (bool * bool * Z * Z) (Ok (negb (h_64 h)))) by (destruct (h_64 h); reflexivity).
  cbn [bind].
  replace (bind (if negb (h_big h) then Ok false else if h_big h then Ok true else Exit 1))
    with (@bind bool (bool * bool * Z * Z) (Ok (h_big h))) by (destruct (h_big h); reflexivity).
  cbn [bind]. cbv zeta.
  match goal with |- context [file_read ?F 18 2] => set (file := F) end.
  assert (file_read file 18 2 = enc_uint (h_big h) 2 (h_machine h)) as ->.
  { subst file.
    replace (_ ++ rest) with ((head6 h ++ h_pad h ++ enc_uint (h_big h) 2 (h_type h)) ++
       enc_uint (h_big h) 2 (h_machine h) ++ (enc_uint (h_big h) 4 (h_version h) ++
      (let w := if h_64 h then 8%nat else 4%nat in
       enc_uint (h_big h) w (h_entry h) ++ enc_uint (h_big h) w (h_phoff h) ++
       enc_uint (h_big h) w (h_shoff h) ++ enc_uint (h_big h) 4 (h_flags h))) ++ rest)
      by (rewrite <- !app_assoc; reflexivity).
    apply file_read_at; [|now rewrite len_enc].
    rewrite !len_app, Hp, len_enc. reflexivity. }
  change 2 with (Z.of_nat 2) at 1. rewrite unpack_enc by exact Hm. cbn [bind].
  unfold u16, u32, u64 in *.
  destruct (h_64 h) eqn:E64; subst file; cbv zeta; cbn [negb].
  - assert (exists a b, enc_uint (h_big h) 8 (h_phoff h) = a ++ b /\ len a = 4 /\ len b = 4) as (a & b & E & La & Lb).
    { exists (firstn 4 (enc_uint (h_big h) 8 (h_phoff h))), (skipn 4 (enc_uint (h_big h) 8 (h_phoff h))).
      split; [symmetry; apply firstn_skipn|]. unfold len.
      rewrite firstn_length, skipn_length, enc_uint_length. split; reflexivity. }
    rewrite E.
    assert (file_read (a ++ b) 4 4 = b) as ->.
    { pose proof (file_read_at a b [] 4 4 La Lb) as H. now rewrite app_nil_r in H. }
    match goal with |- context [file_read ?F 36 4] =>
      assert (file_read F 36 4 = b) as -> end.
    { replace (_ ++ rest) with ((head6 h ++ h_pad h ++ enc_uint (h_big h) 2 (h_type h) ++
         enc_uint (h_big h) 2 (h_machine h) ++ enc_uint (h_big h) 4 (h_version h) ++
         enc_uint (h_big h) 8 (h_entry h) ++ a) ++ b ++
         enc_uint (h_big h) 8 (h_shoff h) ++ enc_uint (h_big h) 4 (h_flags h) ++ rest)
      by (rewrite <- !app_assoc; reflexivity).
      apply file_read_at; [|exact Lb]. rewrite !len_app, Hp, !len_enc, La. reflexivity. }
    unfold unpack_u. rewrite Lb. reflexivity.
  - match goal with |- context [file_read ?F 36 4] =>
      assert (file_read F 36 4 = enc_uint (h_big h) 4 (h_flags h)) as -> end.
    { replace (_ ++ rest) with ((head6 h ++ h_pad h ++ enc_uint (h_big h) 2 (h_type h) ++
         enc_uint (h_big h) 2 (h_machine h) ++ enc_uint (h_big h) 4 (h_version h) ++
         enc_uint (h_big h) 4 (h_entry h) ++ enc_uint (h_big h) 4 (h_phoff h) ++
         enc_uint (h_big h) 4 (h_shoff h)) ++ enc_uint (h_big h) 4 (h_flags h) ++ rest)
      by (rewrite <- !app_assoc; reflexivity).
      apply file_read_at; [|now rewrite len_enc]. rewrite !len_app, Hp, !len_enc. reflexivity. }
    change 4 with (Z.of_nat 4) at 1. rewrite unpack_enc by exact Hf. reflexivity.
Qed.

Lemma le_bytes_app m n z : le_bytes (m + n) z = le_bytes m z ++ le_bytes n (z / 256 ^ Z.of_nat m).
Proof.
  revert z; induction m as [|m IH]; intros z.
  - cbn. now rewrite Z.div_1_r.
  - cbn [Nat.add le_bytes app]. rewrite IH. f_equal. f_equal. f_equal.
    rewrite Z.div_div by (try apply Z.pow_pos_nonneg; lia). f_equal.
    rewrite Nat2Z.inj_succ, Z.pow_succ_r by lia. lia.
Qed.

Lemma phoff_half e p : u64 p ->
  uint_of e (file_read (enc_uint e 8 p) 4 4) = if e then p mod 2 ^ 32 else p / 2 ^ 32.
Proof.
  intros Hp. unfold u64 in Hp. unfold enc_uint. change (le_bytes 8 p) with (le_bytes (4 + 4) p). rewrite (le_bytes_app 4 4 p).
  change (256 ^ Z.of_nat 4) with (2 ^ 32).
  assert (L : forall z, len (le_bytes 4 z) = 4) by (intros; unfold len; now rewrite le_bytes_length).
  assert (0 <= p / 2 ^ 32 < 2 ^ 32).
  { split; [apply Z.div_pos; lia|]. apply Z.div_lt_upper_bound; lia. }
  destruct e.
  - rewrite rev_app_distr. 
    rewrite <- (app_nil_r (rev (le_bytes 4 p))), file_read_at; [|rewrite len_rev; apply L|rewrite len_rev; apply L].
    unfold uint_of. rewrite rev_involutive.
    assert (M : forall z, le_bytes 4 (z mod 2 ^ 32) = le_bytes 4 z).
    { intros z. set (q := z / 2 ^ 32). set (r := z mod 2 ^ 32).
      assert (z = 2 ^ 32 * q + r) by (apply Z.div_mod; lia).
      assert (0 <= r < 2 ^ 32) by (apply Z.mod_pos_bound; lia). clearbody q r. subst z.
      cbn [le_bytes]. 
      replace ((2 ^ 32 * q + r) / 256) with (2 ^ 24 * q + r / 256)
        by (replace (2 ^ 32 * q + r) with (r + (2 ^ 24 * q) * 256) by lia; rewrite Z.div_add by lia; lia).
      replace ((2 ^ 24 * q + r / 256) / 256) with (2 ^ 16 * q + r / 256 / 256)
        by (replace (2 ^ 24 * q + r / 256) with (r / 256 + (2 ^ 16 * q) * 256) by lia; rewrite Z.div_add by lia; lia).
      replace ((2 ^ 16 * q + r / 256 / 256) / 256) with (2 ^ 8 * q + r / 256 / 256 / 256)
        by (replace (2 ^ 16 * q + r / 256 / 256) with (r / 256 / 256 + (2 ^ 8 * q) * 256) by lia; rewrite Z.div_add by lia; lia).
      replace ((2 ^ 32 * q + r) mod 256) with (r mod 256)
        by (replace (2 ^ 32 * q + r) with (r + (2 ^ 24 * q) * 256) by lia; rewrite Z.mod_add by lia; lia).
      replace ((2 ^ 24 * q + r / 256) mod 256) with ((r / 256) mod 256)
        by (replace (2 ^ 24 * q + r / 256) with (r / 256 + (2 ^ 16 * q) * 256) by lia; rewrite Z.mod_add by lia; lia).
      replace ((2 ^ 16 * q + r / 256 / 256) mod 256) with ((r / 256 / 256) mod 256)
        by (replace (2 ^ 16 * q + r / 256 / 256) with (r / 256 / 256 + (2 ^ 8 * q) * 256) by lia; rewrite Z.mod_add by lia; lia).
      replace ((2 ^ 8 * q + r / 256 / 256 / 256) mod 256) with ((r / 256 / 256 / 256) mod 256)
        by (replace (2 ^ 8 * q + r / 256 / 256 / 256) with (r / 256 / 256 / 256 + q * 256) by lia; rewrite Z.mod_add by lia; lia).
      reflexivity. }
    rewrite <- M. apply le_val_le_bytes. change (256 ^ Z.of_nat 4) with (2 ^ 32). apply Z.mod_pos_bound. lia.
  - rewrite <- (app_nil_r (le_bytes 4 (p / 2 ^ 32))).
    rewrite file_read_at; [|apply L|apply L]. unfold uint_of. now apply le_val_le_bytes.
Qed.

Lemma elf32_ident h rest : header_ok h -> h_64 h = false ->
  elf_ident (encode_header h ++ rest) = Ok (true, h_big h, h_machine h, h_flags h).
Proof. intros H E. rewrite elf_ident_header by assumption. now rewrite E. Qed.

Lemma elf64_ident h rest : header_ok h -> h_64 h = true ->
  elf_ident (encode_header h ++ rest) =
  Ok (false, h_big h, h_machine h,
      if h_big h then h_phoff h mod 2 ^ 32 else h_phoff h / 2 ^ 32).
Proof.
  intros H E. rewrite elf_ident_header by assumption. rewrite E.
  rewrite phoff_half; [reflexivity|]. destruct H as (_ & _ & _ & _ & _ & Hw). rewrite E in Hw. apply Hw.
Qed.

Lemma elf64_flags_bug : exists h,
  header_ok h /\ h_64 h = true /\
  forall rest, elf_ident (encode_header h ++ rest) <> Ok (negb (h_64 h), h_big h, h_machine h, h_flags h).
Proof.
  exists (Header true true (repeat NL 10) 2 21 1 0 64 1000 2).
  split; [|split; [reflexivity|]].
  - repeat split; cbn; lia.
  - intros rest. rewrite elf64_ident; [|repeat split; cbn; lia|reflexivity]. discriminate.
Qed.

Lemma elf_bad_class m1 m2 m3 m4 cl d rest :
  (code cl <> 1 /\ code cl <> 2) \/ (code d <> 1 /\ code d <> 2) ->
  elf_ident (m1 :: m2 :: m3 :: m4 :: cl :: d :: rest) = Exit 1.
Proof.
  intros H. unfold elf_ident.
  change (file_read (m1 :: m2 :: m3 :: m4 :: cl :: d :: rest) 0 6) with [m1; m2; m3; m4; cl; d].
  change (len [m1; m2; m3; m4; cl; d] =? 6) with true. cbn [negb]. cbv zeta.
  change (slice [m1; m2; m3; m4; cl; d] 4 5) with [cl].
  change (slice [m1; m2; m3; m4; cl; d] 5 6) with [d].
  unfold uint_of. cbn [le_val].
  replace (code cl + 256 * 0) with (code cl) by lia. replace (code d + 256 * 0) with (code d) by lia.
  destruct (code cl =? 1) eqn:E1, (code cl =? 2) eqn:E2, (code d =? 1) eqn:E3, (code d =? 2) eqn:E4;
    cbn [bind]; try reflexivity; lia.
Qed.

Lemma elf_short file : len file < 6 -> elf_ident file = Raise StructError.
Proof.
  intros H. unfold elf_ident. replace (file_read file 0 6) with file.
  - destruct (len file =? 6) eqn:E; [lia|reflexivity].
  - unfold file_read. cbn [Z.to_nat skipn Z.ltb Z.compare]. symmetry. apply firstn_all2. unfold len in H. lia.
Qed.

(** ** Addresses *)

Lemma vaddr_to_off_Ok secs v off : vaddr_to_off secs v = Ok off ->
  exists s1 s s2, secs = s1 ++ s :: s2 /\ in_section s v = true /\
    off = sec_off s + (v - sec_vaddr s) /\ forall t, In t s1 -> in_section t v = false.
Proof.
  induction secs as [|s secs IH]; cbn; [discriminate|].
  destruct (in_section s v) eqn:E.
  - intros [= <-]. exists [], s, secs. split; [reflexivity|]. split; [exact E|]. split; [lia|]. intros ? [].
  - intros H. apply IH in H as (s1 & s0 & s2 & -> & H1 & H2 & H3).
    exists (s :: s1), s0, s2. split; [reflexivity|]. split; [exact H1|]. split; [exact H2|].
    intros t [<-|Ht]; auto.
Qed.

Lemma vaddr_to_off_fail secs v :
  (forall s, In s secs -> in_section s v = false) -> vaddr_to_off secs v = Raise ValueError.
Proof.
  induction secs as [|s secs IH]; intros H; cbn; [reflexivity|].
  rewrite (H s (or_introl eq_refl)). apply IH. intros t Ht. apply H. now right.
Qed.

Lemma vaddr_to_off_first s1 s s2 v : in_section s v = true ->
  (forall t, In t s1 -> in_section t v = false) ->
  vaddr_to_off (s1 ++ s :: s2) v = Ok (sec_off s + (v - sec_vaddr s)).
Proof.
  intros Hs. induction s1 as [|t s1 IH]; intros H; cbn.
  - rewrite Hs. f_equal. lia.
  - rewrite (H t (or_introl eq_refl)). apply IH. intros u Hu. apply H. now right.
Qed.

Definition covers (s : section) (v : Z) : Prop := sec_vaddr s <= v < sec_vaddr s + sec_size s.
Lemma in_section_iff s v : in_section s v = true <-> covers s v.
Proof. unfold in_section, covers. lia. Qed.

Lemma vaddr_off_iff e v :
  (exists off, vaddr_to_file_offset e v = Ok off) <->
  exists s, In s (dvalues (e_sections e)) /\ sec_vaddr s <= v < sec_vaddr s + sec_size s.
Proof.
  unfold vaddr_to_file_offset. split.
  - intros [off H]. apply vaddr_to_off_Ok in H as (s1 & s & s2 & -> & H & _).
    exists s. split; [apply in_or_app; right; now left|]. now apply in_section_iff.
  - intros (s & Hs & Hv). destruct (vaddr_to_off (dvalues (e_sections e)) v) eqn:E; eauto; exfalso.
    1: { assert (forall s, In s (dvalues (e_sections e)) -> in_section s v = false \/ True) by auto.
         revert E Hs. generalize (dvalues (e_sections e)). clear - Hv.
         induction l as [|t l IH]; cbn; [intros _ []|]. destruct (in_section t v) eqn:Et; [discriminate|].
         intros H [->|Hs]; [apply in_section_iff in Hv; congruence|auto]. }
    all: revert E; generalize (dvalues (e_sections e)); clear; intros l; induction l as [|t l IH]; cbn; [discriminate|];
      destruct (in_section t v); [discriminate|exact IH].
Qed.

Lemma vaddr_off_value e v off : vaddr_to_file_offset e v = Ok off ->
  exists s, In s (dvalues (e_sections e)) /\ sec_vaddr s <= v < sec_vaddr s + sec_size s /\
            off = sec_off s + (v - sec_vaddr s).
Proof.
  intros H. apply vaddr_to_off_Ok in H as (s1 & s & s2 & -> & H & -> & _).
  exists s. split; [apply in_or_app; right; now left|]. split; [now apply in_section_iff|reflexivity].
Qed.

Lemma vaddr_off_disjoint e v s :
  (forall a b w, In a (dvalues (e_sections e)) -> In b (dvalues (e_sections e)) ->
     sec_vaddr a <= w < sec_vaddr a + sec_size a -> sec_vaddr b <= w < sec_vaddr b + sec_size b -> a = b) ->
  In s (dvalues (e_sections e)) -> sec_vaddr s <= v < sec_vaddr s + sec_size s ->
  vaddr_to_file_offset e v = Ok (sec_off s + (v - sec_vaddr s)).
Proof.
  intros Hd Hs Hv. destruct (proj2 (vaddr_off_iff e v)) as [off Ho]; [eauto|].
  unfold vaddr_to_file_offset in *. rewrite Ho. apply vaddr_to_off_Ok in Ho as (s1 & t & s2 & E & Ht & -> & _).
  assert (t = s) as ->; [|reflexivity].
  apply (Hd t s v); auto; [|now apply in_section_iff]. rewrite E. apply in_or_app. right. now left.
Qed.

Lemma vaddr_off_order e1 e2 v :
  Permutation (dvalues (e_sections e1)) (dvalues (e_sections e2)) ->
  (forall a b w, In a (dvalues (e_sections e1)) -> In b (dvalues (e_sections e1)) ->
     sec_vaddr a <= w < sec_vaddr a + sec_size a -> sec_vaddr b <= w < sec_vaddr b + sec_size b -> a = b) ->
  vaddr_to_file_offset e1 v = vaddr_to_file_offset e2 v.
Proof.
  intros P Hd.
  assert (Hd2 : forall a b w, In a (dvalues (e_sections e2)) -> In b (dvalues (e_sections e2)) ->
     sec_vaddr a <= w < sec_vaddr a + sec_size a -> sec_vaddr b <= w < sec_vaddr b + sec_size b -> a = b).
  { intros a b w Ha Hb. apply Hd; eapply Permutation_in; try (apply Permutation_sym, P); assumption. }
  destruct (existsb (fun s => in_section s v) (dvalues (e_sections e1))) eqn:E.
  - apply existsb_exists in E as (s & Hs & Hv). apply in_section_iff in Hv.
    rewrite (vaddr_off_disjoint e1 v s), (vaddr_off_disjoint e2 v s); auto.
    eapply Permutation_in; eassumption.
  - assert (N1 : forall s, In s (dvalues (e_sections e1)) -> in_section s v = false).
    { intros s Hs. destruct (in_section s v) eqn:Ev; [|reflexivity].
      assert (existsb (fun s => in_section s v) (dvalues (e_sections e1)) = true)
        by (apply existsb_exists; eauto). congruence. }
    unfold vaddr_to_file_offset. rewrite !vaddr_to_off_fail; auto.
    intros s Hs. apply N1. eapply Permutation_in; [apply Permutation_sym, P|assumption].
Qed.

Lemma vaddr_off_outside e v :
  (forall s, In s (dvalues (e_sections e)) -> ~ (sec_vaddr s <= v < sec_vaddr s + sec_size s)) ->
  vaddr_to_file_offset e v = Raise ValueError.
Proof.
  intros H. apply vaddr_to_off_fail. intros s Hs. specialize (H s Hs). unfold in_section. lia.
Qed.

Lemma vaddr_read_bytes e v n pre x post :
  vaddr_to_file_offset e v = Ok (len pre) -> e_file e = pre ++ x ++ post -> len x = n ->
  vaddr_read e v n = Ok x.
Proof.
  intros H E L. unfold vaddr_read. rewrite H. cbn [bind]. rewrite E, file_read_at; auto.
Qed.

Lemma vaddr_read_outside e v n :
  (forall s, In s (dvalues (e_sections e)) -> ~ (sec_vaddr s <= v < sec_vaddr s + sec_size s)) ->
  vaddr_read e v n = Raise ValueError.
Proof. intros H. unfold vaddr_read. now rewrite vaddr_off_outside. Qed.

(** A read that reaches the end of the file is shorter. *)
Lemma vaddr_read_short e v n pre x :
  vaddr_to_file_offset e v = Ok (len pre) -> e_file e = pre ++ x -> len x <= n ->
  vaddr_read e v n = Ok x.
Proof.
  intros H E L. unfold vaddr_read. rewrite H. cbn [bind]. rewrite E. unfold file_read.
  pose proof (len_nonneg x). destruct (n <? 0) eqn:F; [lia|]. unfold len in *.
  rewrite Nat2Z.id, skipn_app_exact. rewrite firstn_all2; [reflexivity|lia].
Qed.

(** ** Strings *)

Lemma read_to_nul_found acc s post : ~ In (chr 0) s ->
  read_to_nul (s ++ chr 0 :: post) acc = Ok (rev acc ++ s).
Proof.
  revert acc; induction s as [|c s IH]; intros acc Hn; cbn [app read_to_nul].
  - change (code (chr 0) =? 0) with true. cbn. now rewrite app_nil_r.
  - destruct (code c =? 0) eqn:E.
    + exfalso. apply Hn. left. apply code_inj. change (code (chr 0)) with 0. lia.
    + rewrite IH; [|intros H; apply Hn; now right]. cbn [rev]. now rewrite <- app_assoc.
Qed.

Lemma read_to_nul_missing acc s : ~ In (chr 0) s -> s <> [] \/ acc <> [] -> read_to_nul s acc = Diverge.
Proof.
  revert acc; induction s as [|c s IH]; intros acc Hn H; cbn [read_to_nul].
  - destruct acc; [destruct H; congruence|reflexivity].
  - destruct (code c =? 0) eqn:E.
    + exfalso. apply Hn. left. apply code_inj. change (code (chr 0)) with 0. lia.
    + apply IH; [intros H1; apply Hn; now right|]. right. discriminate.
Qed.

Lemma nul_split (s : bytes) : (exists a b, s = a ++ chr 0 :: b /\ ~ In (chr 0) a) \/ ~ In (chr 0) s.
Proof.
  induction s as [|c s IH]; [right; auto|].
  destruct (Ascii.eqb c (chr 0)) eqn:E.
  - apply ascii_eqb_eq in E. subst. left. exists [], s. auto.
  - assert (c <> chr 0) by (intros ->; rewrite ascii_eqb_refl in E; discriminate).
    destruct IH as [(a & b & -> & Ha)|Hn].
    + left. exists (c :: a), b. split; [reflexivity|]. intros [?|?]; [congruence|auto].
    + right. intros [?|?]; [congruence|auto].
Qed.

Lemma read_string_found e v pre s post :
  vaddr_to_file_offset e v = Ok (len pre) ->
  e_file e = pre ++ s ++ chr 0 :: post -> ~ In (chr 0) s ->
  vaddr_read_string e v = Ok s.
Proof.
  intros H E Hn. unfold vaddr_read_string. rewrite H. cbn [bind]. rewrite E.
  unfold len. rewrite Nat2Z.id, skipn_app_exact. now rewrite read_to_nul_found.
Qed.

Lemma read_string_Ok e v s : vaddr_read_string e v = Ok s ->
  exists off post, vaddr_to_file_offset e v = Ok off /\ ~ In (chr 0) s /\
    skipn (Z.to_nat off) (e_file e) = s ++ chr 0 :: post.
Proof.
  unfold vaddr_read_string. intros H. apply bind_Ok in H as (off & H1 & H2).
  destruct (nul_split (skipn (Z.to_nat off) (e_file e))) as [(a & b & E & Ha)|Hn].
  - rewrite E, read_to_nul_found in H2 by assumption. injection H2 as <-. eauto.
  - destruct (skipn (Z.to_nat off) (e_file e)) as [|c l] eqn:E; [discriminate|].
    rewrite read_to_nul_missing in H2; [discriminate|assumption|left; discriminate].
Qed.

Lemma read_string_diverges e v pre s :
  vaddr_to_file_offset e v = Ok (len pre) -> e_file e = pre ++ s -> s <> [] -> ~ In (chr 0) s ->
  vaddr_read_string e v = Diverge.
Proof.
  intros H E Hne Hn. unfold vaddr_read_string. rewrite H. cbn [bind]. rewrite E.
  unfold len. rewrite Nat2Z.id, skipn_app_exact. apply read_to_nul_missing; auto.
Qed.

Definition tiny_elf : elf :=
  Elf $"abc" true false EM_386 0 [($".rodata", Section_ $".rodata" 4096 0 3)] [] [].
Lemma read_string_diverges_ex : exists e v, vaddr_read_string e v = Diverge.
Proof. exists tiny_elf, 4097. reflexivity. Qed.

(** ** next_symbol *)

Lemma next_symbol_None e s : next_symbol e s = None <->
  forall x, In x (dvalues (e_symbols e)) -> sym_real x <= sym_real s.
Proof.
  unfold next_symbol. destruct (filter _ _) as [|c cs] eqn:E.
  - split; [|reflexivity]. intros _ x Hx.
    destruct (sym_real s <? sym_real x) eqn:Ex; [|lia].
    assert (In x (filter (fun x => sym_real s <? sym_real x) (dvalues (e_symbols e)))) as Hin
      by (apply filter_In; auto). rewrite E in Hin. destruct Hin.
  - split; [discriminate|]. intros H.
    assert (In c (filter (fun x => sym_real s <? sym_real x) (dvalues (e_symbols e)))) as Hin
      by (rewrite E; now left).
    apply filter_In in Hin as [Hin Hc]. specialize (H c Hin). lia.
Qed.

Lemma next_symbol_Some e s r : next_symbol e s = Some r ->
  In r (dvalues (e_symbols e)) /\ sym_real s < sym_real r /\
  forall x, In x (dvalues (e_symbols e)) -> sym_real s < sym_real x -> sym_vaddr r <= sym_vaddr x.
Proof.
  unfold next_symbol. destruct (filter _ _) as [|c cs] eqn:E; [discriminate|]. intros [= <-].
  assert (In (min_by sym_vaddr c cs) (c :: cs)) as Hin by apply min_by_in.
  rewrite <- E in Hin. apply filter_In in Hin as [Hin Hc]. split; [exact Hin|]. split; [lia|].
  intros x Hx Hlt. apply min_by_le. rewrite <- E. apply filter_In. split; [exact Hx|lia].
Qed.

(** Real address of a parsed symbol. *)
Lemma real_vaddr_thumb m t v : 0 <= v < 2 ^ 32 -> m = EM_ARM -> t = $"FUNC" -> Z.odd v = true ->
  real_vaddr_of m t v = v - 1.
Proof.
  intros Hv -> -> Ho. unfold real_vaddr_of. rewrite Ho. change (EM_ARM =? EM_ARM) with true.
  rewrite str_eqb_refl. cbn [andb].
  replace (v - 1) with (2 * (v / 2)).
  2: { rewrite Zodd_mod in Ho. pose proof (Z.div_mod v 2). unfold Zeq_bool in Ho.
       destruct (v mod 2 ?= 1) eqn:E; try discriminate. apply Z.compare_eq in E. lia. }
  apply Z.bits_inj'. intros n Hn. rewrite Z.land_spec.
  destruct (Z.eq_dec n 0) as [->|Hn0].
  - rewrite Z.testbit_even_0. change (Z.testbit 4294967294 0) with false. apply andb_false_r.
  - replace n with (Z.succ (n - 1)) by lia. rewrite Z.testbit_even_succ by lia.
    change 2 with (2 ^ 1) at 1. rewrite <- Z.shiftr_div_pow2, Z.shiftr_spec by lia.
    replace (n - 1 + 1) with (Z.succ (n - 1)) by lia.
    change 4294967294 with (2 * Z.ones 31). rewrite Z.testbit_even_succ by lia.
    rewrite Z.testbit_ones by lia.
    destruct (n - 1 <? 31) eqn:E.
    + replace (0 <=? n - 1) with true by lia. apply andb_true_r.
    + rewrite !andb_false_r. symmetry. apply Z.bits_above_log2; [lia|].
      destruct (Z.eq_dec v 0) as [->|]; [cbn; lia|].
      assert (Z.log2 v < 32) by (apply Z.log2_lt_pow2; lia). lia.
Qed.

Lemma real_vaddr_other m t v : m <> EM_ARM \/ t <> $"FUNC" \/ Z.odd v = false ->
  real_vaddr_of m t v = v.
Proof.
  intros H. unfold real_vaddr_of.
  destruct (m =? EM_ARM) eqn:E1; cbn [andb]; [|reflexivity].
  destruct (str_eqb t $"FUNC") eqn:E2; cbn [andb]; [|reflexivity].
  destruct (Z.odd v) eqn:E3; [|reflexivity].
  apply str_eqb_eq in E2. destruct H as [H|[H|H]]; [lia|contradiction|discriminate].
Qed.

Lemma real_vaddr_code m t v : 0 <= v -> (m = arm_machine -> v < 2 ^ 32) ->
  real_vaddr_of m t v = code_address m t v.
Proof.
  intros Hv H. unfold code_address. change arm_machine with EM_ARM in *.
  destruct ((m =? EM_ARM) && str_eqb t $"FUNC" && Z.odd v) eqn:E.
  - apply andb_prop in E as [E E3]. apply andb_prop in E as [E1 E2]. apply str_eqb_eq in E2.
    assert (m = EM_ARM) by lia. apply real_vaddr_thumb; auto.
  - unfold real_vaddr_of. now rewrite E.
Qed.

Lemma code_address_close m t v : code_address m t v = v \/ code_address m t v = v - 1.
Proof. unfold code_address. destruct (_ && _ && _); auto. Qed.

Lemma next_symbol_nearest e s r :
  (forall x, In x (dvalues (e_symbols e)) -> sym_real x = sym_vaddr x) ->
  next_symbol e s = Some r ->
  In r (dvalues (e_symbols e)) /\ sym_real s < sym_real r /\
  forall x, In x (dvalues (e_symbols e)) -> ~ (sym_real s < sym_real x < sym_real r).
Proof.
  intros Hv H. apply next_symbol_Some in H as (H1 & H2 & H3). split; [exact H1|]. split; [exact H2|].
  intros x Hx [Ha Hb]. specialize (H3 x Hx Ha). rewrite (Hv x Hx), (Hv r H1) in Hb. lia.
Qed.

Lemma next_symbol_near e s r m :
  (forall x, In x (dvalues (e_symbols e)) -> sane_symbol m x) ->
  next_symbol e s = Some r ->
  In r (dvalues (e_symbols e)) /\ sym_real s < sym_real r /\
  forall x, In x (dvalues (e_symbols e)) -> sym_real s < sym_real x -> sym_real r <= sym_real x + 1.
Proof.
  intros Hv H. apply next_symbol_Some in H as (H1 & H2 & H3). split; [exact H1|]. split; [exact H2|].
  intros x Hx Ha. specialize (H3 x Hx Ha).
  destruct (Hv x Hx) as (A1 & A2 & A3). destruct (Hv r H1) as (B1 & B2 & B3).
  destruct (code_address_close m (sym_type x) (sym_vaddr x));
  destruct (code_address_close m (sym_type r) (sym_vaddr r)); lia.
Qed.

(** Exactly when the returned symbol is not the nearest. *)
Lemma next_symbol_miss e s r x m :
  (forall x, In x (dvalues (e_symbols e)) -> sane_symbol m x) ->
  next_symbol e s = Some r -> In x (dvalues (e_symbols e)) ->
  sym_real s < sym_real x < sym_real r ->
  m = arm_machine /\ sym_type x = $"FUNC" /\ sym_vaddr x = sym_vaddr r /\ Z.odd (sym_vaddr r) = true /\
  sym_type r <> $"FUNC" /\ sym_real x = sym_vaddr r - 1 /\ sym_real r = sym_vaddr r.
Proof.
  intros Hv H Hx [Ha Hb]. apply next_symbol_Some in H as (H1 & H2 & H3). specialize (H3 x Hx Ha).
  destruct (Hv x Hx) as (A1 & A2 & A3). destruct (Hv r H1) as (B1 & B2 & B3).
  destruct (code_address_close m (sym_type x) (sym_vaddr x)) as [Ex|Ex];
  destruct (code_address_close m (sym_type r) (sym_vaddr r)) as [Er|Er]; try lia.
  assert (sym_vaddr x = sym_vaddr r) as Ev by lia.
  assert (D : m = arm_machine /\ sym_type x = $"FUNC" /\ Z.odd (sym_vaddr x) = true).
  { unfold code_address in Ex. destruct (m =? arm_machine) eqn:E1; cbn [andb] in Ex; [|lia].
    destruct (str_eqb (sym_type x) $"FUNC") eqn:E2; cbn [andb] in Ex; [|lia].
    destruct (Z.odd (sym_vaddr x)); [|lia]. apply str_eqb_eq in E2. split; [lia|]. auto. }
  destruct D as (D1 & D2 & D3). rewrite <- Ev. repeat split; auto; try lia.
  intros Ht. unfold code_address in Er. rewrite D1, Ht, <- Ev, D3 in Er.
  rewrite Z.eqb_refl, str_eqb_refl in Er. cbn [andb] in Er. lia.
Qed.

Definition tie_elf : elf :=
  Elf [] true false EM_ARM 0 []
    [($"a", Symbol 4096 4096 0 $"FUNC" $"a");
     ($"data", Symbol 8193 8193 0 $"OBJECT" $"data");
     ($"thumb", Symbol 8193 8192 4 $"FUNC" $"thumb")] [].
Lemma next_symbol_tie : exists e s r x m,
  (forall x, In x (dvalues (e_symbols e)) -> sane_symbol m x) /\
  In s (dvalues (e_symbols e)) /\ In x (dvalues (e_symbols e)) /\
  next_symbol e s = Some r /\ sym_real s < sym_real x < sym_real r.
Proof.
  exists tie_elf, (Symbol 4096 4096 0 $"FUNC" $"a"), (Symbol 8193 8193 0 $"OBJECT" $"data"),
    (Symbol 8193 8192 4 $"FUNC" $"thumb"), EM_ARM.
  split; [|split; [|split; [|split]]].
  - intros x [<-|[<-|[<-|[]]]]; repeat split; cbn; lia.
  - now left.
  - right. right. now left.
  - reflexivity.
  - cbn. lia.
Qed.
