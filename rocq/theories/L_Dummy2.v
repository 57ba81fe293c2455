(** More lemmas about dummy syscalls and the PowerPC endian switch (C31, C33-C36). *)
From Coq Require Import List Bool Ascii String ZArith Lia ZifyBool ZifyNat.
From Verif Require Import PyBase PyFacts M_Utils S_Utils L_Utils M_Elf M_Syscall M_Arch S_Arch L_Arch S_Dummy L_Dummy.
Import ListNotations.
Open Scope Z_scope.
Open Scope list_scope.

(** * MIPS, ARM *)

Lemma two_bytes x y n : code x * 256 + code y = n -> x = chr (n / 256) /\ y = chr (n mod 256).
Proof.
  intros <-. pose proof (code_range x). pose proof (code_range y).
  rewrite Z.div_add_l by lia. rewrite Z.div_small by lia. rewrite Z.add_0_r, chr_code.
  split; [reflexivity|]. rewrite Z.add_comm, Z.mod_add by lia. rewrite Z.mod_small by lia. now rewrite chr_code.
Qed.
Lemma sint2 x y n : sint_of false [y; x] = n -> -32768 <= n < 0 -> code x * 256 + code y = n + 65536.
Proof.
  unfold sint_of, uint_of. cbn [le_val]. change (2 ^ (8 * len [y; x])) with 65536. change (65536 / 2) with 32768.
  pose proof (code_range x). pose proof (code_range y). destruct (_ <? _); lia.
Qed.
Lemma sint2_big x y : sint_of true [x; y] = sint_of false [y; x].
Proof. reflexivity. Qed.

Lemma mips_stub_dummy sym e c : read_symbol e sym = Ok c -> len c = sym_size sym -> mips_stub (e_big e) c ->
  mips_dummy sym e = Ok (Some c).
Proof.
  intros Hr Hl (err & He & ->). unfold mips_dummy. rewrite Hr, <- Hl. clear Hr Hl.
  cbn [In] in He. destruct He as [<-|[<-|[]]]; destruct (e_big e); vm_compute; reflexivity.
Qed.
Lemma mips_dummy_cases sym e c : read_symbol e sym = Ok c -> len c = sym_size sym ->
  mips_dummy sym e = Ok None \/ (mips_dummy sym e = Ok (Some c) /\ mips_stub (e_big e) c).
Proof.
  intros Hr Hl. unfold mips_dummy. destruct (sym_size sym =? 8) eqn:E8; cbn [negb]; [|auto].
  rewrite Hr. cbn [bind]. assert (H8 : len c = 8) by lia. clear Hr Hl E8.
  destruct (e_big e).
  - destruct (startswith c (bts [3; 224; 0; 8; 36; 2])) eqn:E1; [|auto].
    apply startswith_iff in E1 as [t ->]. 
    rewrite len_app in H8. change (len (bts [3; 224; 0; 8; 36; 2])) with 6 in H8. assert (len t = 2) as Ht by lia. clear H8.
    explode t Ht. match goal with |- context [slice_from ?a 6] => assert (slice_from a 6 = [x; x0]) as -> by reflexivity end.
    rewrite sint2_big.
    destruct (sint_of false [x0; x] =? -22) eqn:E2; [|destruct (sint_of false [x0; x] =? -89) eqn:E3]; cbn [orb]; [| |auto]; right.
    + split; [reflexivity|]. assert (E : sint_of false [x0; x] = -22) by lia. apply sint2 in E; [|lia]. apply two_bytes in E as [-> ->].
      exists EINVAL. split; [cbn; auto|]. reflexivity.
    + split; [reflexivity|]. assert (E : sint_of false [x0; x] = -89) by lia. apply sint2 in E; [|lia]. apply two_bytes in E as [-> ->].
      exists MIPS_ENOSYS. split; [cbn; auto|]. reflexivity.
  - destruct (startswith c (bts [8; 0; 224; 3])) eqn:E1; [|auto].
    destruct (endswith c (bts [2; 36])) eqn:E2; [|auto]. cbn [andb].
    apply startswith_iff in E1 as [t ->]. 
    rewrite len_app in H8. change (len (bts [8; 0; 224; 3])) with 4 in H8. assert (len t = 4) as Ht by lia. clear H8.
    explode t Ht. apply endswith_iff in E2 as [u E2].
    assert (x1 = chr 2 /\ x2 = chr 36) as [-> ->].
    { apply (f_equal (@rev ascii)) in E2. rewrite !rev_app_distr in E2. cbn [bts map rev app] in E2.
      injection E2 as -> ->. auto. }
    clear u E2. match goal with |- context [slice ?a 4 6] => assert (slice a 4 6 = [x; x0]) as -> by reflexivity end.
    destruct (sint_of false [x; x0] =? -22) eqn:E2; [|destruct (sint_of false [x; x0] =? -89) eqn:E3]; cbn [orb]; [| |auto]; right.
    + split; [reflexivity|]. assert (E : sint_of false [x; x0] = -22) by lia. apply sint2 in E; [|lia]. apply two_bytes in E as [-> ->].
      exists EINVAL. split; [cbn; auto|]. reflexivity.
    + split; [reflexivity|]. assert (E : sint_of false [x; x0] = -89) by lia. apply sint2 in E; [|lia]. apply two_bytes in E as [-> ->].
      exists MIPS_ENOSYS. split; [cbn; auto|]. reflexivity.
Qed.
Lemma mips_dummy_exact sym e c : read_symbol e sym = Ok c -> len c = sym_size sym ->
  (mips_stub (e_big e) c -> mips_dummy sym e = Ok (Some c)) /\ (~ mips_stub (e_big e) c -> mips_dummy sym e = Ok None).
Proof.
  intros Hr Hl. split; [now apply mips_stub_dummy|]. intros Hn. destruct (mips_dummy_cases _ _ _ Hr Hl) as [|[_ H]]; tauto.
Qed.

Lemma arm_dummy_exact sym e c : read_symbol e sym = Ok c -> len c = sym_size sym ->
  (arm_stub c -> arm_dummy sym e = Ok (Some c)) /\ (~ arm_stub c -> arm_dummy sym e = Ok None).
Proof.
  intros Hr Hl. unfold arm_dummy. split.
  - intros (err & He & ->). rewrite Hr, <- Hl. cbn [In] in He. destruct He as [<-|[<-|[]]]; vm_compute; reflexivity.
  - intros Hn. destruct (sym_size sym =? 6); cbn [negb]; [|reflexivity]. rewrite Hr. cbn [bind].
    destruct (bytes_in c _) eqn:E; [|reflexivity]. exfalso. apply Hn. apply bytes_in_iff in E. cbn [In] in E.
    destruct E as [<-|[<-|[]]]; [exists EINVAL|exists ENOSYS]; (split; [cbn; auto|reflexivity]).
Qed.

(** * PowerPC *)

Lemma land_split x d m y k : 0 <= k -> 0 <= d < 2 ^ k -> 0 <= y < 2 ^ k ->
  Z.land (x * 2 ^ k + d) (m * 2 ^ k + y) = Z.land x m * 2 ^ k + Z.land d y.
Proof.
  intros Hk Hd Hy.
  assert (Hdy : 0 <= Z.land d y < 2 ^ k).
  { split; [apply Z.land_nonneg; lia|]. rewrite <- (Z.mod_small d (2 ^ k)), <- Z.land_ones by lia.
    rewrite <- Z.land_assoc, (Z.land_comm (Z.ones k)), Z.land_assoc, Z.land_ones by lia. apply Z.mod_pos_bound. lia. }
  assert (bit : forall a b i, 0 <= b < 2 ^ k -> 0 <= i -> Z.testbit (a * 2 ^ k + b) i = if i <? k then Z.testbit b i else Z.testbit a (i - k)).
  { intros a b i Hb Hi. destruct (i <? k) eqn:E.
    - rewrite <- (Z.mod_pow2_bits_low (a * 2 ^ k + b) k i) by lia.
      rewrite Z.add_comm, Z.mod_add by lia. rewrite Z.mod_small by lia. reflexivity.
    - rewrite <- (Z.sub_add k i) at 1. rewrite <- Z.div_pow2_bits by lia.
      rewrite Z.div_add_l by lia. rewrite Z.div_small, Z.add_0_r by lia. reflexivity. }
  apply Z.bits_inj'. intros i Hi. rewrite Z.land_spec, !bit by lia.
  destruct (i <? k); now rewrite Z.land_spec.
Qed.

Lemma word_split w : is_word32 w -> exists h d, w = h * 2 ^ 16 + d /\ 0 <= h < 2 ^ 16 /\ 0 <= d < 2 ^ 16 /\ Z.shiftr w 16 = h /\
  Z.land w 65535 = d /\ Z.land w 65532 = d - d mod 4 /\ Z.land w 4294901763 = h * 2 ^ 16 + d mod 4.
Proof.
  unfold is_word32. intros Hw. exists (w / 2 ^ 16), (w mod 2 ^ 16).
  assert (Hd : 0 <= w mod 2 ^ 16 < 2 ^ 16) by (apply Z.mod_pos_bound; lia).
  assert (Hh : 0 <= w / 2 ^ 16 < 2 ^ 16) by (split; [apply Z.div_pos; lia|apply Z.div_lt_upper_bound; lia]).
  assert (Hww : w = w / 2 ^ 16 * 2 ^ 16 + w mod 2 ^ 16) by (pose proof (Z.div_mod w (2 ^ 16)); lia).
  set (h := w / 2 ^ 16) in *. set (d := w mod 2 ^ 16) in *.
  split; [assumption|]. split; [assumption|]. split; [assumption|].
  split; [unfold h; apply Z.shiftr_div_pow2; lia|].
  split; [unfold d; change 65535 with (Z.ones 16); apply Z.land_ones; lia|].
  assert (Hmod : Z.land d 3 = d mod 4) by (change 3 with (Z.ones 2); apply Z.land_ones; lia).
  split.
  - rewrite Hww. change 65532 with (0 * 2 ^ 16 + 65532). rewrite land_split by lia. rewrite Z.land_0_r, Z.mul_0_l, Z.add_0_l.
    assert (Hdd : d = d / 4 * 2 ^ 2 + d mod 4) by (pose proof (Z.div_mod d 4); lia).
    assert (Hm4 : 0 <= d mod 4 < 4) by (apply Z.mod_pos_bound; lia).
    rewrite Hdd at 1. change 65532 with (16383 * 2 ^ 2 + 0). rewrite land_split by (cbn; lia). rewrite Z.land_0_r.
    change 16383 with (Z.ones 14). rewrite Z.land_ones by lia. rewrite Z.mod_small; [lia|].
    split; [apply Z.div_pos; lia|apply Z.div_lt_upper_bound; lia].
  - rewrite Hww. change 4294901763 with (65535 * 2 ^ 16 + 3). rewrite land_split by lia. rewrite Hmod.
    change 65535 with (Z.ones 16). rewrite Z.land_ones by lia. rewrite (Z.mod_small h) by lia. reflexivity.
Qed.

(** What the loop does with a word. *)
Inductive kind := KFiller | KDown (n : Z) | KUp (n : Z) | KOther.
Definition classify (w : Z) : kind :=
  let hi := Z.shiftr w 16 in
  if zin w [2080899750; 2080900006; 1610612736] then KFiller
  else if Z.shiftr hi 8 =? 75 then KFiller
  else if zin hi [36865; 63489; 59393; 32769] then KFiller
  else if Z.land w 4294901763 =? 4162912257 then KDown (65536 - Z.land w 65532)
  else if zin hi [37921; 63521] then KDown (65536 - Z.land w 65535)
  else if hi =? 14369 then KUp (Z.land w 65535)
  else KOther.

Lemma ppc_scan_classify w ws dec inc l : ppc_scan (w :: ws) dec inc l =
  match classify w with
  | KFiller => ppc_scan ws dec inc l
  | KDown n => ppc_scan ws (Some n) inc l
  | KUp n => match dec with
             | Some _ => ppc_scan ws dec (Some n) l
             | None => if 2 <? len l then None else ppc_scan ws dec inc (l ++ [w])
             end
  | KOther => if 2 <? len l then None else ppc_scan ws dec inc (l ++ [w])
  end.
Proof.
  cbn [ppc_scan]. unfold classify. cbv zeta.
  repeat match goal with
  | |- context [if zin ?a ?b then _ else _] => destruct (zin a b); [reflexivity|]
  | |- context [if Z.shiftr (Z.shiftr w 16) 8 =? 75 then _ else _] => destruct (Z.shiftr (Z.shiftr w 16) 8 =? 75); [reflexivity|]
  | |- context [if Z.land w 4294901763 =? 4162912257 then _ else _] => destruct (Z.land w 4294901763 =? 4162912257); [reflexivity|]
  end.
  destruct (Z.shiftr w 16 =? 14369); [|reflexivity]. destruct dec; reflexivity.
Qed.

Lemma classify_spec w : is_word32 w ->
  match classify w with
  | KFiller => filler w
  | KDown n => down w n
  | KUp n => up w n
  | KOther => ~ filler w /\ (forall n, ~ down w n) /\ (forall n, ~ up w n)
  end.
Proof.
  intros Hw. destruct (word_split w Hw) as (h & d & -> & Hh & Hd & Esh & E1 & E2 & E3).
  unfold classify. rewrite Esh, E1, E2, E3. cbv zeta. clear Hw Esh E1 E2 E3.
  assert (Hm4 : 0 <= d mod 4 < 4) by (apply Z.mod_pos_bound; lia).
  assert (Hsh : Z.shiftr h 8 = h / 256) by (apply Z.shiftr_div_pow2; lia). rewrite Hsh.
  destruct (zin _ [2080899750; _; _]) eqn:F1.
  { left. apply zin_iff in F1. cbn [In] in *. exact F1. }
  destruct (h / 256 =? 75) eqn:F2.
  { right; left. exists (h * 2 ^ 16 + d - 18 * 2 ^ 26). split; [|lia].
    pose proof (Z.div_mod h 256 ltac:(lia)). pose proof (Z.mod_pos_bound h 256 ltac:(lia)). lia. }
  destruct (zin h [36865; 63489; 59393; 32769]) eqn:F3.
  { right; right. apply zin_iff in F3. cbn [In] in F3. unfold r0_spill, dform.
    destruct F3 as [<-|[<-|[<-|[<-|[]]]]]; [exists 36|exists 62|exists 58|exists 32]; exists d; (split; [cbn; auto|]); split; lia. }
  destruct (h * 2 ^ 16 + d mod 4 =? 4162912257) eqn:F4.
  { assert (h = 63521 /\ d mod 4 = 1) as [-> Hd1] by lia.
    replace (65536 - (d - d mod 4)) with (2 ^ 16 - (d - 1)) by lia.
    replace (63521 * 2 ^ 16 + d) with (dform 62 1 1 d) by (unfold dform; lia). now apply dn_stdu. }
  destruct (zin h [37921; 63521]) eqn:F5.
  { apply zin_iff in F5. cbn [In] in F5. change 65536 with (2 ^ 16). destruct F5 as [<-|[<-|[]]].
    - replace (37921 * 2 ^ 16 + d) with (dform 37 1 1 d) by (unfold dform; lia). now apply dn_stwu.
    - replace (63521 * 2 ^ 16 + d) with (dform 62 1 1 d) by (unfold dform; lia). apply dn_std; [assumption|]. lia. }
  destruct (h =? 14369) eqn:F6.
  { assert (h = 14369) as -> by lia. replace (14369 * 2 ^ 16 + d) with (dform 14 1 1 d) by (unfold dform; lia). now constructor. }
  apply not_true_iff_false in F1, F3, F5. rewrite zin_iff in F1, F3, F5.
  split; [|split].
  - intros [H|[(li & Hli & E)|(op & d' & Hop & Hd' & E)]].
    + apply F1. exact H.
    + assert (h / 256 = 75); [|lia]. assert (h = 75 * 256 + (h - 75 * 256)) by lia.
      rewrite H. rewrite Z.div_add_l by lia. rewrite Z.div_small by lia. lia.
    + apply F3. unfold dform in E. cbn [In] in Hop |- *. destruct Hop as [<-|[<-|[<-|[<-|[]]]]]; lia.
  - intros n H. apply F5. cbn [In]. remember (h * 2 ^ 16 + d) as w. destruct H; unfold dform in *; lia.
  - intros n H. remember (h * 2 ^ 16 + d) as w. destruct H; unfold dform in *; lia.
Qed.

(** The three kinds exclude each other, and amounts are functional. *)
Lemma classify_filler w : is_word32 w -> filler w -> classify w = KFiller.
Proof.
  intros Hw H. pose proof (classify_spec w Hw) as Hs. destruct (classify w) as [|n|n|]; [reflexivity|..]; exfalso.
  - destruct H as [H|[(li & Hli & E)|(op & d' & Hop & Hd' & E)]].
    + cbn [In] in H. unfold mflr_r0, mtlr_r0, nop in H. destruct Hs; unfold dform in *; lia.
    + destruct Hs; unfold dform in *; lia.
    + cbn [In] in Hop. destruct Hs; unfold dform in *; lia.
  - destruct H as [H|[(li & Hli & E)|(op & d' & Hop & Hd' & E)]].
    + cbn [In] in H. unfold mflr_r0, mtlr_r0, nop in H. destruct Hs; unfold dform in *; lia.
    + destruct Hs; unfold dform in *; lia.
    + cbn [In] in Hop. destruct Hs; unfold dform in *; lia.
  - tauto.
Qed.
Lemma down_fun w n n' : down w n -> down w n' -> n = n'.
Proof. intros H H'. destruct H; inversion H'; unfold dform in *; subst; try lia; replace d with d0 in * by lia; lia. Qed.
Lemma classify_down w n : is_word32 w -> down w n -> classify w = KDown n.
Proof.
  intros Hw H. pose proof (classify_spec w Hw) as Hs. destruct (classify w) as [|m|m|] eqn:E.
  - exfalso. assert (classify w = KFiller) by exact E. revert Hs. clear E.
    intros [Hs|[(li & Hli & E)|(op & d' & Hop & Hd' & E)]].
    + cbn [In] in Hs. unfold mflr_r0, mtlr_r0, nop in Hs. destruct H; unfold dform in *; lia.
    + destruct H; unfold dform in *; lia.
    + cbn [In] in Hop. destruct H; unfold dform in *; lia.
  - f_equal. eapply down_fun; eassumption.
  - exfalso. destruct H; inversion Hs; unfold dform in *; lia.
  - exfalso. destruct Hs as (_ & Hs & _). now apply (Hs n).
Qed.
Lemma classify_up w n : is_word32 w -> up w n -> classify w = KUp n.
Proof.
  intros Hw H. pose proof (classify_spec w Hw) as Hs. destruct (classify w) as [|m|m|] eqn:E.
  - exfalso. revert Hs. clear E. intros [Hs|[(li & Hli & E)|(op & d' & Hop & Hd' & E)]].
    + cbn [In] in Hs. unfold mflr_r0, mtlr_r0, nop in Hs. destruct H; unfold dform in *; lia.
    + destruct H; unfold dform in *; lia.
    + cbn [In] in Hop. destruct H; unfold dform in *; lia.
  - exfalso. destruct H. inversion Hs; unfold dform in *; lia.
  - f_equal. destruct H. inversion Hs; unfold dform in *; lia.
  - exfalso. destruct Hs as (_ & _ & Hs). now apply (Hs n).
Qed.

Definition ups_ok (ws : list Z) : Prop :=
  forall a w b n, ws = a ++ w :: b -> up w n -> exists w' n', In w' a /\ down w' n'.
Definition orelse (o d : option Z) : option Z := match o with Some _ => o | None => d end.

Lemma last_amount_nil (R : Z -> Z -> Prop) : last_amount R [] None.
Proof. intros w' n' []. Qed.
Lemma last_amount_skip (R : Z -> Z -> Prop) w ws o : (forall n, ~ R w n) -> last_amount R ws o -> last_amount R (w :: ws) o.
Proof.
  intros Hn. destruct o as [n|]; cbn.
  - intros (a & w' & b & -> & H1 & H2). exists (w :: a), w', b. auto.
  - intros H w' n' [<-|Hin]; [apply Hn|now apply H].
Qed.
Lemma last_amount_here (R : Z -> Z -> Prop) w ws o n : R w n -> last_amount R ws o -> last_amount R (w :: ws) (orelse o (Some n)).
Proof.
  intros Hn. destruct o as [m|]; cbn.
  - intros (a & w' & b & -> & H1 & H2). exists (w :: a), w', b. auto.
  - intros H. exists [], w, ws. auto.
Qed.
Lemma last_amount_inv (R : Z -> Z -> Prop) w ws o : (forall n n', R w n -> R w n' -> n = n') -> last_amount R (w :: ws) o ->
  (last_amount R ws o /\ (o = None -> forall n, ~ R w n)) \/ (last_amount R ws None /\ exists n, R w n /\ o = Some n).
Proof.
  intros Hf. destruct o as [n|]; cbn.
  - intros (a & w' & b & E & H1 & H2). destruct a as [|x a]; cbn in E; injection E as -> ->.
    + right. split; [exact H2|]. eauto.
    + left. split; [|discriminate]. exists a, w', b. auto.
  - intros H. left. split; [intros w' n' Hin; apply H; now right|]. intros _ n. apply H. now left.
Qed.
Lemma up_fun w n n' : up w n -> up w n' -> n = n'.
Proof. intros H H'. destruct H; inversion H'; unfold dform in *; lia. Qed.

Lemma down_not_up w n m : down w n -> ~ up w m.
Proof. intros H H'. destruct H'; inversion H; unfold dform in *; lia. Qed.
Lemma filler_not_down w n : is_word32 w -> filler w -> ~ down w n.
Proof. intros Hw H H'. apply classify_filler in H; [|assumption]. apply classify_down in H'; [|assumption]. congruence. Qed.
Lemma filler_not_up w n : is_word32 w -> filler w -> ~ up w n.
Proof. intros Hw H H'. apply classify_filler in H; [|assumption]. apply classify_up in H'; [|assumption]. congruence. Qed.

Lemma ups_ok_tail w ws : (forall n, ~ down w n) -> ups_ok (w :: ws) -> ups_ok ws.
Proof.
  intros Hn H a x b n E Hu. destruct (H (w :: a) x b n) as (w' & n' & [<-|Hin] & Hd).
  - now rewrite E.
  - assumption.
  - now apply Hn in Hd.
  - eauto.
Qed.
Lemma ups_ok_cons w ws : (forall n, ~ up w n) -> ups_ok ws -> ups_ok (w :: ws).
Proof.
  intros Hn H a x b n E Hu. destruct a as [|y a]; cbn in E; injection E as -> ->; [now apply Hn in Hu|].
  destruct (H a x b n eq_refl Hu) as (w' & n' & Hin & Hd). exists w', n'. split; [now right|assumption].
Qed.
Lemma ups_ok_down w ws n : down w n -> ups_ok (w :: ws).
Proof.
  intros Hd a x b m E Hu. destruct a as [|y a]; cbn in E; injection E as -> ->; [exfalso; eapply down_not_up; eassumption|].
  exists y, n. split; [now left|assumption].
Qed.

Lemma scan_sound ws : forall dec inc l d i l', Forall is_word32 ws ->
  ppc_scan ws dec inc l = Some (d, i, l') -> (forall w n, In w l' -> ~ up w n) ->
  exists m od ou, l' = l ++ m /\ kept ws m /\ (dec = None -> ups_ok ws) /\
    last_amount down ws od /\ last_amount up ws ou /\ d = orelse od dec /\ i = orelse ou inc.
Proof.
  induction ws as [|w ws IH]; intros dec inc l d i l' Hws H Hup.
  - cbn in H. injection H as -> -> ->. exists [], None, None. rewrite app_nil_r.
    repeat split; auto using last_amount_nil; try constructor. intros _ a x b n E. destruct a; discriminate.
  - inversion Hws as [|? ? Hw Hws']; subst. rewrite ppc_scan_classify in H.
    pose proof (classify_spec w Hw) as Hs. destruct (classify w) as [|n|n|] eqn:Ec.
    + apply IH in H as (m & od & ou & -> & H1 & H2 & H3 & H4 & -> & ->); [|assumption..].
      assert (Hnd := filler_not_down w). assert (Hnu := filler_not_up w).
      exists m, od, ou. repeat split; auto using last_amount_skip.
      * constructor; auto.
      * intros E. apply ups_ok_cons; auto.
    + apply IH in H as (m & od & ou & -> & H1 & H2 & H3 & H4 & -> & ->); [|assumption..].
      exists m, (orelse od (Some n)), ou. repeat split.
      * constructor; eauto.
      * intros _. eapply ups_ok_down; eassumption.
      * now apply last_amount_here.
      * apply last_amount_skip; [|assumption]. intros k. eapply down_not_up; eassumption.
      * destruct od; reflexivity.
    + destruct dec as [dd|].
      * apply IH in H as (m & od & ou & -> & H1 & H2 & H3 & H4 & -> & ->); [|assumption..].
        exists m, od, (orelse ou (Some n)). repeat split.
        -- constructor; eauto.
        -- discriminate.
        -- apply last_amount_skip; [|assumption]. intros k Hk. eapply down_not_up; eassumption.
        -- now apply last_amount_here.
        -- destruct ou; reflexivity.
      * exfalso. destruct (2 <? len l); [discriminate|].
        apply IH in H as (m & od & ou & -> & _); [|assumption..].
        apply (Hup w n); [|assumption]. apply in_or_app. left. apply in_or_app. right. left. reflexivity.
    + destruct Hs as (N1 & N2 & N3). destruct (2 <? len l); [discriminate|].
      apply IH in H as (m & od & ou & -> & H1 & H2 & H3 & H4 & -> & ->); [|assumption..].
      exists (w :: m), od, ou. repeat split; auto using last_amount_skip.
      * now rewrite <- app_assoc.
      * apply kp_keep; auto.
      * intros E. apply ups_ok_cons; auto.
Qed.

Lemma scan_complete ws : forall dec inc l m od ou, Forall is_word32 ws -> len (l ++ m) <= 2 ->
  kept ws m -> (dec = None -> ups_ok ws) -> last_amount down ws od -> last_amount up ws ou ->
  ppc_scan ws dec inc l = Some (orelse od dec, orelse ou inc, l ++ m).
Proof.
  induction ws as [|w ws IH]; intros dec inc l m od ou Hws Hlen Hk Hu Hd Hup.
  - inversion Hk; subst. destruct od as [?|]; [destruct Hd as (a & ? & ? & E & _); destruct a; discriminate|].
    destruct ou as [?|]; [destruct Hup as (a & ? & ? & E & _); destruct a; discriminate|]. cbn. now rewrite app_nil_r.
  - inversion Hws as [|? ? Hw Hws']; subst. rewrite ppc_scan_classify.
    apply last_amount_inv in Hd; [|apply down_fun]. apply last_amount_inv in Hup; [|apply up_fun].
    pose proof (classify_spec w Hw) as Hs. destruct (classify w) as [|n|n|] eqn:Ec.
    + assert (Hnd : forall n, ~ down w n) by (intros; now apply filler_not_down).
      assert (Hnu : forall n, ~ up w n) by (intros; now apply filler_not_up).
      destruct Hd as [[Hd _]|(_ & k & Hk' & _)]; [|now apply Hnd in Hk']. destruct Hup as [[Hup _]|(_ & k & Hk' & _)]; [|now apply Hnu in Hk'].
      inversion Hk; subst; [|tauto]. apply IH; auto. intros E. eapply ups_ok_tail; [exact Hnd|auto].
    + destruct Hup as [[Hup _]|(_ & k & Hk' & _)]; [|exfalso; eapply down_not_up; eassumption].
      inversion Hk as [|? ? ? _ Hk'|? ? ? Hnf Hnd Hnu Hk']; subst; [|exfalso; eapply Hnd; eassumption].
      destruct Hd as [[Hd Hno]|(Hd & k & Hwk & ->)].
      * destruct od as [x|]; [|exfalso; eapply Hno; [reflexivity|eassumption]].
        erewrite IH with (od := Some x); eauto. discriminate.
      * assert (k = n) as -> by (eapply down_fun; eassumption). erewrite IH with (od := None); eauto. discriminate.
    + destruct Hd as [[Hd _]|(_ & k & Hk' & _)]; [|exfalso; eapply down_not_up; eassumption].
      inversion Hk as [|? ? ? _ Hk'|? ? ? Hnf Hnd Hnu Hk']; subst; [|exfalso; eapply Hnu; eassumption].
      destruct dec as [dd|].
      * destruct Hup as [[Hup Hno]|(Hup & k & Hwk & ->)].
        -- destruct ou as [x|]; [|exfalso; eapply Hno; [reflexivity|eassumption]].
           erewrite IH with (ou := Some x); eauto. discriminate.
        -- assert (k = n) as -> by (eapply up_fun; eassumption). erewrite IH with (ou := None); eauto. discriminate.
      * exfalso. destruct (Hu eq_refl [] w ws n eq_refl Hs) as (? & ? & [] & _).
    + destruct Hs as (N1 & N2 & N3).
      destruct Hd as [[Hd _]|(_ & k & Hk' & _)]; [|now apply N2 in Hk']. destruct Hup as [[Hup _]|(_ & k & Hk' & _)]; [|now apply N3 in Hk'].
      inversion Hk as [|? ? ? Hb Hk'|? ? l0 Hnf Hnd Hnu Hk']; subst.
      { exfalso. destruct Hb as [Hb|[[k Hb]|[k Hb]]]; [tauto|eapply N2; eassumption|eapply N3; eassumption]. }
      rewrite len_app, len_cons in Hlen. pose proof (len_nonneg l0).
      destruct (2 <? len l) eqn:E2; [lia|].
      rewrite (IH dec inc (l ++ [w]) l0 od ou); auto.
      * now rewrite <- app_assoc.
      * rewrite <- app_assoc. cbn [app]. rewrite len_app, len_cons. lia.
      * intros E. eapply ups_ok_tail; [exact N2|auto].
Qed.

Lemma optz_eqb_eq a b : optz_eqb a b = true <-> a = b.
Proof. destruct a, b; cbn; split; intros H; try congruence; [f_equal; lia|injection H as ->; lia]. Qed.

Lemma insns_not_up w n : In w [li_r3 (- ENOSYS); blr] -> ~ up w n.
Proof. intros H Hu. vm_compute in H. destruct Hu. unfold dform in H. lia. Qed.

Lemma words_encode big ws : Forall is_word32 ws -> iter_unpack_u big 4 (ppc_code big ws) = Ok ws.
Proof.
  intros H. unfold iter_unpack_u, ppc_code. change (Z.to_nat 4) with 4%nat.
  rewrite chunks_concat; [|lia| |lia].
  - f_equal. rewrite map_map. rewrite <- (map_id ws) at 2. apply map_ext_in. intros w Hw.
    apply uint_of_enc. rewrite Forall_forall in H. specialize (H w Hw). unfold is_word32 in H.
    change (256 ^ Z.of_nat 4) with (2 ^ 32). assumption.
  - apply Forall_forall. intros c Hc. apply in_map_iff in Hc as (w & <- & _). apply enc_uint_length.
Qed.
Lemma len_ppc_code big ws : len (ppc_code big ws) = 4 * len ws.
Proof.
  unfold ppc_code. induction ws as [|w ws IH]; [reflexivity|]. cbn [map List.concat]. rewrite len_app, IH, len_cons.
  unfold len at 1. rewrite enc_uint_length. lia.
Qed.
Lemma kept_len ws l : kept ws l -> len l <= len ws.
Proof. induction 1; rewrite ?len_cons; try lia. Qed.

Lemma ppc_dummy_exact sym e ws : Forall is_word32 ws -> read_symbol e sym = Ok (ppc_code (e_big e) ws) ->
  len (ppc_code (e_big e) ws) = sym_size sym ->
  (ppc_stub ws -> ppc_dummy sym e = Ok (Some (ppc_code (e_big e) ws))) /\ (~ ppc_stub ws -> ppc_dummy sym e = Ok None).
Proof.
  intros Hws Hr Hl. rewrite len_ppc_code in Hl. unfold ppc_dummy. rewrite Hr. cbn [bind]. rewrite words_encode by assumption. cbn [bind].
  split.
  - intros (Hk & Hu & o & Hd & Hup). pose proof (kept_len _ _ Hk) as Hkl. change (len [li_r3 (- ENOSYS); blr]) with 2 in Hkl.
    destruct (sym_size sym <? 8) eqn:E8; [lia|].
    rewrite (scan_complete ws None None [] [li_r3 (- ENOSYS); blr] o o); auto; [|reflexivity || (cbn; lia)].
    cbn [app]. replace (optz_eqb (orelse o None) (orelse o None)) with true by (symmetry; now apply optz_eqb_eq). reflexivity.
  - intros Hn. destruct (sym_size sym <? 8); [reflexivity|].
    destruct (ppc_scan ws None None []) as [[[d i] l]|] eqn:E; [|reflexivity].
    destruct (optz_eqb d i) eqn:E2; cbn [negb]; [|reflexivity].
    destruct (ver_eqb l _) eqn:E3; [|reflexivity]. exfalso. apply Hn.
    apply ver_eqb_eq in E3. apply optz_eqb_eq in E2. subst i.
    apply scan_sound in E; [|assumption|].
    + destruct E as (m & od & ou & Hm & Hk & Hu & Hd & Hup & H1 & H2). cbn [app] in Hm. subst m l.
      split; [exact Hk|]. split; [now apply Hu|]. exists d.
      assert (od = d) by (subst d; destruct od; reflexivity). assert (ou = d) by (rewrite H2; destruct ou; reflexivity). subst od ou. auto.
    + subst l. apply insns_not_up.
Qed.
Lemma ppc_dummy_odd sym e c : read_symbol e sym = Ok c -> 8 <= sym_size sym -> len c mod 4 <> 0 ->
  ppc_dummy sym e = Raise StructError.
Proof.
  intros Hr H8 Hm. unfold ppc_dummy. destruct (sym_size sym <? 8) eqn:E; [lia|]. rewrite Hr. cbn [bind].
  unfold iter_unpack_u. change (Z.to_nat 4) with 4%nat.
  destruct (chunks (List.length c) 4 c) as [l|] eqn:Ec; [|reflexivity]. exfalso. apply Hm.
  assert ((List.length c mod 4 = 0)%nat) as H by (apply (chunks_Some_iff (List.length c) 4 c); [lia|lia|eauto]).
  unfold len. change 4 with (Z.of_nat 4). rewrite <- Nat2Z.inj_mod. now rewrite H.
Qed.
