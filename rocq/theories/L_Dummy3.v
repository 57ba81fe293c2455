(** PowerPC: what running a detected dummy does, the endian switch; reference matching (C31, C35, C36). *)
From Coq Require Import List Bool Ascii String ZArith Lia ZifyBool ZifyNat.
From Verif Require Import PyBase PyFacts M_Utils S_Utils L_Utils M_Elf M_Syscall M_Arch S_Arch L_Arch S_Dummy L_Dummy L_Dummy2.
Import ListNotations.
Open Scope Z_scope.
Open Scope list_scope.

Lemma twos_range n : 0 <= twos 2 n < 2 ^ 16.
Proof. unfold twos. apply Z.mod_pos_bound. reflexivity. Qed.
Lemma twos_inj n m : - 2 ^ 15 <= n < 2 ^ 15 -> - 2 ^ 15 <= m < 2 ^ 15 -> twos 2 n = twos 2 m -> n = m.
Proof.
  unfold twos. change (256 ^ 2) with 65536. intros Hn Hm H.
  pose proof (Z.div_mod n 65536 ltac:(lia)). pose proof (Z.div_mod m 65536 ltac:(lia)).
  pose proof (Z.mod_pos_bound n 65536 ltac:(lia)). pose proof (Z.mod_pos_bound m 65536 ltac:(lia)). lia.
Qed.

Definition plain (w : Z) : Prop :=
  In w [mflr_r0; mtlr_r0; nop] \/ r0_spill w \/ (exists n, down w n) \/ (exists n, up w n).

Lemma plain_not_blr : ~ plain blr.
Proof.
  intros [H|[(op & d & Ho & Hd & E)|[[n H]|[n H]]]].
  - vm_compute in H. lia.
  - cbn [In] in Ho. unfold dform, blr in *. lia.
  - remember blr as w eqn:E. destruct H; unfold dform, blr in *; lia.
  - remember blr as w eqn:E. destruct H; unfold dform, blr in *; lia.
Qed.
Lemma plain_not_li n : ~ plain (li_r3 n).
Proof.
  pose proof (twos_range n). unfold li_r3.
  intros [H1|[(op & d & Ho & Hd & E)|[[k H1]|[k H1]]]].
  - cbn [In] in H1. unfold dform, mflr_r0, mtlr_r0, nop in *. lia.
  - cbn [In] in Ho. unfold dform in *. lia.
  - remember (dform 14 3 0 (twos 2 n)) as w eqn:E. destruct H1; unfold dform in *; lia.
  - remember (dform 14 3 0 (twos 2 n)) as w eqn:E. destruct H1; unfold dform in *; lia.
Qed.
Lemma branch_not_plain w : back_branch w -> ~ plain w.
Proof.
  intros (li & Hli & ->) [H1|[(op & d & Ho & Hd & E)|[[k H1]|[k H1]]]].
  - cbn [In] in H1. unfold dform, mflr_r0, mtlr_r0, nop in *. lia.
  - cbn [In] in Ho. unfold dform in *. lia.
  - remember (18 * 2 ^ 26 + li) as w eqn:E. destruct H1; unfold dform in *; lia.
  - remember (18 * 2 ^ 26 + li) as w eqn:E. destruct H1; unfold dform in *; lia.
Qed.
Lemma branch_not_li w n : back_branch w -> w <> li_r3 n.
Proof. intros (li & Hli & ->). pose proof (twos_range n). unfold li_r3, dform. lia. Qed.
Lemma branch_not_blr w : back_branch w -> w <> blr.
Proof. intros (li & Hli & ->). unfold blr. lia. Qed.
Lemma blr_not_li n : blr <> li_r3 n.
Proof. pose proof (twos_range n). unfold li_r3, dform, blr. lia. Qed.

Lemma kept_split ws x l : kept ws (x :: l) -> exists pre rest, ws = pre ++ x :: rest /\ kept rest l /\
  Forall (fun w => back_branch w \/ plain w) pre.
Proof.
  intros H. remember (x :: l) as y. induction H as [|w ws l' Hd Hk IH|w ws l' _ _ _ Hk IH]; [discriminate| |].
  - destruct (IH Heqy) as (pre & rest & -> & H1 & H2). exists (w :: pre), rest. repeat split; auto. constructor; auto.
    unfold plain. destruct Hd as [[Hd|[Hd|Hd]]|[Hd|Hd]]; tauto.
  - injection Heqy as -> ->. exists [], ws. auto.
Qed.

Lemma runs_plain w ws r3 v : plain w -> (ppc_runs (w :: ws) r3 v <-> ppc_runs ws r3 v).
Proof.
  intros Hp. split.
  - intros H. inversion H as [ws0 r30|ws0 n r30 v0 Hn Hr|w0 ws0 r30 v0 Hp' Hr|w0 ws0 r30 r3' v0 Hb Ho Hr|w0 ws0 r30 v0 Hb Ho]; subst.
    + now apply plain_not_blr in Hp.
    + now apply plain_not_li in Hp.
    + assumption.
    + now apply branch_not_plain in Hb.
    + now apply branch_not_plain in Hb.
  - intros H. apply pr_plain; assumption.
Qed.
Lemma runs_bl w ws r3 v : back_branch w -> Z.odd w = true -> (ppc_runs (w :: ws) r3 v <-> exists r3', ppc_runs ws r3' v).
Proof.
  intros Hb Ho. split.
  - intros H. inversion H as [ws0 r30|ws0 n r30 v0 Hn Hr|w0 ws0 r30 v0 Hp' Hr|w0 ws0 r30 r3' v0 Hb' Ho' Hr|w0 ws0 r30 v0 Hb' Ho']; subst.
    + now apply branch_not_blr in Hb.
    + now apply (branch_not_li _ n) in Hb.
    + now apply branch_not_plain in Hp'.
    + eauto.
    + congruence.
  - intros [r3' H]. eapply pr_bl; eassumption.
Qed.
Lemma runs_li n ws r3 v : - 2 ^ 15 <= n < 2 ^ 15 -> (ppc_runs (li_r3 n :: ws) r3 v <-> ppc_runs ws n v).
Proof.
  intros Hn. split.
  - intros H. inversion H as [ws0 r30 E1|ws0 m r30 v0 Hm Hr E1|w0 ws0 r30 v0 Hp' Hr|w0 ws0 r30 r3' v0 Hb' Ho' Hr|w0 ws0 r30 v0 Hb' Ho']; subst.
    + now apply blr_not_li in E1.
    + assert (m = n) as <-; [|assumption]. apply twos_inj; try assumption. unfold li_r3, dform in E1. lia.
    + now apply plain_not_li in Hp'.
    + now apply branch_not_li with (n := n) in Hb'.
    + now apply branch_not_li with (n := n) in Hb'.
  - intros H. now apply pr_li.
Qed.
Lemma runs_blr ws r3 v : ppc_runs (blr :: ws) r3 v <-> v = r3.
Proof.
  split.
  - intros H. inversion H as [ws0 r30 E1|ws0 m r30 v0 Hm Hr E1|w0 ws0 r30 v0 Hp' Hr|w0 ws0 r30 r3' v0 Hb' Ho' Hr|w0 ws0 r30 v0 Hb' Ho']; subst.
    + reflexivity.
    + symmetry in E1. now apply blr_not_li in E1.
    + now apply plain_not_blr in Hp'.
    + now apply branch_not_blr in Hb'.
    + now apply branch_not_blr in Hb'.
  - intros ->. constructor.
Qed.

Lemma runs_calls pre ws r3 v : Forall (fun w => plain w \/ (back_branch w /\ Z.odd w = true)) pre ->
  (ppc_runs (pre ++ ws) r3 v -> exists r3', ppc_runs ws r3' v) /\
  ((forall r3', ppc_runs ws r3' v) -> ppc_runs (pre ++ ws) r3 v).
Proof.
  intros H. revert r3. induction H as [|w pre Hw Hpre IH]; intros r3; cbn [app]; [eauto|].
  destruct Hw as [Hw|[Hb Ho]].
  - rewrite runs_plain by assumption. apply IH.
  - rewrite runs_bl by assumption. split; [intros [r3' Hr]; now apply IH in Hr|]. intros Hr. exists 0. now apply IH.
Qed.
Lemma runs_plains pre ws r3 v : Forall plain pre -> (ppc_runs (pre ++ ws) r3 v <-> ppc_runs ws r3 v).
Proof.
  intros H. induction H as [|w pre Hw Hpre IH]; cbn [app]; [tauto|]. now rewrite runs_plain.
Qed.

Lemma not_in_kept ws l w : kept ws l -> In w ws -> ~ filler w -> (forall n, ~ down w n) -> (forall n, ~ up w n) -> In w l.
Proof.
  induction 1 as [|x ws l Hd Hk IH|x ws l _ _ _ Hk IH]; intros Hin N1 N2 N3; [assumption| |].
  - destruct Hin as [<-|Hin]; [|auto]. exfalso. destruct Hd as [Hd|[[n Hd]|[n Hd]]]; [tauto|now apply N2 in Hd|now apply N3 in Hd].
  - destruct Hin as [<-|Hin]; [now left|right; auto].
Qed.
Lemma li_other n : ~ filler (li_r3 n) /\ (forall k, ~ down (li_r3 n) k) /\ (forall k, ~ up (li_r3 n) k).
Proof.
  assert (Hp := plain_not_li n). unfold plain in Hp. split; [|split].
  - intros [H|[H|H]]; try tauto. now apply branch_not_li with (n := n) in H.
  - intros k Hk. apply Hp. eauto.
  - intros k Hk. apply Hp. eauto.
Qed.

(** A detected dummy whose branches are calls made before the li returns -ENOSYS. *)
Lemma ppc_stub_sound ws r3 : ppc_stub ws ->
  (forall a w b, ws = a ++ w :: b -> back_branch w -> Z.odd w = true /\ In (li_r3 (- ENOSYS)) b) ->
  forall v, ppc_runs ws r3 v <-> v = - ENOSYS.
Proof.
  intros (Hk & _) Hb v.
  apply kept_split in Hk as (pre & rest & -> & Hk & Hpre).
  apply kept_split in Hk as (mid & rest2 & -> & Hk2 & Hmid).
  assert (Hpre' : Forall (fun w => plain w \/ (back_branch w /\ Z.odd w = true)) pre).
  { apply Forall_forall. intros w Hw. rewrite Forall_forall in Hpre. destruct (Hpre w Hw) as [H|H]; [|tauto].
    right. split; [assumption|]. apply in_split in Hw as (a & b & ->). rewrite <- app_assoc in Hb. cbn in Hb.
    now apply (Hb a w (b ++ li_r3 (- ENOSYS) :: mid ++ blr :: rest2)). }
  assert (Hmid' : Forall plain mid).
  { apply Forall_forall. intros w Hw. rewrite Forall_forall in Hmid. destruct (Hmid w Hw) as [H|H]; [exfalso|assumption].
    apply in_split in Hw as (a & b & ->).
    destruct (Hb (pre ++ li_r3 (- ENOSYS) :: a) w (b ++ blr :: rest2)) as [_ Hin]; [|assumption|].
    { rewrite <- app_assoc. cbn. rewrite <- app_assoc. reflexivity. }
    destruct (li_other (- ENOSYS)) as (L1 & L2 & L3).
    apply in_app_or in Hin as [Hin|[Hin|Hin]].
    - assert (Hf : Forall (fun w => back_branch w \/ plain w) (a ++ w :: b)) by (apply Forall_forall; exact Hmid).
      apply Forall_app in Hf as [_ Hf]. inversion Hf as [|? ? _ Hf']; subst. rewrite Forall_forall in Hf'.
      destruct (Hf' _ Hin) as [Hx|Hx]; [now apply branch_not_li with (n := - ENOSYS) in Hx|now apply plain_not_li in Hx].
    - now apply blr_not_li in Hin.
    - apply (not_in_kept _ _ _ Hk2 Hin L1 L2 L3). }
  assert (Hr : - 2 ^ 15 <= - ENOSYS < 2 ^ 15) by (cbn; lia).
  assert (Hcore : forall r, ppc_runs (li_r3 (- ENOSYS) :: mid ++ blr :: rest2) r v <-> v = - ENOSYS).
  { intros r. rewrite runs_li by assumption. rewrite runs_plains by assumption. apply runs_blr. }
  destruct (runs_calls pre (li_r3 (- ENOSYS) :: mid ++ blr :: rest2) r3 v Hpre') as [R1 R2]. split.
  - intros H. apply R1 in H as [r' H]. now apply Hcore in H.
  - intros ->. apply R2. intros r'. now apply Hcore.
Qed.

(** Without that, not: a tail branch, or a call between li and blr. *)
Lemma ppc_stub_unsound : exists ws v, Forall is_word32 ws /\ ppc_stub ws /\ ppc_runs ws 0 v /\ v <> - ENOSYS.
Proof.
  (* 4bffff00 b .-0x100; li r3,-38; blr *)
  exists [1275068160; li_r3 (- ENOSYS); blr], 7.
  assert (Hb : back_branch 1275068160) by (exists (1275068160 - 18 * 2 ^ 26); split; lia).
  assert (Hwb : is_word32 1275068160) by (unfold is_word32; lia).
  assert (Hs : ~ filler blr /\ (forall n, ~ down blr n) /\ forall n, ~ up blr n).
  { assert (Hw : is_word32 blr) by (unfold is_word32, blr; lia).
    pose proof (classify_spec blr Hw) as Hs. assert (E : classify blr = KOther) by reflexivity. now rewrite E in Hs. }
  assert (Hlt : forall w, In w [1275068160; li_r3 (- ENOSYS); blr] -> (forall n, ~ down w n) /\ (forall n, ~ up w n)).
  { intros w [<-|[<-|[<-|[]]]].
    - split; intros n; [apply filler_not_down|apply filler_not_up]; auto; right; left; assumption.
    - split; apply li_other.
    - split; apply Hs. }
  split; [|split; [|split]].
  - repeat constructor; unfold is_word32, li_r3, dform, blr, ENOSYS, twos; cbn; lia.
  - split; [|split].
    + apply kp_drop; [left; right; left; assumption|].
      apply kp_keep; [apply li_other|apply li_other|apply li_other|].
      apply kp_keep; [apply Hs|apply Hs|apply Hs|constructor].
    + intros a w b n E Hu. exfalso.
      destruct (Hlt w) as [_ H]; [rewrite E; apply in_or_app; right; left; reflexivity|]. now apply H in Hu.
    + exists None. split; intros w n Hw; now apply Hlt.
  - apply pr_b; [assumption|reflexivity].
  - discriminate.
Qed.

(** * The endian switch *)

Lemma index_of_spec x l : forall i r, index_of x l i = Some r <->
  exists a b, l = a ++ x :: b /\ ~ In x a /\ r = i + len a.
Proof.
  induction l as [|y l IH]; intros i r; cbn [index_of].
  - split; [discriminate|]. intros ([|? ?] & b & E & _); discriminate.
  - destruct (x =? y) eqn:E.
    + assert (x = y) as <- by lia. split.
      * intros [= <-]. exists [], l. split; [reflexivity|]. split; [intros []|]. change (len (@nil Z)) with 0. lia.
      * intros (a & b & E' & Hn & ->). destruct a as [|z a].
        -- f_equal. change (len (@nil Z)) with 0. lia.
        -- injection E' as <- _. exfalso. apply Hn. now left.
    + rewrite IH. split.
      * intros (a & b & -> & Hn & ->). exists (y :: a), b. split; [reflexivity|]. split.
        -- intros [H|H]; [lia|auto].
        -- rewrite len_cons. lia.
      * intros (a & b & E' & Hn & ->). destruct a as [|z a]; injection E' as -> ->; [lia|].
        exists a, b. split; [reflexivity|]. split; [intros H; apply Hn; now right|]. rewrite len_cons. lia.
Qed.
Lemma index_of_None x l i : index_of x l i = None <-> ~ In x l.
Proof.
  revert i. induction l as [|y l IH]; intros i; cbn [index_of In]; [tauto|].
  destruct (x =? y) eqn:E; [split; [discriminate|]; intros H; exfalso; apply H; left; lia|].
  rewrite IH. split; [intros H [H'|H']; [lia|auto]|tauto].
Qed.

Lemma at_iff ws i w : at_ ws i w <-> exists a b, ws = a ++ w :: b /\ i = len a.
Proof.
  unfold at_. split.
  - intros [H0 H]. apply nth_error_split in H as (a & b & -> & Ha). exists a, b. split; [reflexivity|]. unfold len. lia.
  - intros (a & b & -> & ->). split; [apply len_nonneg|]. unfold len. rewrite Nat2Z.id.
    rewrite nth_error_app2 by lia. rewrite Nat.sub_diag. reflexivity.
Qed.
Lemma at_fun ws i w w' : at_ ws i w -> at_ ws i w' -> w = w'.
Proof. intros [_ H] [_ H']. congruence. Qed.
Lemma at_index ws i w : 0 <= i -> (index_ ws i = Ok w <-> at_ ws i w).
Proof.
  intros Hi. unfold index_, at_. destruct (i <? 0) eqn:E; [lia|]. cbv zeta. rewrite E.
  destruct (nth_error ws (Z.to_nat i)) as [x|]; split.
  - intros [= ->]. auto.
  - intros [_ [= ->]]. reflexivity.
  - discriminate.
  - intros [_ H]. discriminate.
Qed.
Lemma at_lt ws i w : at_ ws i w -> 0 <= i < len ws.
Proof. intros H. split; [apply H|]. apply at_iff in H as (a & b & -> & ->). rewrite len_app, len_cons. pose proof (len_nonneg b). lia. Qed.

Lemma index_of_at x l r : index_of x l 0 = Some r <-> at_ l r x /\ forall i, i < r -> ~ at_ l i x.
Proof.
  rewrite index_of_spec. split.
  - intros (a & b & -> & Hn & ->). split; [apply at_iff; exists a, b; split; [reflexivity|lia]|].
    intros i Hi [H0 H]. rewrite nth_error_app1 in H by (unfold len in Hi; lia). apply nth_error_In in H. contradiction.
  - intros [H Hn]. apply at_iff in H as (a & b & -> & ->). exists a, b. split; [reflexivity|]. split; [|lia].
    intros Hin. apply in_split in Hin as (a1 & a2 & ->). apply (Hn (len a1)).
    + rewrite len_app, len_cons. pose proof (len_nonneg a2). lia.
    + apply at_iff. exists a1, (a2 ++ x :: b). split; [now rewrite <- app_assoc|reflexivity].
Qed.

Lemma index_from_at x l s r : 0 <= s -> index_from x l s = Some r -> at_ l r x /\ s <= r.
Proof.
  intros Hs H. unfold index_from in H. apply index_of_spec in H as (a & b & E & _ & ->).
  unfold slice_from, clampi in E. destruct (s <? 0) eqn:E0; [lia|].
  assert (Hlt : s < len l).
  { destruct (Z_lt_dec s (len l)) as [|Hge]; [assumption|exfalso].
    match type of E with skipn ?n l = _ => assert (skipn n l = []) as E' end.
    { apply skipn_all2. unfold len in *. lia. }
    rewrite E' in E. destruct a; discriminate. }
  split; [|pose proof (len_nonneg a); lia].
  apply at_iff. exists (firstn (Z.to_nat s) l ++ a), b. split.
  - rewrite <- app_assoc, <- E. symmetry. apply firstn_skipn.
  - rewrite len_app. unfold len at 3. rewrite firstn_length_le by (unfold len in *; lia). lia.
Qed.
Lemma index_from_exists x l s i : 0 <= s -> at_ l i x -> s <= i ->
  exists r, index_from x l s = Some r /\ r <= i.
Proof.
  intros Hs Hat Hi. pose proof (at_lt _ _ _ Hat) as Hlt.
  unfold index_from. assert (Hin : In x (slice_from l s)).
  { apply at_iff in Hat as (a & b & -> & ->). unfold slice_from, clampi. destruct (s <? 0) eqn:E0; [lia|].
    rewrite skipn_app. apply in_or_app. right.
    replace (Z.to_nat s - List.length a)%nat with 0%nat by (unfold len in Hi; lia). now left. }
  destruct (index_of x (slice_from l s) (Z.min s (len l))) as [r|] eqn:E; [|apply index_of_None in E; contradiction].
  exists r. split; [reflexivity|].
  assert (Hf : index_from x l s = Some r) by exact E.
  apply index_of_spec in E as (a & b & Ea & Hn & ->).
  (* position i corresponds to position i - s of the slice *)
  destruct (Z_le_gt_dec (Z.min s (len l) + len a) i) as [|Hgt]; [assumption|exfalso].
  apply Hn. assert (Hnth : nth_error (slice_from l s) (Z.to_nat (i - s)) = Some x).
  { unfold slice_from, clampi. destruct (s <? 0) eqn:E0; [lia|].
    destruct Hat as [_ Hat]. rewrite <- Hat. rewrite <- (firstn_skipn (Z.to_nat s) l) at 2.
    rewrite nth_error_app2; rewrite firstn_length_le by (unfold len in *; lia); [|lia]. f_equal. lia. }
  rewrite Ea in Hnth. rewrite nth_error_app1 in Hnth by (unfold len in *; lia). now apply nth_error_In in Hnth.
Qed.

Lemma beq_iff w : is_word32 w -> (exists d, beq w d) <-> zin (Z.shiftr w 16) [16834; 16866; 16770; 16802] = true.
Proof.
  intros Hw. destruct (word_split w Hw) as (h & d & -> & Hh & Hd & -> & _). rewrite zin_iff. cbn [In]. split.
  - intros (d' & bo & Hbo & Hd' & E). cbn [In] in Hbo. destruct Hbo as [<-|[<-|[<-|[<-|[]]]]]; lia.
  - intros H. exists d. unfold beq. destruct H as [<-|[<-|[<-|[<-|[]]]]]; [exists 14|exists 15|exists 12|exists 13]; (split; [cbn; auto|split; [assumption|lia]]).
Qed.
Lemma beq_low w d : is_word32 w -> beq w d -> Z.land w 65535 = d.
Proof.
  intros Hw (bo & Hbo & Hd & E). destruct (word_split w Hw) as (h & d' & Ew & Hh & Hd' & _ & -> & _).
  cbn [In] in Hbo. lia.
Qed.

Lemma fast_switch_iff ws : Forall is_word32 ws -> (ppc_fast_switch ws = true <-> endian_switch tgt_low ws).
Proof.
  intros Hws. unfold ppc_fast_switch, endian_switch, tgt_low.
  change 740302526 with cmpdi_r0_1ebe. change 2107310758 with mfsrr1_r12. change 1770782721 with xori_r12_1.
  change 2107311014 with mtsrr1_r12. change 1275068452 with rfid. split.
  - destruct (index_of cmpdi_r0_1ebe ws 0) as [i|] eqn:Ei; [|discriminate].
    apply index_of_at in Ei as [Hi Hfirst]. pose proof (at_lt _ _ _ Hi) as Hi0.
    destruct (index_ ws (i + 1)) as [w| | |] eqn:Ew; try discriminate. apply at_index in Ew; [|lia].
    assert (Hw : is_word32 w).
    { rewrite Forall_forall in Hws. apply Hws. destruct Ew as [_ Ew]. now apply nth_error_In in Ew. }
    assert (Hlow : 0 <= Z.land w 65535) by (apply Z.land_nonneg; right; lia).
    cbv zeta. set (t := i + 1 + Z.land w 65535 / 4).
    assert (Ht : i < t) by (assert (0 <= Z.land w 65535 / 4) by (apply Z.div_pos; lia); lia).
    destruct (len ws <=? t) eqn:El; [discriminate|]. cbn [orb].
    destruct (index_ ws t) as [y| | |] eqn:Ey; try discriminate. destruct (y =? mfsrr1_r12) eqn:Em; [|discriminate].
    assert (y = mfsrr1_r12) as -> by lia. apply at_index in Ey; [|lia]. cbn [negb].
    destruct (zin (Z.shiftr w 16) _) eqn:Ez; [|discriminate]. apply beq_iff in Ez as [d Hd]; [|assumption]. cbn [negb].
    destruct (index_from xori_r12_1 ws (t + 1)) as [j|] eqn:Ej; [|discriminate]. apply index_from_at in Ej as [Hj Hj']; [|lia].
    destruct (index_from mtsrr1_r12 ws (j + 1)) as [k|] eqn:Ek; [|discriminate]. apply index_from_at in Ek as [Hk Hk']; [|lia].
    destruct (index_from rfid ws (k + 1)) as [l|] eqn:El'; [|discriminate]. apply index_from_at in El' as [Hl Hl']; [|lia].
    intros _. exists i, w, d, t, j, k, l. pose proof (beq_low w d Hw Hd). subst d t.
    repeat split; try assumption; try lia; try apply Hi; try apply Hj; try apply Hk; try apply Hl; try apply Ew; try apply Ey.
  - intros (i & w & d & t & j & k & l & Hi & Hfirst & Ew & Hb & -> & Hy & Hj' & Hj & Hk' & Hk & Hl' & Hl).
    assert (index_of cmpdi_r0_1ebe ws 0 = Some i) as -> by (apply index_of_at; auto).
    pose proof (at_lt _ _ _ Hi) as Hi0.
    assert (index_ ws (i + 1) = Ok w) as -> by (apply at_index; [lia|assumption]).
    assert (Hw : is_word32 w).
    { rewrite Forall_forall in Hws. apply Hws. destruct Ew as [_ Ew]. now apply nth_error_In in Ew. }
    rewrite (beq_low w d Hw Hb). cbv zeta.
    pose proof (at_lt _ _ _ Hy) as Ht.
    destruct (len ws <=? i + 1 + d / 4) eqn:El; [lia|]. cbn [orb].
    assert (index_ ws (i + 1 + d / 4) = Ok mfsrr1_r12) as -> by (apply at_index; [lia|assumption]).
    rewrite Z.eqb_refl. cbn [negb].
    assert (zin (Z.shiftr w 16) [16834; 16866; 16770; 16802] = true) as -> by (apply beq_iff; [assumption|eauto]). cbn [negb].
    destruct (index_from_exists xori_r12_1 ws (i + 1 + d / 4 + 1) j) as (j1 & E1 & Hj1); [lia|assumption|lia|].
    rewrite E1. apply index_from_at in E1 as [_ Hj1']; [|lia].
    destruct (index_from_exists mtsrr1_r12 ws (j1 + 1) k) as (k1 & E2 & Hk1); [lia|assumption|lia|].
    rewrite E2. apply index_from_at in E2 as [_ Hk1']; [|lia].
    destruct (index_from_exists rfid ws (k1 + 1) l) as (l1 & E3 & Hl1); [lia|assumption|lia|].
    now rewrite E3.
Qed.

Lemma fast_switch_isa ws : len ws <= 8192 -> (endian_switch tgt_low ws <-> endian_switch tgt_forward ws).
Proof.
  intros Hl. unfold endian_switch, tgt_low, tgt_forward, tgt_isa. split;
  intros (i & w & d & t & j & k & l & Hi & Hfirst & Ew & Hb & Ht & Hy & H); exists i, w, d, t, j, k, l.
  - assert (Hd : 0 <= d < 2 ^ 16) by (destruct Hb as (bo & _ & Hd & _); exact Hd).
    assert (0 <= d / 4) by (apply Z.div_pos; lia).
    pose proof (at_lt _ _ _ Hy). pose proof (at_lt _ _ _ Hi).
    split; [exact Hi|]. split; [exact Hfirst|]. split; [exact Ew|]. split; [exact Hb|]. split; [|split; [exact Hy|exact H]].
    destruct (d / 4 <? 2 ^ 13) eqn:E; [lia|]. change (2 ^ 13) with 8192 in E. lia.
  - assert (Hd : 0 <= d < 2 ^ 16) by (destruct Hb as (bo & _ & Hd & _); exact Hd).
    assert (d / 4 < 2 ^ 14) by (apply Z.div_lt_upper_bound; lia).
    split; [exact Hi|]. split; [exact Hfirst|]. split; [exact Ew|]. split; [exact Hb|]. split; [|split; [exact Hy|exact H]].
    destruct Ht as [Ht Ht']. destruct (d / 4 <? 2 ^ 13) eqn:E; lia.
Qed.

Lemma ppc_esoteric_none a e : a_class a = KPowerPC ->
  a_abi a <> $"ppc64" \/ since [6;12] (a_version a) \/ dget str_eqb $"exc_real_0xc00_system_call" (e_symbols e) = None ->
  extract_esoteric_syscalls a e = Ok [].
Proof.
  intros Hk H. unfold extract_esoteric_syscalls. rewrite Hk. unfold ppc_esoteric.
  destruct (str_eqb (a_abi a) $"ppc64") eqn:E1; [|reflexivity]. apply str_eqb_eq in E1.
  destruct (ver_geb (a_version a) [6;12]) eqn:E2; [reflexivity|]. cbn [negb orb].
  destruct H as [H|[H|H]]; [congruence| |now rewrite H]. apply since_iff in H. congruence.
Qed.

Lemma ppc_esoteric_exact a e exc ws :
  a_class a = KPowerPC -> a_abi a = $"ppc64" -> before [6;12] (a_version a) ->
  dget str_eqb $"exc_real_0xc00_system_call" (e_symbols e) = Some exc ->
  Forall is_word32 ws ->
  vaddr_read e (sym_vaddr exc)
    (match next_symbol e exc with Some s => sym_vaddr s - sym_vaddr exc | None => 128 end) = Ok (ppc_code (e_big e) ws) ->
  exists kconf, (kconf = Some $"PPC_FAST_ENDIAN_SWITCH" /\ since [4;15] (a_version a) \/
                 kconf = None /\ before [4;15] (a_version a)) /\
  (endian_switch tgt_low ws -> extract_esoteric_syscalls a e = Ok [(7870, $"switch_endian", sym_name exc, [], kconf)]) /\
  (~ endian_switch tgt_low ws -> extract_esoteric_syscalls a e = Ok []).
Proof.
  intros Hk Ha Hv Hs Hws Hr.
  exists (if ver_geb (a_version a) [4;15] then Some $"PPC_FAST_ENDIAN_SWITCH" else None). split.
  { rewrite since_iff, before_iff, ver_geb_ltb. destruct (ver_ltb (a_version a) [4;15]); auto. }
  unfold extract_esoteric_syscalls. rewrite Hk. unfold ppc_esoteric.
  replace (str_eqb (a_abi a) $"ppc64") with true by (symmetry; now apply str_eqb_eq).
  assert (ver_geb (a_version a) [6;12] = false) as -> by (apply before_iff in Hv; now rewrite ver_geb_ltb, Hv).
  cbn [negb orb]. rewrite Hs. cbv zeta.
  assert (Eb : match next_symbol e exc with Some s => sym_vaddr s | None => sym_vaddr exc + 128 end - sym_vaddr exc =
               match next_symbol e exc with Some s => sym_vaddr s - sym_vaddr exc | None => 128 end)
    by (destruct (next_symbol e exc); lia).
  rewrite Eb, Hr. cbn [bind]. rewrite words_encode by assumption. cbn [bind].
  pose proof (fast_switch_iff ws Hws) as Hf. destruct (ppc_fast_switch ws).
  - split; [reflexivity|]. intros H. exfalso. apply H, Hf. reflexivity.
  - split; [|reflexivity]. intros H. apply Hf in H. discriminate.
Qed.

(** * Matching the reference ni_syscall *)

Lemma vaddr_read_has e v n x : vaddr_read e v n = Ok x -> image_has e v x.
Proof.
  unfold vaddr_read. destruct (vaddr_to_file_offset e v) as [off| | |] eqn:E; try discriminate. cbn [bind].
  unfold file_read. intros H. injection H as <-. exists off.
  destruct (n <? 0); [exists []|exists (skipn (Z.to_nat n) (skipn (Z.to_nat off) (e_file e)))]; (split; [assumption|]).
  - symmetry. apply app_nil_r.
  - symmetry. apply firstn_skipn.
Qed.
Lemma has_vaddr_read e v x : image_has e v x -> vaddr_read e v (len x) = Ok x.
Proof.
  intros (off & rest & Ho & Hs). unfold vaddr_read. rewrite Ho. cbn [bind]. unfold file_read. rewrite Hs.
  pose proof (len_nonneg x). destruct (len x <? 0) eqn:E; [lia|]. f_equal.
  unfold len. rewrite Nat2Z.id. rewrite firstn_app, firstn_all, Nat.sub_diag. cbn. apply app_nil_r.
Qed.

Lemma is_dummy_ref a sym e ni c : read_symbol e ni = Ok c ->
  (exists r, vaddr_read e (sym_real sym) (len c) = Ok r) ->
  (is_dummy_syscall a sym e (Some ni) (Some c) = Ok true <->
   sym_real sym = sym_real ni \/
   (image_has e (sym_real ni) c /\ image_has e (sym_real sym) c) \/
   exists d, dummy_syscall_code a sym e = Ok (Some d)).
Proof.
  intros Hn [r Hr]. unfold is_dummy_syscall. destruct (sym_real sym =? sym_real ni) eqn:E.
  { split; [left; lia|reflexivity]. }
  rewrite Hr. cbn [bind]. destruct (str_eqb r c) eqn:Es.
  - apply str_eqb_eq in Es. subst r. split; [|reflexivity]. intros _. right; left.
    split; eapply vaddr_read_has; eassumption.
  - destruct (dummy_syscall_code a sym e) as [[d|]| | |]; cbn [bind]; split; intros H; try discriminate; try reflexivity; eauto.
    all: exfalso; destruct H as [H|[[_ H]|[d H]]]; [lia| |discriminate].
    all: apply has_vaddr_read in H; rewrite H in Hr; injection Hr as <-; assert (str_eqb c c = true) by (now apply str_eqb_eq); congruence.
Qed.
Lemma is_dummy_noref a sym e : is_dummy_syscall a sym e None None = Ok true <->
  exists d, dummy_syscall_code a sym e = Ok (Some d).
Proof.
  unfold is_dummy_syscall. cbn [bind]. destruct (dummy_syscall_code a sym e) as [[d|]| | |]; cbn [bind]; split; intros H; try discriminate; eauto.
  all: destruct H; discriminate.
Qed.
Lemma is_dummy_unreadable a sym e ni c : sym_real sym <> sym_real ni ->
  (forall r, vaddr_read e (sym_real sym) (len c) <> Ok r) ->
  forall b, is_dummy_syscall a sym e (Some ni) (Some c) <> Ok b.
Proof.
  intros Hne Hr b. unfold is_dummy_syscall. destruct (sym_real sym =? sym_real ni) eqn:E; [lia|].
  destruct (vaddr_read e (sym_real sym) (len c)) as [r| | |]; try discriminate. now destruct (Hr r).
Qed.

Lemma is_dummy_ref_nonempty a sym e ni c :
  read_symbol e ni = Ok c -> len c = sym_size ni -> 0 < sym_size ni ->
  (exists r, vaddr_read e (sym_real sym) (len c) = Ok r) ->
  (is_dummy_syscall a sym e (Some ni) (Some c) = Ok true <->
   sym_real sym = sym_real ni \/
   (image_has e (sym_real ni) c /\ image_has e (sym_real sym) c /\ c <> [] /\ len c = sym_size ni) \/
   exists d, dummy_syscall_code a sym e = Ok (Some d)).
Proof.
  intros H1 H2 H3 H4. rewrite (is_dummy_ref a sym e ni c H1 H4).
  assert (c <> []) by (intros ->; change (len (@nil ascii)) with 0 in H2; lia). tauto.
Qed.
Lemma vaddr_read_0 e v r : vaddr_read e v 0 = Ok r -> r = [].
Proof.
  unfold vaddr_read. destruct (vaddr_to_file_offset e v); try discriminate. cbn [bind]. unfold file_read. cbn. now intros [= <-].
Qed.
Lemma is_dummy_empty a sym e ni : sym_size ni = 0 ->
  (exists r, read_symbol e ni = Ok r) -> (exists r, vaddr_read e (sym_real sym) 0 = Ok r) ->
  read_symbol e ni = Ok [] /\ is_dummy_syscall a sym e (Some ni) (Some []) = Ok true.
Proof.
  intros Hz [r Hr] [r' Hr']. split.
  - rewrite Hr. unfold read_symbol in Hr. rewrite Hz in Hr. apply vaddr_read_0 in Hr. now rewrite Hr.
  - unfold is_dummy_syscall. destruct (_ =? _); [reflexivity|]. change (len (@nil ascii)) with 0. rewrite Hr'.
    apply vaddr_read_0 in Hr'. subst r'. reflexivity.
Qed.
Lemma is_dummy_empty_bug : exists a sym e ni c,
  read_symbol e ni = Ok c /\ is_dummy_syscall a sym e (Some ni) (Some c) = Ok true /\
  sym_real sym <> sym_real ni /\ dummy_syscall_code a sym e = Ok None /\
  exists x y, x <> y /\ image_has e (sym_real ni) [x] /\ image_has e (sym_real sym) [y].
Proof.
  destruct (arch_new KX86 [5;10] $"x64" false) as [a| | |] eqn:Ea; [|discriminate Ea..].
  assert (Hk : a_class a = KX86) by (vm_compute in Ea; injection Ea as <-; reflexivity).
  exists a, (Symbol 4098 4098 2 $"FUNC" $"sys_read"),
    (Elf (bts [1;2;3;4]) false false 62 0 [($".text", Section_ $".text" 4096 0 4)] [] []),
    (Symbol 4096 4096 0 $"NOTYPE" $"sys_ni_syscall"), [].
  split; [reflexivity|]. split; [reflexivity|]. split; [discriminate|]. split.
  - unfold dummy_syscall_code. rewrite Hk. reflexivity.
  - exists (chr 1), (chr 3). split; [discriminate|].
    split; [exists 0, (bts [2;3;4])|exists 2, (bts [4])]; split; reflexivity.
Qed.

Lemma x86_code_exact a sym e c : a_class a = KX86 -> read_symbol e sym = Ok c -> len c = sym_size sym ->
  (x86_stub c -> dummy_syscall_code a sym e = Ok (Some c)) /\
  (~ x86_stub c -> dummy_syscall_code a sym e = Ok None).
Proof. intros Hk. unfold dummy_syscall_code. rewrite Hk. apply x86_dummy_exact. Qed.
Lemma mips_code_exact a sym e c : a_class a = KMips -> read_symbol e sym = Ok c -> len c = sym_size sym ->
  (mips_stub (e_big e) c -> dummy_syscall_code a sym e = Ok (Some c)) /\
  (~ mips_stub (e_big e) c -> dummy_syscall_code a sym e = Ok None).
Proof. intros Hk. unfold dummy_syscall_code. rewrite Hk. apply mips_dummy_exact. Qed.
Lemma arm_code_exact a sym e c : a_class a = KArm -> read_symbol e sym = Ok c -> len c = sym_size sym ->
  (arm_stub c -> dummy_syscall_code a sym e = Ok (Some c)) /\
  (~ arm_stub c -> dummy_syscall_code a sym e = Ok None).
Proof. intros Hk. unfold dummy_syscall_code. rewrite Hk. apply arm_dummy_exact. Qed.
Lemma ppc_code_exact a sym e ws : a_class a = KPowerPC -> Forall is_word32 ws ->
  read_symbol e sym = Ok (ppc_code (e_big e) ws) -> len (ppc_code (e_big e) ws) = sym_size sym ->
  (ppc_stub ws -> dummy_syscall_code a sym e = Ok (Some (ppc_code (e_big e) ws))) /\
  (~ ppc_stub ws -> dummy_syscall_code a sym e = Ok None).
Proof. intros Hk. unfold dummy_syscall_code. rewrite Hk. apply ppc_dummy_exact. Qed.
Lemma ppc_code_odd a sym e c : a_class a = KPowerPC -> read_symbol e sym = Ok c ->
  8 <= sym_size sym -> len c mod 4 <> 0 -> dummy_syscall_code a sym e = Raise StructError.
Proof. intros Hk. unfold dummy_syscall_code. rewrite Hk. apply ppc_dummy_odd. Qed.

Lemma blr_other : ~ filler blr /\ (forall n, ~ down blr n) /\ forall n, ~ up blr n.
Proof.
  assert (Hw : is_word32 blr) by (unfold is_word32, blr; lia).
  pose proof (classify_spec blr Hw) as Hs. assert (E : classify blr = KOther) by reflexivity. now rewrite E in Hs.
Qed.
Lemma ppc_stub_fillers pre : Forall (fun w => is_word32 w /\ filler w) pre ->
  ppc_stub (pre ++ [li_r3 (- ENOSYS); blr]).
Proof.
  intros Hp. assert (Hlt : forall w, In w (pre ++ [li_r3 (- ENOSYS); blr]) -> (forall n, ~ down w n) /\ (forall n, ~ up w n)).
  { intros w Hw. apply in_app_or in Hw as [Hw|[<-|[<-|[]]]].
    - rewrite Forall_forall in Hp. destruct (Hp w Hw). split; intros n; [now apply filler_not_down|now apply filler_not_up].
    - split; apply li_other.
    - split; apply blr_other. }
  split; [|split].
  - clear Hlt. induction Hp as [|w pre [_ Hf] Hp IH]; cbn [app].
    + apply kp_keep; [apply li_other|apply li_other|apply li_other|].
      apply kp_keep; [apply blr_other|apply blr_other|apply blr_other|constructor].
    + apply kp_drop; auto.
  - intros a w b n E Hu. exfalso.
    destruct (Hlt w) as [_ H]; [rewrite E; apply in_or_app; right; left; reflexivity|]. now apply H in Hu.
  - exists None. split; intros w n Hw; now apply Hlt.
Qed.
