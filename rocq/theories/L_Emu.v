(** Lemmas about the x86 dispatcher (C40-C43). *)
From Coq Require Import List Bool Ascii String ZArith Lia ZifyBool ZifyNat Permutation Sorted.
From Verif Require Import PyBase PyFacts M_Utils M_Elf M_Arch L_Arch M_Emu S_Emu.
Import ListNotations.
Open Scope Z_scope.
Open Scope list_scope.

(** * Sets *)

Lemma range_In n : forall a x, In x (range a n) <-> a <= x < a + Z.of_nat n.
Proof.
  induction n as [|n IH]; intros a x; cbn [range In]; [lia|]. rewrite IH. lia.
Qed.
Lemma range_sorted n : forall a, StronglySorted Z.lt (range a n).
Proof.
  induction n as [|n IH]; intros a; cbn [range]; constructor; [apply IH|].
  apply Forall_forall. intros x Hx. apply range_In in Hx. lia.
Qed.
Lemma union_nil_l b : union [] b = b.
Proof. destruct b; reflexivity. Qed.
Lemma union_nil_r a : union a [] = a.
Proof. destruct a; reflexivity. Qed.
Lemma union_cons x a y b : union (x :: a) (y :: b) =
  if x <? y then x :: union a (y :: b) else if y <? x then y :: union (x :: a) b else x :: union a b.
Proof. reflexivity. Qed.
Lemma union_In x : forall a b, In x (union a b) <-> In x a \/ In x b.
Proof.
  induction a as [|y a IHa]; intros b; [rewrite union_nil_l; cbn; tauto|].
  induction b as [|z b IHb]; [rewrite union_nil_r; cbn; tauto|]. rewrite union_cons.
  destruct (y <? z) eqn:E1; [|destruct (z <? y) eqn:E2].
  - cbn [In]. rewrite IHa. cbn [In]. tauto.
  - cbn [In]. rewrite IHb. cbn [In]. tauto.
  - assert (y = z) as <- by lia. cbn [In]. rewrite IHa. tauto.
Qed.
Lemma union_sorted : forall a b, StronglySorted Z.lt a -> StronglySorted Z.lt b -> StronglySorted Z.lt (union a b).
Proof.
  induction a as [|y a IHa]; intros b Ha Hb; [now rewrite union_nil_l|].
  induction b as [|z b IHb]; [now rewrite union_nil_r|]. rewrite union_cons.
  pose proof Ha as Ha'. pose proof Hb as Hb'.
  apply StronglySorted_inv in Ha' as [Sa Fa]. apply StronglySorted_inv in Hb' as [Sb Fb].
  rewrite Forall_forall in Fa, Fb.
  destruct (y <? z) eqn:E1; [|destruct (z <? y) eqn:E2]; constructor; auto; apply Forall_forall; intros x Hx; apply union_In in Hx.
  - destruct Hx as [Hx|[<-|Hx]]; [auto|lia|]. apply Fb in Hx. lia.
  - destruct Hx as [[<-|Hx]|Hx]; [lia| |auto]. apply Fa in Hx. lia.
  - destruct Hx as [Hx|Hx]; [auto|]. apply Fb in Hx. lia.
Qed.
Lemma filter_sorted (p : Z -> bool) l : StronglySorted Z.lt l -> StronglySorted Z.lt (filter p l).
Proof.
  induction 1 as [|x l Hs IH Hf]; cbn; [constructor|]. destruct (p x); [|assumption]. constructor; [assumption|].
  rewrite Forall_forall in *. intros y Hy. apply filter_In in Hy. now apply Hf.
Qed.
Lemma sorted_NoDup l : StronglySorted Z.lt l -> NoDup l.
Proof.
  induction 1 as [|x l Hs IH Hf]; constructor; [|assumption]. rewrite Forall_forall in Hf. intros H. apply Hf in H. lia.
Qed.
Lemma subset_iff a b : subset a b = true <-> incl a b.
Proof.
  unfold subset. rewrite forallb_forall. unfold incl. split; intros H x Hx; apply zin_iff; auto.
Qed.
Lemma sorted_ext a : forall b, StronglySorted Z.lt a -> StronglySorted Z.lt b -> (forall x, In x a <-> In x b) -> a = b.
Proof.
  induction a as [|x a IH]; intros [|y b] Ha Hb H.
  - reflexivity.
  - exfalso. apply (H y). now left.
  - exfalso. apply (H x). now left.
  - apply StronglySorted_inv in Ha as [Sa Fa]. apply StronglySorted_inv in Hb as [Sb Fb].
    rewrite Forall_forall in Fa, Fb.
    assert (x = y) as <-.
    { destruct (H x) as [H1 _]. destruct (H y) as [_ H2].
      destruct H1 as [|H1]; [now left|congruence|]. destruct H2 as [|H2]; [now left|congruence|].
      apply Fb in H1. apply Fa in H2. lia. }
    f_equal. apply IH; auto. intros z. split; intros Hz.
    + destruct (H z) as [H1 _]. destruct H1 as [<-|H1]; [now right| |assumption]. apply Fa in Hz. lia.
    + destruct (H z) as [_ H1]. destruct H1 as [<-|H1]; [now right| |assumption]. apply Fb in Hz. lia.
Qed.

(** * The map of sets *)
Definition okset (l : list Z) : Prop := StronglySorted Z.lt l /\ forall n, In n l -> 0 <= n < nr_max.
Definition okmap (m : nrs_map) : Prop := forall ip, okset (get m ip).
Definition mem (m : nrs_map) (ip n : Z) : Prop := In n (get m ip).

Lemma Zeqb_spec' : forall a b : Z, reflect (a = b) (Z.eqb a b).
Proof. intros a b. apply Z.eqb_spec. Qed.
Lemma get_add m ip s k : get (add m ip s) k = if k =? ip then union (get m ip) s else get m k.
Proof.
  unfold add, get at 1. destruct (k =? ip) eqn:E.
  - assert (k = ip) as -> by lia. rewrite (dget_dset_eq Z.eqb); [reflexivity|]. intros; apply Z.eqb_eq.
  - rewrite (dget_dset_neq Z.eqb); [reflexivity|intros; apply Z.eqb_eq|lia].
Qed.
Lemma mem_add m ip s k n : mem (add m ip s) k n <-> mem m k n \/ (k = ip /\ In n s).
Proof.
  unfold mem. rewrite get_add. destruct (k =? ip) eqn:E.
  - assert (k = ip) as -> by lia. rewrite union_In. tauto.
  - split; [auto|]. intros [H|[H _]]; [assumption|lia].
Qed.
Lemma add_ok m ip s : okmap m -> okset s -> okmap (add m ip s).
Proof.
  intros Hm [Hs Hr] k. split.
  - rewrite get_add. destruct (k =? ip); [|apply Hm]. apply union_sorted; [apply Hm|assumption].
  - intros n Hn. apply mem_add in Hn as [Hn|[_ Hn]]; [now apply (Hm k)|auto].
Qed.
Lemma okset_nil : okset [].
Proof. split; [constructor|intros n []]. Qed.
Lemma okset_filter p l : okset l -> okset (filter p l).
Proof. intros [Hs Hr]. split; [now apply filter_sorted|]. intros n Hn. apply filter_In in Hn. now apply Hr. Qed.

(** * One instruction *)
Section Pass.
Context (same : insn -> insn -> bool) (start stop reg : Z).
Notation estep := (emu_step same start stop reg).
Notation epass := (emu_pass same start stop reg).

Definition flow (imm : option Z) (i : insn) (n dest : Z) : Prop :=
  match i_kind i with
  | IRet => False
  | ITest _ | ICmp _ | IOther => dest = i_next i
  | IJmp t | ICall t => dest = t
  | IJcc c t =>
      match imm with
      | Some z => (taken c z n = true /\ dest = t) \/ (taken c z n = false /\ dest = i_next i)
      | None => False
      end
  end.
Definition cmp_imm (i : insn) : option Z :=
  match i_kind i with
  | ITest _ => Some 0
  | ICmp ops => match op ops 0, op ops 1 with OReg _, OImm z => Some z | OImm z, OReg _ => Some z | _, _ => None end
  | _ => None
  end.
Definition is_test (i : insn) : bool := match i_kind i with ITest _ => true | _ => false end.

(** Case analysis of a successful step. *)
Inductive shape (s : emu) (i : insn) : emu -> Prop :=
| sh_ret : i_kind i = IRet -> shape s i (Emu (s_nrs s) (s_cands s) (s_again s) false (s_imm s) (s_inv s))
| sh_flow imm inv : i_kind i = IOther \/ is_compare i ->
    imm = (match cmp_imm i with Some z => Some z | None => s_imm s end) ->
    (s_inv s = false -> supported reg start stop i -> inv = false) ->
    shape s i (Emu (add (s_nrs s) (i_next i) (get (s_nrs s) (i_ip i))) (s_cands s) (s_again s) (is_test i) imm inv)
| sh_jump t : i_kind i = IJmp t \/ (i_kind i = ICall t /\ inside start stop t = false) ->
    shape s i (branch same start stop i t (get (s_nrs s) (i_ip i)) [] s)
| sh_jcc c t z tk nt : i_kind i = IJcc c t -> s_imm s = Some z -> c <> COther ->
    tk = (fun n => if s_inv s then negb (taken c z n) else taken c z n) ->
    nt = (fun n => if s_inv s then taken c z n else negb (taken c z n)) ->
    shape s i (branch same start stop i t (filter tk (get (s_nrs s) (i_ip i))) (filter nt (get (s_nrs s) (i_ip i))) s).

Lemma step_shape s i s' : estep s i = Some s' -> shape s i s'.
Proof.
  unfold emu_step. cbv zeta. destruct (s_test s && _); [discriminate|].
  destruct (i_kind i) as [|ops|ops|t|c t|t|] eqn:K.
  - intros [= <-]. now constructor.
  - destruct (op ops 0) eqn:E0; try discriminate. destruct (op ops 1) eqn:E1; try discriminate.
    intros [= <-]. pose proof (sh_flow s i (Some 0) (s_inv s)) as H. unfold is_test, cmp_imm, is_compare in H.
    rewrite K in H. apply H; auto.
  - assert (Hc : forall z inv, cmp_imm i = Some z -> (s_inv s = false -> supported reg start stop i -> inv = false) ->
       shape s i (Emu (add (s_nrs s) (i_next i) (get (s_nrs s) (i_ip i))) (s_cands s) (s_again s) false (Some z) inv)).
    { intros z inv Hc Hi. pose proof (sh_flow s i (Some z) inv) as H. unfold is_test, is_compare in H.
      rewrite K in H. apply H; auto. now rewrite Hc. }
    destruct (op ops 0) as [r|z|] eqn:E0; [| |discriminate]; destruct (op ops 1) as [r'|z'|] eqn:E1; try discriminate.
    + destruct (r =? reg); [|discriminate]. intros [= <-]. apply Hc; [|auto]. unfold cmp_imm. now rewrite K, E0, E1.
    + destruct (r' =? reg); [|discriminate]. intros [= <-]. apply Hc.
      * unfold cmp_imm. now rewrite K, E0, E1.
      * intros _ Hs. unfold supported in Hs. rewrite K in Hs. destruct Hs as [z' ->]. discriminate.
  - intros [= <-]. apply sh_jump. auto.
  - assert (Hj : forall z, c <> COther -> s_imm s = Some z ->
      shape s i (if s_inv s
       then branch same start stop i t (filter (fun n => negb (taken c z n)) (get (s_nrs s) (i_ip i)))
              (filter (taken c z) (get (s_nrs s) (i_ip i))) s
       else branch same start stop i t (filter (taken c z) (get (s_nrs s) (i_ip i)))
              (filter (fun n => negb (taken c z n)) (get (s_nrs s) (i_ip i))) s)).
    { intros z Hc Hz. destruct (s_inv s) eqn:Ei.
      - apply (sh_jcc s i c t z); auto; rewrite Ei; reflexivity.
      - apply (sh_jcc s i c t z); auto; rewrite Ei; reflexivity. }
    destruct (s_imm s) as [z|] eqn:Ez; [|destruct c; discriminate].
    destruct c; try discriminate; intros H; injection H as <-; apply Hj; auto; discriminate.
  - destruct (inside start stop t) eqn:E; [discriminate|]. intros [= <-]. apply sh_jump. auto.
  - intros [= <-]. pose proof (sh_flow s i (s_imm s) (s_inv s)) as H. unfold is_test, cmp_imm in H.
    rewrite K in H. apply H; auto.
Qed.

Lemma step_ok s i s' : estep s i = Some s' -> okmap (s_nrs s) -> okmap (s_nrs s').
Proof.
  intros H Hm. apply step_shape in H. destruct H; unfold branch; cbn [s_nrs]; auto;
    repeat apply add_ok; auto using okset_nil, okset_filter.
Qed.

Lemma step_mono s i s' : estep s i = Some s' -> forall k n, mem (s_nrs s) k n -> mem (s_nrs s') k n.
Proof.
  intros H k n Hk. apply step_shape in H. destruct H; unfold branch; cbn [s_nrs]; auto; rewrite ?mem_add; tauto.
Qed.

Lemma step_mem s i s' : estep s i = Some s' -> s_inv s = false -> forall k n,
  mem (s_nrs s') k n <-> mem (s_nrs s) k n \/ (mem (s_nrs s) (i_ip i) n /\ flow (s_imm s) i n k).
Proof.
  intros H Hi k n. unfold flow. apply step_shape in H. destruct H as [K|imm inv K _ _|t K|c t z tk nt K Hz _ -> ->]; unfold branch; cbn [s_nrs].
  - rewrite K. tauto.
  - rewrite mem_add. unfold is_compare in K. destruct (i_kind i); destruct K as [K|K]; try discriminate; try contradiction; unfold mem; tauto.
  - rewrite !mem_add. destruct K as [K|[K _]]; rewrite K; cbn [In]; unfold mem; tauto.
  - rewrite !mem_add. rewrite K, Hz, Hi, !filter_In. unfold mem. destruct (taken c z n); cbn [negb]; intuition congruence.
Qed.

Lemma step_state s i s' : estep s i = Some s' ->
  s_imm s' = (match cmp_imm i with Some z => Some z | None => s_imm s end) /\ s_test s' = is_test i.
Proof.
  intros H. apply step_shape in H. destruct H as [K|imm inv K -> _|t K|c t z tk nt K Hz _ -> ->]; unfold branch; cbn; auto;
    unfold cmp_imm, is_test.
  - rewrite K. auto.
  - destruct K as [K|[K _]]; rewrite K; auto.
  - rewrite K; auto.
Qed.
Lemma step_inv s i s' : estep s i = Some s' -> s_inv s = false -> supported reg start stop i -> s_inv s' = false.
Proof.
  intros H Hi Hs. apply step_shape in H. destruct H; unfold branch; cbn; auto.
Qed.

(** Growth at an address already visited is noticed. *)
Lemma branch_again s i t tk nt : incl tk (get (s_nrs s) (i_ip i)) ->
  s_again (branch same start stop i t tk nt s) = false -> i_ip i < i_next i ->
  s_again s = false /\ forall k n, start <= k < stop -> k <= i_ip i ->
    mem (s_nrs (branch same start stop i t tk nt s)) k n -> mem (s_nrs s) k n.
Proof.
  intros Hin Ha Hn. unfold branch in *. cbn [s_again s_nrs] in *.
  destruct (inside start stop t && (t <? i_ip i) && negb (subset tk (get (s_nrs s) t))) eqn:E; [discriminate|].
  split; [assumption|]. intros k n Hk Hk' Hm. rewrite !mem_add in Hm.
  destruct Hm as [[Hm|[-> Hm]]|[-> Hm]]; [assumption| |lia].
  assert (inside start stop t = true) as Hins by (unfold inside; lia). rewrite Hins in E. cbn [andb] in E.
  destruct (Z.eq_dec t (i_ip i)) as [->|Hne]; [now apply Hin|].
  destruct (t <? i_ip i) eqn:E1; [|lia]. cbn [andb] in E. destruct (subset tk (get (s_nrs s) t)) eqn:E2; [|discriminate].
  apply subset_iff in E2. now apply E2.
Qed.
Lemma step_again s i s' : estep s i = Some s' -> s_again s' = false -> i_ip i < i_next i ->
  s_again s = false /\
  forall k n, start <= k < stop -> k <= i_ip i -> mem (s_nrs s') k n -> mem (s_nrs s) k n.
Proof.
  intros H Ha Hn. apply step_shape in H. destruct H.
  - cbn in *. auto.
  - cbn in *. split; [assumption|]. intros k n Hk Hk' Hm. rewrite mem_add in Hm. destruct Hm as [Hm|[-> _]]; auto; lia.
  - apply branch_again; auto. apply incl_refl.
  - apply branch_again; auto. apply incl_filter.
Qed.

(** * Termination *)
Definition size (ts : list Z) (m : nrs_map) : nat := list_sum (map (fun t => List.length (get m t)) ts).

Lemma range_length_ n : forall a, List.length (range a n) = n.
Proof. induction n as [|n IH]; intros a; cbn; [reflexivity|]. now rewrite IH. Qed.
Lemma okset_len l : okset l -> (List.length l <= Z.to_nat nr_max)%nat.
Proof.
  intros [Hs Hr]. rewrite <- (range_length_ (Z.to_nat nr_max) 0). apply NoDup_incl_length; [now apply sorted_NoDup|].
  intros x Hx. apply range_In. apply Hr in Hx. unfold nr_max in *. lia.
Qed.
Lemma size_bound ts m : okmap m -> (size ts m <= List.length ts * Z.to_nat nr_max)%nat.
Proof.
  intros Hm. unfold size. induction ts as [|t ts IH]; [cbn; lia|]. cbn [map list_sum fold_right List.length].
  pose proof (okset_len _ (Hm t)). unfold list_sum in IH. lia.
Qed.
Lemma length_add_le m ip s k : okmap m -> okset s -> (List.length (get m k) <= List.length (get (add m ip s) k))%nat.
Proof.
  intros Hm Hs. apply NoDup_incl_length; [apply sorted_NoDup, Hm|]. intros x Hx. apply mem_add. now left.
Qed.
Lemma size_add ts m ip s : okmap m -> okset s -> (size ts m <= size ts (add m ip s))%nat.
Proof.
  intros Hm Hs. unfold size. induction ts as [|t ts IH]; [cbn; lia|]. cbn [map list_sum fold_right].
  pose proof (length_add_le m ip s t Hm Hs). unfold list_sum in IH. lia.
Qed.
Lemma size_add_lt ts m ip s : okmap m -> okset s -> In ip ts -> subset s (get m ip) = false ->
  (size ts m < size ts (add m ip s))%nat.
Proof.
  intros Hm Hs Hin Hn. unfold size. induction ts as [|t ts IH]; [destruct Hin|]. cbn [map list_sum fold_right].
  pose proof (size_add ts m ip s Hm Hs) as Hle. unfold size, list_sum in Hle. unfold list_sum in IH.
  pose proof (length_add_le m ip s t Hm Hs) as Ht.
  destruct Hin as [->|Hin]; [|specialize (IH Hin); lia].
  assert (List.length (get m ip) < List.length (get (add m ip s) ip))%nat; [|lia].
  assert (exists x, In x s /\ ~ In x (get m ip)) as (x & Hx & Hx').
  { unfold subset in Hn. clear -Hn. induction s as [|y s IH]; [discriminate|]. cbn [forallb] in Hn.
    destruct (zin y (get m ip)) eqn:E.
    - destruct IH as (x & Hx & Hx'); [exact Hn|]. exists x. split; [now right|assumption].
    - exists y. split; [now left|]. intros H. apply zin_iff in H. congruence. }
  assert (List.length (x :: get m ip) <= List.length (get (add m ip s) ip))%nat; [|cbn in *; lia].
  apply NoDup_incl_length; [constructor; [assumption|apply sorted_NoDup, Hm]|].
  intros y [<-|Hy]; apply mem_add; auto.
Qed.

Lemma branch_size ts s i t tk nt : okmap (s_nrs s) -> okset tk -> okset nt -> In t ts ->
  let s' := branch same start stop i t tk nt s in
  (size ts (s_nrs s) <= size ts (s_nrs s'))%nat /\
  (s_again s = false -> s_again s' = true -> (size ts (s_nrs s) < size ts (s_nrs s'))%nat).
Proof.
  intros Hm Ht Hn Hin s'. unfold s', branch. cbn [s_nrs s_again].
  assert (Hm1 : okmap (add (s_nrs s) t tk)) by now apply add_ok.
  pose proof (size_add ts (s_nrs s) t tk Hm Ht). pose proof (size_add ts (add (s_nrs s) t tk) (i_next i) nt Hm1 Hn).
  split; [lia|]. intros H1 H2. rewrite H1 in H2.
  destruct (inside start stop t && (t <? i_ip i) && negb (subset tk (get (s_nrs s) t))) eqn:E; [|discriminate].
  assert (subset tk (get (s_nrs s) t) = false) as Es by (destruct (subset tk (get (s_nrs s) t)); [|reflexivity]; cbn in E; lia).
  pose proof (size_add_lt ts (s_nrs s) t tk Hm Ht Hin Es). lia.
Qed.
Lemma step_size ts s i s' : okmap (s_nrs s) -> In (target_of i) ts -> estep s i = Some s' ->
  (size ts (s_nrs s) <= size ts (s_nrs s'))%nat /\
  (s_again s = false -> s_again s' = true -> (size ts (s_nrs s) < size ts (s_nrs s'))%nat).
Proof.
  intros Hm Hin H. apply step_shape in H. unfold target_of in Hin. destruct H as [K|imm inv K _ _|t K|c t z tk nt K Hz _ -> ->].
  - cbn. split; [lia|congruence].
  - cbn. split; [apply size_add; auto|congruence].
  - apply branch_size; auto using okset_nil. destruct K as [K|[K _]]; rewrite K in Hin; assumption.
  - apply branch_size; auto using okset_filter. rewrite K in Hin. assumption.
Qed.
Lemma pass_size ts l : forall s s', okmap (s_nrs s) -> (forall i, In i l -> In (target_of i) ts) -> epass s l = Some s' ->
  okmap (s_nrs s') /\ (size ts (s_nrs s) <= size ts (s_nrs s'))%nat /\
  (s_again s = false -> s_again s' = true -> (size ts (s_nrs s) < size ts (s_nrs s'))%nat).
Proof.
  induction l as [|i l IH]; intros s s' Hm Hin H; cbn [emu_pass] in H.
  - injection H as <-. split; [assumption|]. split; [lia|congruence].
  - destruct (estep s i) as [s1|] eqn:E; [|discriminate].
    destruct (IH s1 s') as (Hok & H1 & H2); auto; [eapply step_ok; eauto|intros j Hj; apply Hin; now right|].
    destruct (step_size ts s i s1 Hm (Hin i (or_introl eq_refl)) E) as [H3 H4].
    split; [assumption|]. split; [lia|]. intros H5 H6. destruct (s_again s1) eqn:E1; [specialize (H4 H5 eq_refl)|specialize (H2 eq_refl H6)]; lia.
Qed.
Lemma loop_terminates insns : forall fuel m cands, okmap m ->
  (List.length insns * Z.to_nat nr_max < fuel + size (map target_of insns) m)%nat ->
  emu_loop same start stop reg insns fuel m cands <> Diverge.
Proof.
  induction fuel as [|fuel IH]; intros m cands Hm Hf; cbn [emu_loop].
  - pose proof (size_bound (map target_of insns) m Hm) as Hb. rewrite map_length in Hb. lia.
  - destruct (epass (Emu m cands false false None false) insns) as [s|] eqn:E; [|discriminate].
    destruct (pass_size (map target_of insns) insns (Emu m cands false false None false) s Hm (fun i Hi => in_map target_of insns i Hi) E) as (Hok & _ & Hlt).
    destruct (s_again s) eqn:Ea; [|discriminate]. apply IH; [assumption|]. specialize (Hlt eq_refl eq_refl). cbn [s_nrs] in Hlt. lia.
Qed.
End Pass.

Lemma init_ok start : okmap [(start, range 0 (Z.to_nat nr_max))].
Proof.
  intros ip. unfold get. cbn [dget]. destruct (ip =? start); [|apply okset_nil].
  split; [apply range_sorted|]. intros n Hn. apply range_In in Hn. unfold nr_max in *. lia.
Qed.
Lemma emulate_terminates same start stop insns : emulate same start stop insns <> Diverge.
Proof.
  unfold emulate. destruct (find_nr_reg insns); [|discriminate]. apply loop_terminates; [apply init_ok|]. unfold emu_fuel. lia.
Qed.
