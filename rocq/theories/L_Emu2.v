(** The emulation is exact (C41, C42). *)
From Coq Require Import List Bool Ascii String ZArith Lia ZifyBool ZifyNat Permutation Sorted.
From Verif Require Import PyBase PyFacts M_Utils M_Elf M_Arch L_Arch M_Emu S_Emu L_Emu.
Import ListNotations.
Open Scope Z_scope.
Open Scope list_scope.

(** * Layout *)
Lemma cf_app p : forall a q b, code_from a (p ++ q) b -> exists c, code_from a p c /\ code_from c q b.
Proof.
  induction p as [|i p IH]; intros a q b H; cbn [app] in H.
  - exists a. split; [constructor|assumption].
  - inversion H as [|i' l b' Hlt Hc]; subst. destruct (IH _ _ _ Hc) as (c & H1 & H2).
    exists c. split; [constructor; assumption|assumption].
Qed.
Lemma cf_le a l b : code_from a l b -> a <= b.
Proof. induction 1; lia. Qed.
Lemma cf_range a l b : code_from a l b -> forall i, In i l -> a <= i_ip i < i_next i /\ i_next i <= b.
Proof.
  induction 1 as [a|i l b Hlt Hc IH]; intros j Hj; [destruct Hj|].
  pose proof (cf_le _ _ _ Hc). destruct Hj as [<-|Hj]; [lia|]. specialize (IH j Hj). lia.
Qed.
Lemma cf_split a p i q b : code_from a (p ++ i :: q) b ->
  code_from a p (i_ip i) /\ i_ip i < i_next i /\ code_from (i_next i) q b.
Proof.
  intros H. apply cf_app in H as (c & H1 & H2). inversion H2; subst. auto.
Qed.
Lemma cf_pred a p x k q b i : code_from a (p ++ x :: k :: q) b -> In i (p ++ x :: k :: q) ->
  i_next i = i_ip k -> i = x.
Proof.
  intros H Hin E. apply cf_split in H as (H1 & H2 & H3). apply (cf_split _ [] k q b) in H3 as (H4 & H5 & H6).
  inversion H4; subst. apply in_app_or in Hin as [Hin|[Hin|[Hin|Hin]]]; [|auto| |].
  - apply (cf_range _ _ _ H1) in Hin. lia.
  - subst k. lia.
  - apply (cf_range _ _ _ H6) in Hin. lia.
Qed.
Lemma cf_same_ip a l b p i q j : code_from a l b -> l = p ++ i :: q -> In j l -> i_ip j = i_ip i -> j = i.
Proof.
  intros H -> Hin E. apply cf_split in H as (H1 & H2 & H3). apply in_app_or in Hin as [Hin|[Hin|Hin]]; [|auto|].
  - apply (cf_range _ _ _ H1) in Hin. lia.
  - apply (cf_range _ _ _ H3) in Hin. lia.
Qed.

Lemma destruct_list_last {A} (l : list A) : l = [] \/ exists l' x, l = l' ++ [x].
Proof. induction l as [|x l _] using rev_ind; eauto. Qed.
Lemma app_split_last {A} (mid : list A) j a x k b : mid ++ [j] = a ++ x :: k :: b -> In x mid.
Proof.
  revert a. induction mid as [|y mid IH]; intros a E.
  - destruct a as [|a0 [|a1 a]]; discriminate E.
  - destruct a as [|a0 a]; injection E as <- E; [now left|]. right. eapply IH; eauto.
Qed.

(** * Flags *)
Definition upd (acc : option Z) (i : insn) : option Z := match cmp_imm i with Some z => Some z | None => acc end.
Definition lin (pre : list insn) : option Z := fold_left upd pre None.
Lemma lin_snoc pre i : lin (pre ++ [i]) = upd (lin pre) i.
Proof. unfold lin. now rewrite fold_left_app. Qed.
Lemma lin_mid pre c mid z : cmp_imm c = Some z -> Forall passes mid -> lin (pre ++ c :: mid) = Some z.
Proof.
  intros Hc Hm. induction mid as [|x mid IH] using rev_ind.
  - rewrite lin_snoc. unfold upd. now rewrite Hc.
  - apply Forall_app in Hm as [Hm Hx]. rewrite app_comm_cons, app_assoc, lin_snoc, IH by assumption.
    inversion Hx as [|? ? Hp _]; subst. unfold upd, cmp_imm. unfold passes in Hp. now destruct (i_kind x).
Qed.

Section Disp.
Context (same : insn -> insn -> bool) (reg start stop : Z) (prog : list insn) (D : dispatcher reg start stop prog).
Context (same_target : forall a b, same a b = true -> i_kind a = i_kind b).

Lemma sup i : In i prog -> supported reg start stop i.
Proof. intros H. pose proof (d_supported _ _ _ _ D) as Hf. rewrite Forall_forall in Hf. auto. Qed.
Lemma compare_imm i : In i prog -> is_compare i -> exists z, cmp_imm i = Some z.
Proof.
  intros Hin Hc. apply sup in Hin. unfold supported, is_compare, cmp_imm in *.
  destruct (i_kind i); try contradiction; [eauto|]. destruct Hin as [z ->]. cbn. eauto.
Qed.

(** What a step does to the flags, and where it goes. *)
Lemma step_flags n i f ip f' : In i prog -> step n i f ip f' -> f' = upd f i.
Proof.
  intros Hin H. destruct H as [r z K|r K|t K|c t z K _ _|c t z K _ _|t K|K]; unfold upd, cmp_imm; rewrite K; reflexivity.
Qed.
Lemma step_where n i f ip f' : step n i f ip f' -> ip = i_next i \/ branches_to i ip.
Proof.
  intros H. unfold branches_to. destruct H; eauto.
Qed.

Lemma fresh_flags pre j post n f : prog = pre ++ j :: post -> (exists c t, i_kind j = IJcc c t) ->
  (reach start prog n (i_ip j) f -> f = lin pre) /\ exists z, lin pre = Some z.
Proof.
  intros Hp Hj. destruct (d_fresh _ _ _ _ D pre j post Hp Hj) as (pre' & c & mid & -> & Hc & Hmid & Hno).
  assert (Hcin : In c prog) by (rewrite Hp; apply in_or_app; left; apply in_or_app; right; left; reflexivity).
  destruct (compare_imm c Hcin Hc) as [z Hz]. rewrite (lin_mid pre' c mid z Hz Hmid). split; [|eauto].
  pose proof (d_code _ _ _ _ D) as Hcode.
  assert (G : forall ip g, reach start prog n ip g -> forall k, In k (mid ++ [j]) -> ip = i_ip k -> g = Some z).
  { intros ip g Hr. induction Hr as [|i g ip' g' Hr IH Hin Hs]; intros k Hk E.
    - exfalso. rewrite Hp, <- app_assoc in Hcode. cbn [app] in Hcode. apply cf_split in Hcode as (H1 & H2 & H3).
      pose proof (cf_le _ _ _ H1). assert (In k (mid ++ j :: post)) as Hk'.
      { apply in_app_or in Hk as [Hk|[<-|[]]]; apply in_or_app; [auto|right; now left]. }
      apply (cf_range _ _ _ H3) in Hk'. lia.
    - destruct (step_where _ _ _ _ _ Hs) as [E'|Hb]; [|exfalso; apply (Hno k i Hk Hin); now rewrite <- E].
      rewrite (step_flags _ _ _ _ _ Hin Hs). subst ip'.
      (* the predecessor of k *)
      apply in_split in Hk as (m1 & m2 & Em).
      assert (exists p x q, prog = p ++ x :: k :: q /\ (x = c \/ (In x mid /\ In x (mid ++ [j])))) as (p & x & q & Ep & Hx).
      { destruct (destruct_list_last m1) as [->|(m1' & x & ->)].
        - exists pre', c. assert (prog = pre' ++ c :: (mid ++ [j]) ++ post) as Ep by (rewrite Hp, <- !app_assoc; reflexivity).
          rewrite Em in Ep. exists (m2 ++ post). split; [exact Ep|now left].
        - exists (pre' ++ c :: m1'), x, (m2 ++ post). split.
          + assert (prog = pre' ++ c :: (mid ++ [j]) ++ post) as Ep by (rewrite Hp, <- !app_assoc; reflexivity).
            rewrite Em in Ep. rewrite Ep. rewrite <- !app_assoc. cbn. rewrite <- ?app_assoc. reflexivity.
          + right. assert (In x (mid ++ [j])) as Hx by (rewrite Em; apply in_or_app; left; apply in_or_app; right; now left).
            split; [|exact Hx]. rewrite <- app_assoc in Em. cbn in Em.
            apply app_split_last in Em. exact Em. }
      rewrite Ep in Hcode, Hin. assert (i = x) as -> by (eapply cf_pred; eauto).
      destruct Hx as [->|[Hx Hx']].
      + unfold upd. now rewrite Hz.
      + rewrite Forall_forall in Hmid. specialize (Hmid x Hx). specialize (IH x Hx' eq_refl). subst g.
        unfold upd, cmp_imm. unfold passes in Hmid. now destruct (i_kind x). }
  intros Hr. apply (G _ _ Hr j); [apply in_or_app; right; now left|reflexivity].
Qed.

Lemma taken_holds c z n : c <> COther -> 0 <= n < nr_max -> (taken c z n = true <-> holds c n z).
Proof. intros Hc Hn. unfold taken, holds. destruct c; try congruence; lia. Qed.

Lemma step_flow pre i post n f k f' : prog = pre ++ i :: post -> reach start prog n (i_ip i) f -> 0 <= n < nr_max ->
  step n i f k f' -> flow (lin pre) i n k.
Proof.
  intros Hp Hr Hn Hs. assert (Hin : In i prog) by (rewrite Hp; apply in_or_app; right; now left).
  unfold flow. destruct Hs as [r z K|r K|t K|c t z K Hf Hh|c t z K Hf Hh|t K|K]; rewrite K; try reflexivity.
  - destruct (fresh_flags pre i post n f Hp) as [Hl _]; [eauto|]. rewrite <- (Hl Hr), Hf.
    left. split; [|reflexivity]. apply sup in Hin. unfold supported in Hin. rewrite K in Hin. now apply taken_holds.
  - destruct (fresh_flags pre i post n f Hp) as [Hl _]; [eauto|]. rewrite <- (Hl Hr), Hf.
    right. split; [|reflexivity]. apply sup in Hin. unfold supported in Hin. rewrite K in Hin.
    destruct (taken c z n) eqn:E; [|reflexivity]. apply taken_holds in E; auto. contradiction.
Qed.
Lemma flow_step pre i post n f k : prog = pre ++ i :: post -> reach start prog n (i_ip i) f -> 0 <= n < nr_max ->
  flow (lin pre) i n k -> exists f', step n i f k f'.
Proof.
  intros Hp Hr Hn Hs. assert (Hin : In i prog) by (rewrite Hp; apply in_or_app; right; now left).
  apply sup in Hin. unfold flow in Hs. unfold supported in Hin. destruct (i_kind i) as [|ops|ops|t|c t|t|] eqn:K.
  - destruct Hs.
  - subst k ops. exists (Some 0). eapply st_test; eauto.
  - destruct Hin as [z ->]. subst k. exists (Some z). eapply st_cmp; eauto.
  - subst k. exists f. now apply st_jmp.
  - destruct (fresh_flags pre i post n f Hp) as [Hl [z Hz]]; [eauto|]. specialize (Hl Hr). rewrite Hz in *.
    exists f. destruct Hs as [[Ht ->]|[Ht ->]].
    + eapply st_taken; eauto. now apply taken_holds.
    + eapply st_not_taken; eauto. intros H. apply taken_holds in H; auto. congruence.
  - subst k. exists f. now apply st_call.
  - subst k. exists f. now apply st_other.
Qed.

(** * Passes *)
Definition sound (m : nrs_map) : Prop := forall k n, mem m k n -> reaches start prog n k.
Definition closed (pre : list insn) (m : nrs_map) : Prop :=
  forall p i q, pre = p ++ i :: q -> forall n k, mem m (i_ip i) n -> flow (lin p) i n k -> mem m k n.
Notation is_exit := (exits start stop).
Definition cands_sound (l : list insn) : Prop :=
  forall i, In i l -> In i prog /\ is_exit i (target_of i).
Definition cands_complete (pre l : list insn) : Prop :=
  forall i t, In i pre -> is_exit i t -> exists c, In c l /\ target_of c = t.
Record base (m : nrs_map) (l : list insn) : Prop := {
  b_ok : okmap m; b_sound : sound m; b_start : forall n, 0 <= n < nr_max -> mem m start n;
  b_cands : cands_sound l }.
Record inv (pre : list insn) (s : emu) : Prop := {
  v_base : base (s_nrs s) (s_cands s);
  v_imm : s_imm s = lin pre;
  v_inv : s_inv s = false;
  v_test : s_test s = true -> exists p i ops, pre = p ++ [i] /\ i_kind i = ITest ops;
  v_closed : s_again s = false -> closed pre (s_nrs s);
  v_complete : cands_complete pre (s_cands s) }.

Lemma branches_target i t : branches_to i t -> target_of i = t.
Proof. unfold branches_to, target_of. intros [K|[K|[c K]]]; now rewrite K. Qed.
Lemma inside_iff t : inside start stop t = true <-> start <= t < stop.
Proof. unfold inside. lia. Qed.

Lemma step_succeeds pre i post s : prog = pre ++ i :: post -> inv pre s ->
  exists s', emu_step same start stop reg s i = Some s'.
Proof.
  intros Hp V. assert (Hin : In i prog) by (rewrite Hp; apply in_or_app; right; now left).
  unfold emu_step. cbv zeta.
  assert (s_test s && negb match i_kind i with IJcc CE _ | IJcc CNE _ => true | _ => false end = false) as ->.
  { destruct (s_test s) eqn:Et; [|reflexivity]. destruct (v_test _ _ V Et) as (p & x & ops & -> & Kx).
    destruct (d_tests _ _ _ _ D p x i post) as [t [K|K]]; [rewrite Hp, <- app_assoc; reflexivity|eauto|rewrite K; reflexivity..]. }
  pose proof (sup i Hin) as Hs. unfold supported in Hs. destruct (i_kind i) as [|ops|ops|t|c t|t|] eqn:K; eauto.
  - subst ops. cbn. eauto.
  - destruct Hs as [z ->]. cbn. rewrite Z.eqb_refl. eauto.
  - destruct (fresh_flags pre i post 0 None Hp) as [_ [z Hz]]; [eauto|]. rewrite (v_imm _ _ V), Hz.
    destruct c; eauto. congruence.
  - destruct (inside start stop t) eqn:E; [|eauto]. apply inside_iff in E. contradiction.
Qed.

Lemma step_cands s i s' : emu_step same start stop reg s i = Some s' ->
  (forall x, In x (s_cands s') -> In x (s_cands s) \/ (x = i /\ is_exit i (target_of i))) /\
  (forall x, In x (s_cands s) -> In x (s_cands s')) /\
  (forall t, is_exit i t -> exists c, In c (s_cands s') /\ target_of c = t).
Proof.
  assert (Hb : forall t tk nt, branches_to i t ->
    (forall x, In x (s_cands (branch same start stop i t tk nt s)) -> In x (s_cands s) \/ (x = i /\ is_exit i (target_of i))) /\
    (forall x, In x (s_cands s) -> In x (s_cands (branch same start stop i t tk nt s))) /\
    (forall t', is_exit i t' -> exists c, In c (s_cands (branch same start stop i t tk nt s)) /\ target_of c = t')).
  { intros t tk nt Hbr. unfold branch. cbn [s_cands]. destruct (inside start stop t) eqn:E.
    - split; [auto|]. split; [auto|]. intros t' [Hb' Ho]. exfalso. apply branches_target in Hbr, Hb'. apply inside_iff in E. congruence.
    - assert (He : is_exit i (target_of i)).
      { rewrite (branches_target _ _ Hbr). split; [assumption|]. rewrite <- inside_iff. congruence. }
      unfold add_cand. destruct (existsb (same i) (s_cands s)) eqn:Ex.
      + split; [auto|]. split; [auto|]. intros t' [Hb' _]. apply existsb_exists in Ex as (x & Hx & Hs).
        exists x. split; [assumption|]. apply same_target in Hs. apply branches_target. unfold branches_to in *. now rewrite <- Hs.
      + split; [intros x Hx; apply in_app_or in Hx as [Hx|[<-|[]]]; auto|].
        split; [intros x Hx; apply in_or_app; auto|]. intros t' [Hb' _]. exists i. split; [apply in_or_app; right; now left|].
        now apply branches_target. }
  intros H. apply step_shape in H. destruct H as [K|imm inv K _ _|t K|c t z tk nt K Hz _ -> ->].
  - cbn. split; [auto|]. split; [auto|]. intros t [[Hb'|[Hb'|[c Hb']]] _]; congruence.
  - cbn. split; [auto|]. split; [auto|]. intros t [Hb' _]. exfalso. unfold branches_to, is_compare in *.
    destruct (i_kind i); destruct K as [K|K]; try discriminate; try contradiction; destruct Hb' as [Hb'|[Hb'|[c Hb']]]; discriminate.
  - apply Hb. unfold branches_to. destruct K as [K|[K _]]; auto.
  - apply Hb. unfold branches_to. eauto.
Qed.

Lemma step_inv_ pre i post s s' : prog = pre ++ i :: post -> inv pre s ->
  emu_step same start stop reg s i = Some s' -> inv (pre ++ [i]) s'.
Proof.
  intros Hp V Hs. assert (Hin : In i prog) by (rewrite Hp; apply in_or_app; right; now left).
  pose proof (d_code _ _ _ _ D) as Hcode. rewrite Hp in Hcode. pose proof (cf_split _ _ _ _ _ Hcode) as (Hc1 & Hc2 & Hc3).
  pose proof (v_base _ _ V) as B. pose proof (step_mem _ _ _ _ _ _ _ Hs (v_inv _ _ V)) as Hmem. rewrite (v_imm _ _ V) in Hmem.
  destruct (step_cands _ _ _ Hs) as (C1 & C2 & C3). destruct (step_state _ _ _ _ _ _ _ Hs) as [St1 St2].
  split.
  - split.
    + eapply step_ok; [exact Hs|apply B].
    + intros k n Hk. apply Hmem in Hk as [Hk|[Hk Hfl]]; [now apply (b_sound _ _ B)|].
      assert (0 <= n < nr_max) by (apply (b_ok _ _ B) in Hk; assumption).
      destruct (b_sound _ _ B _ _ Hk) as [f Hr]. destruct (flow_step pre i post n f k Hp Hr H Hfl) as [f' Hst].
      exists f'. eapply rc_step; eauto.
    + intros n Hn. apply Hmem. left. now apply (b_start _ _ B).
    + intros x Hx. apply C1 in Hx as [Hx|[-> He]]; [now apply (b_cands _ _ B)|auto].
  - rewrite lin_snoc, St1, (v_imm _ _ V). reflexivity.
  - eapply step_inv; [exact Hs|apply V|now apply sup].
  - rewrite St2. unfold is_test. intros Ht. exists pre, i. destruct (i_kind i) eqn:K; try discriminate. eauto.
  - intros Ha p x q E n k Hm Hfl.
    destruct (step_again _ _ _ _ _ _ _ Hs Ha Hc2) as [Ha' Hback].
    assert (Hstop : forall y, In y (pre ++ [i]) -> start <= i_ip y < stop /\ i_ip y <= i_ip i).
    { pose proof (cf_le _ _ _ Hc3). pose proof (cf_le _ _ _ Hc1). intros y Hy.
      apply in_app_or in Hy as [Hy|[<-|[]]]; [|lia]. apply (cf_range _ _ _ Hc1) in Hy. lia. }
    assert (Hx : In x (pre ++ [i])) by (rewrite E; apply in_or_app; right; now left).
    destruct (Hstop x Hx) as [Hx1 Hx2]. pose proof (Hback _ _ Hx1 Hx2 Hm) as Hm0. apply Hmem.
    destruct (destruct_list_last q) as [->|(q' & y & ->)].
    + apply app_inj_tail in E as [<- <-]. right. auto.
    + rewrite app_comm_cons, app_assoc in E. apply app_inj_tail in E as [-> <-]. left.
      eapply (v_closed _ _ V Ha'); [reflexivity|eassumption|assumption].
  - intros x t Hx He. apply in_app_or in Hx as [Hx|[<-|[]]]; [|now apply C3].
    destruct (v_complete _ _ V x t Hx He) as (c & Hc & Ht). eauto.
Qed.

Lemma pass_inv l : forall pre s, prog = pre ++ l -> inv pre s ->
  exists s', emu_pass same start stop reg s l = Some s' /\ inv prog s'.
Proof.
  induction l as [|i l IH]; intros pre s Hp V; cbn [emu_pass].
  - exists s. split; [reflexivity|]. now rewrite Hp, app_nil_r.
  - destruct (step_succeeds pre i l s Hp V) as [s1 E]. rewrite E.
    apply (IH (pre ++ [i])); [rewrite Hp, <- app_assoc; reflexivity|]. eapply step_inv_; eauto.
Qed.
Lemma inv_init m l : base m l -> inv [] (Emu m l false false None false).
Proof.
  intros B. split; cbn; auto; try discriminate.
  - intros _ p i q E. destruct p; discriminate E.
  - intros i t [].
Qed.
Lemma loop_inv fuel : forall m l m' l' , base m l ->
  emu_loop same start stop reg prog fuel m l = Ok (Some (m', l')) ->
  base m' l' /\ closed prog m' /\ cands_complete prog l'.
Proof.
  induction fuel as [|fuel IH]; intros m l m' l' B H; cbn [emu_loop] in H; [discriminate|].
  destruct (pass_inv prog [] _ eq_refl (inv_init _ _ B)) as (s & E & V). rewrite E in H.
  destruct (s_again s) eqn:Ea; [apply (IH _ _ _ _ (v_base _ _ V) H)|].
  injection H as <- <-. split; [apply V|]. split; [now apply V|apply V].
Qed.
Lemma loop_some fuel : forall m l, base m l ->
  emu_loop same start stop reg prog fuel m l = Diverge \/
  exists x, emu_loop same start stop reg prog fuel m l = Ok (Some x).
Proof.
  induction fuel as [|fuel IH]; intros m l B; cbn [emu_loop]; [now left|].
  destruct (pass_inv prog [] _ eq_refl (inv_init _ _ B)) as (s & E & V). rewrite E.
  destruct (s_again s) eqn:Ea; [apply IH, V|right; eauto].
Qed.

Lemma find_reg : find_nr_reg prog = Some reg.
Proof.
  pose proof (d_supported _ _ _ _ D) as Hs. destruct (d_compares _ _ _ _ D) as (i & Hin & Hc). clear D same_target.
  induction prog as [|x l IH]; [destruct Hin|]. inversion Hs as [|? ? Hx Hs']; subst. cbn [find_nr_reg].
  unfold supported in Hx. unfold is_compare in Hc. destruct Hin as [->|Hin].
  - destruct (i_kind i); try contradiction; [subst ops; reflexivity|destruct Hx as [z ->]; reflexivity].
  - destruct (i_kind x) as [|ops|ops| | | |]; try (apply IH; assumption); [subst ops; reflexivity|destruct Hx as [z ->]; reflexivity].
Qed.

Lemma base_init : base [(start, range 0 (Z.to_nat nr_max))] [].
Proof.
  split.
  - apply init_ok.
  - intros k n. unfold mem, get. cbn [dget]. destruct (k =? start) eqn:E; [|intros []].
    assert (k = start) as -> by lia. intros _. exists None. constructor.
  - intros n Hn. unfold mem, get. cbn [dget]. rewrite Z.eqb_refl. apply range_In. unfold nr_max in *. lia.
  - intros i [].
Qed.

Lemma emulate_exact : exists m l, emulate same start stop prog = Ok (Some (m, l)) /\
  (forall n k, In n (get m k) <-> 0 <= n < nr_max /\ reaches start prog n k) /\
  (forall i, In i l -> In i prog /\ is_exit i (target_of i)) /\
  (forall i t, In i prog -> is_exit i t -> exists c, In c l /\ target_of c = t).
Proof.
  unfold emulate. rewrite find_reg.
  pose proof (loop_terminates same start stop reg prog (emu_fuel prog) [(start, range 0 (Z.to_nat nr_max))] [] (init_ok start)) as HT.
  destruct (loop_some (emu_fuel prog) _ _ base_init) as [E|[[m l] E]].
  { exfalso. apply HT; [unfold emu_fuel; lia|exact E]. }
  rewrite E. exists m, l. split; [reflexivity|].
  destruct (loop_inv (emu_fuel prog) _ _ m l base_init E) as (B & Hcl & Hcc).
  split; [|split; [apply B|exact Hcc]]. intros n k. split.
  - intros Hn. split; [now apply (b_ok _ _ B) in Hn|now apply (b_sound _ _ B)].
  - intros [Hn [f Hr]]. change (mem m k n). induction Hr as [|i f k f' Hr IH Hin Hs]; [now apply B|].
    apply in_split in Hin as (p & q & Ep). apply (Hcl p i q Ep _ _ IH). eapply step_flow; eauto.
Qed.
End Disp.
