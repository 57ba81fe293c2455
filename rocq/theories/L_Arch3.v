(** Lemmas about the Kconfig state of the arch classes (C05). *)
From Coq Require Import List Bool Ascii String ZArith Lia ZifyBool.
From Verif Require Import PyBase PyFacts M_Utils S_Utils L_Utils M_Elf M_Syscall M_KconfigTables M_Arch S_Arch L_Arch.
Import ListNotations.
Open Scope Z_scope.
Open Scope list_scope.

Definition vers_after (l : list kentry) (vs : dict vrange (dict str (list str))) :=
  vd_versions (kc_add_all l (VDict vs [])).

Lemma kc_add_all_cache l d : vd_cache (kc_add_all l d) = vd_cache d.
Proof.
  unfold kc_add_all. revert d. induction l as [|[[[x y] k] z] l IH]; intros d; cbn [fold_left]; [reflexivity|].
  rewrite IH. reflexivity.
Qed.
Lemma kc_add_all_versions l d d' : vd_versions d = vd_versions d' ->
  vd_versions (kc_add_all l d) = vd_versions (kc_add_all l d').
Proof.
  unfold kc_add_all. revert d d'. induction l as [|[[[x y] k] z] l IH]; intros d d' H; cbn [fold_left]; [assumption|].
  apply IH. unfold vd_add. cbn [vd_versions]. now rewrite H.
Qed.

(** Adding the same options again changes nothing. *)
Lemma adds_idem k abi b : let A := vd_versions (kc_add_all (init_kconfig k abi b) (world0 k)) in
  vers_after (init_kconfig k abi b) A = A.
Proof.
  unfold init_kconfig. destruct k; [destruct (str_eqb abi $"eabi")| |destruct b|destruct b|destruct b|destruct b];
    vm_compute; reflexivity.
Qed.

Lemma kc_idem k abi b d : vd_versions d = vd_versions (kc_add_all (init_kconfig k abi b) (world0 k)) ->
  vd_versions (kc_add_all (init_kconfig k abi b) d) = vd_versions (kc_add_all (init_kconfig k abi b) (world0 k)).
Proof.
  intros H. rewrite <- (adds_idem k abi b) at 1. unfold vers_after. now apply kc_add_all_versions.
Qed.

Lemma same_kind_init a b : same_kind a b ->
  init_kconfig (a_class a) (a_abi a) (a_bits32 a) = init_kconfig (a_class b) (a_abi b) (a_bits32 b).
Proof.
  intros [<- H]. unfold init_kconfig. destruct (a_class a); try (now rewrite H). reflexivity.
Qed.

Definition full (a : arch) : dict vrange (dict str (list str)) :=
  vd_versions (kc_add_all (init_kconfig (a_class a) (a_abi a) (a_bits32 a)) (world0 (a_class a))).
Lemma full_same a b : same_kind a b -> full a = full b.
Proof. intros H. unfold full. rewrite (same_kind_init _ _ H). destruct H as [-> _]. reflexivity. Qed.

Definition good (p : process) : Prop :=
  (forall k, (forall a, In a (p_objs p) -> a_class a <> k) -> p_world p k = world0 k) /\
  (forall a, In a (p_objs p) -> arch_new (a_class a) (a_version a) (a_abi a) (a_bits32 a) = Ok a) /\
  (forall a, In a (p_objs p) -> (forall a', In a' (p_objs p) -> a_class a' = a_class a -> same_kind a a') ->
    vd_versions (p_world p (a_class a)) = full a /\
    forall v c, dget ver_eqb v (vd_cache (p_world p (a_class a))) = Some c ->
      c = vd_getversion str_eqb (VDict (full a) []) v).

Lemma klass_eqb_refl k : klass_eqb k k = true.
Proof. now destruct k. Qed.
Lemma klass_eqb_neq k k' : k <> k' -> klass_eqb k k' = false.
Proof. destruct (klass_eqb k k') eqn:E; [|reflexivity]. apply klass_eqb_eq in E. congruence. Qed.
Lemma klass_dec (k k' : klass) : {k = k'} + {k <> k'}.
Proof. decide equality. Qed.

Lemma vd_getversion_vers (d : kconf) v : vd_getversion str_eqb (VDict (vd_versions d) []) v = vd_getversion str_eqb d v.
Proof. reflexivity. Qed.

Lemma same_kind_refl a : same_kind a a.
Proof. split; [reflexivity|]. destruct (a_class a); auto. Qed.
Lemma same_kind_sym a b : same_kind a b -> same_kind b a.
Proof. intros [E H]. split; [auto|]. rewrite <- E. destruct (a_class a); auto. Qed.

Lemma run_good h : good (run_process h).
Proof.
  unfold run_process. induction h as [|x h IH] using rev_ind.
  { split; [reflexivity|]. split; intros a []. }
  rewrite fold_left_app. cbn [fold_left]. set (p := fold_left act_step h process0) in *. clearbody p. clear h.
  destruct p as [w objs]. destruct IH as (I1 & I2 & I3). cbn [p_world p_objs] in *.
  destruct x as [k v abi b|i v]; cbn [act_step p_world p_objs].
  - unfold instantiate. destruct (arch_new k v abi b) as [a| | |] eqn:En; cbn [bind]; [|repeat split; eauto; apply I3; auto..].
    pose proof (arch_new_fields _ _ _ _ _ En) as (Hk & Hv & Habi & Hb & _).
    split; [|split]; cbn [p_world p_objs].
    + intros k' Hk'. unfold set_kconf. rewrite klass_eqb_neq.
      * apply I1. intros a' Ha'. apply Hk'. apply in_or_app. now left.
      * rewrite <- Hk. intros E. apply (Hk' a); [apply in_or_app; right; left; reflexivity|auto].
    + intros a' Ha'. apply in_app_or in Ha' as [Ha'|[<-|[]]]; [now apply I2|]. now rewrite Hk, Hv, Habi, Hb.
    + intros a' Ha' Hs.
      assert (Hall : forall a'', In a'' objs -> a_class a'' = a_class a' -> same_kind a' a'')
        by (intros a'' H''; apply Hs; apply in_or_app; now left).
      unfold set_kconf. destruct (klass_dec (a_class a') k) as [E|E].
      * rewrite E, klass_eqb_refl, kc_add_all_cache.
        assert (Haa : same_kind a' a) by (apply Hs; [apply in_or_app; right; left; reflexivity|congruence]).
        assert (Hf : full a' = vd_versions (kc_add_all (init_kconfig k abi b) (world0 k)))
          by (rewrite (full_same _ _ Haa); unfold full; now rewrite Hk, Habi, Hb).
        assert (Hcase : (exists a'', In a'' objs /\ a_class a'' = k) \/ forall a'', In a'' objs -> a_class a'' <> k).
        { clear. induction objs as [|o objs IH]; [right; intros ? []|].
          destruct (klass_dec (a_class o) k) as [E|E]; [left; exists o; split; [left; reflexivity|assumption]|].
          destruct IH as [(a'' & H1 & H2)|IH]; [left; exists a''; split; [now right|assumption]|].
          right. intros a'' [<-|H]; auto. }
        destruct Hcase as [(a'' & Hin & Hk'')|Hnone].
        -- assert (Hs'' : same_kind a' a'') by (apply Hall; congruence).
           destruct (I3 a'' Hin) as [Hv1 Hv2].
           { intros c Hc Hck. destruct (Hall c Hc ltac:(congruence)) as [P1 P2]. destruct Hs'' as [Q1 Q2].
             split; [congruence|]. rewrite <- Q1. destruct (a_class a'); congruence. }
           rewrite Hk'' in Hv1, Hv2. rewrite <- (full_same _ _ Hs'') in Hv1, Hv2. split.
           ++ rewrite kc_idem by (rewrite Hv1; exact Hf). symmetry. exact Hf.
           ++ exact Hv2.
        -- rewrite (I1 k Hnone). split; [symmetry; exact Hf|]. intros v' c Hc.
           assert (vd_cache (world0 k) = []) as Hn by (destruct k; reflexivity). rewrite Hn in Hc. discriminate.
      * rewrite klass_eqb_neq by assumption. apply in_app_or in Ha' as [Ha'|[<-|[]]]; [|congruence].
        now apply I3.
  - destruct (nth_error objs i) as [a|] eqn:Ei; [|repeat split; cbn; eauto; apply I3; auto].
    apply nth_error_In in Ei. unfold arch_kconfig.
    destruct (vd_getitem str_eqb (w (a_class a)) v) as [r d] eqn:Eg. cbn [snd].
    unfold vd_getitem in Eg.
    split; [|split]; cbn [p_world p_objs].
    + intros k' Hk'. unfold set_kconf. rewrite klass_eqb_neq; [now apply I1|]. intros E. apply (Hk' a); auto.
    + assumption.
    + intros a' Ha' Hs. unfold set_kconf. destruct (klass_dec (a_class a') (a_class a)) as [E|E].
      * destruct (I3 a' Ha' Hs) as [Hv1 Hv2]. rewrite E in Hv1, Hv2. rewrite E, klass_eqb_refl.
        destruct (dget ver_eqb v (vd_cache (w (a_class a)))) as [c|] eqn:Ec; injection Eg as <- <-; [auto|].
        cbn [vd_versions vd_cache]. split; [assumption|]. intros v' c Hc.
        rewrite (dget_dset ver_eqb ver_eqb_eq) in Hc. destruct (ver_eqb v' v) eqn:Ev; [|now apply Hv2].
        apply ver_eqb_eq in Ev. subst v'. injection Hc as <-. rewrite <- Hv1. symmetry. apply vd_getversion_vers.
      * rewrite klass_eqb_neq by assumption. now apply I3.
Qed.

Lemma fresh_eq a v : arch_new (a_class a) (a_version a) (a_abi a) (a_bits32 a) = Ok a ->
  fresh_kconfig a v = Some (vd_getversion str_eqb (VDict (full a) []) v).
Proof.
  intros H. unfold fresh_kconfig, run_process. cbn [fold_left act_step process0 p_world p_objs].
  unfold instantiate. rewrite H. cbn [bind p_objs p_world app]. unfold arch_kconfig, set_kconf.
  rewrite klass_eqb_refl. unfold vd_getitem. rewrite kc_add_all_cache.
  assert (vd_cache (world0 (a_class a)) = []) as -> by (destruct (a_class a); reflexivity).
  reflexivity.
Qed.

Lemma kconfig_isolated h a v : let p := run_process h in
  In a (p_objs p) -> (forall a', In a' (p_objs p) -> a_class a' = a_class a -> same_kind a a') ->
  fresh_kconfig a v = Some (fst (arch_kconfig a v (p_world p))).
Proof.
  intros p Ha Hs. destruct (run_good h) as (_ & I2 & I3). fold p in I2, I3.
  destruct (I3 a Ha Hs) as [Hv1 Hv2]. rewrite fresh_eq by now apply I2. unfold arch_kconfig, vd_getitem.
  destruct (dget ver_eqb v (vd_cache (p_world p (a_class a)))) as [c|] eqn:Ec; cbn [fst].
  - f_equal. symmetry. now apply Hv2.
  - rewrite <- Hv1. now rewrite vd_getversion_vers.
Qed.

(** Instances of other classes never matter: the same history without them. *)
Definition about (k : klass) (objs : list arch) (x : act) : Prop :=
  match x with
  | New k' _ _ _ => k' = k
  | Ask i _ => exists a, nth_error objs i = Some a /\ a_class a = k
  end.
Lemma other_class_step p x k : ~ about k (p_objs p) x -> p_world (act_step p x) k = p_world p k.
Proof.
  destruct p as [w objs]. destruct x as [k' v abi b|i v]; cbn [about act_step p_objs p_world]; intros H.
  - unfold instantiate. destruct (arch_new k' v abi b); cbn; try reflexivity. unfold set_kconf.
    rewrite klass_eqb_neq by congruence. reflexivity.
  - destruct (nth_error objs i) as [a|] eqn:E; [|reflexivity]. cbn [p_world].
    unfold arch_kconfig. destruct (vd_getitem str_eqb (w (a_class a)) v) as [r d]. cbn [snd]. unfold set_kconf.
    rewrite klass_eqb_neq; [reflexivity|]. intros Ek. apply H. eauto.
Qed.

(** A 32-bit x86 instance changes what a later 64-bit one asks for. *)
Lemma kconfig_leak : exists h a v, In a (p_objs (run_process h)) /\
  fresh_kconfig a v <> Some (fst (arch_kconfig a v (p_world (run_process h)))).
Proof.
  destruct (arch_new KX86 [5;0] $"x64" false) as [a| | |] eqn:E; [|discriminate E..].
  exists [New KX86 [5;0] $"ia32" true; New KX86 [5;0] $"x64" false], a, [5;0]. split.
  - cbn -[arch_new]. injection E as <-. vm_compute. auto.
  - injection E as <-. vm_compute. discriminate.
Qed.
Lemma other_class_step' p x k :
  match x with
  | New k' _ _ _ => k' <> k
  | Ask i _ => forall a, nth_error (p_objs p) i = Some a -> a_class a <> k
  end ->
  p_world (act_step p x) k = p_world p k.
Proof.
  intros H. apply other_class_step. destruct x; cbn; [assumption|]. intros (a & H1 & H2). now apply (H a).
Qed.
