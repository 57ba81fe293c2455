(** Lemmas about the model of utils.py. *)
From Coq Require Import List Bool Ascii String ZArith Lia Permutation ZifyBool ZifyNat.
From Verif Require Import PyBase PyFacts M_Utils S_Utils.
Import ListNotations.
Open Scope Z_scope.
Open Scope list_scope.

(** * Versions *)

Lemma ver_ltb_lexlt a b : ver_ltb a b = true <-> lexlt a b.
Proof.
  split.
  - revert b; induction a as [|x a IH]; intros [|y b]; cbn; try congruence.
    + intros _. constructor.
    + destruct (x <? y) eqn:E1; [intros _; constructor; lia|].
      destruct (y <? x) eqn:E2; [congruence|].
      intros H. replace y with x by lia. apply lex_eq. auto.
  - induction 1; cbn.
    + reflexivity.
    + replace (x <? y) with true by lia. reflexivity.
    + rewrite Z.ltb_irrefl. assumption.
Qed.

Lemma ver_leb_lexle a b : ver_leb a b = true <-> lexle a b.
Proof.
  unfold ver_leb, lexle. split.
  - intros H. destruct (ver_ltb a b) eqn:E.
    + right. now apply ver_ltb_lexlt.
    + left. apply ver_ltb_total; [assumption|]. now destruct (ver_ltb b a).
  - intros [->|H].
    + now rewrite ver_ltb_irrefl.
    + apply ver_ltb_lexlt in H. now rewrite (ver_ltb_asym _ _ H).
Qed.

Lemma in_vrange_within r v : in_vrange r v = true <-> within r v.
Proof.
  unfold in_vrange, within. rewrite andb_true_iff, ver_leb_lexle, ver_ltb_lexlt. reflexivity.
Qed.

Lemma in_vrange_false r v : in_vrange r v = false <-> ~ within r v.
Proof. rewrite <- in_vrange_within. destruct (in_vrange r v); split; congruence. Qed.

Lemma vrange_eqb_eq a b : vrange_eqb a b = true <-> a = b.
Proof.
  unfold vrange_eqb. rewrite andb_true_iff, !ver_eqb_eq. destruct a, b; cbn. split; [intros [-> ->]|intros [= -> ->]]; auto.
Qed.

Definition version_order_statement : Prop :=
  (forall a, ver_ltb a a = false) /\
  (forall a b c, ver_ltb a b = true -> ver_ltb b c = true -> ver_ltb a c = true) /\
  (forall a b, ver_ltb a b = true \/ a = b \/ ver_ltb b a = true) /\
  (forall a b, ver_ltb a b = true <-> lexlt a b) /\
  (forall a b, ver_leb a b = true <-> a = b \/ lexlt a b).

Lemma version_order : version_order_statement.
Proof.
  repeat split; intros.
  - apply ver_ltb_irrefl.
  - eapply ver_ltb_trans; eassumption.
  - destruct (ver_ltb a b) eqn:E; [auto|]. destruct (ver_ltb b a) eqn:E2; [auto|].
    right; left. now apply ver_ltb_total.
  - now apply ver_ltb_lexlt.
  - now apply ver_ltb_lexlt.
  - apply ver_leb_lexle. assumption.
  - apply ver_leb_lexle. assumption.
Qed.

Lemma ranges_partition a b c v : ver_leb a b = true -> ver_leb b c = true ->
  in_vrange (a, c) v = in_vrange (a, b) v || in_vrange (b, c) v /\
  in_vrange (a, b) v && in_vrange (b, c) v = false.
Proof.
  intros Hab Hbc. unfold in_vrange; cbn. split.
  - destruct (ver_leb a v) eqn:E1; destruct (ver_ltb v c) eqn:E2;
    destruct (ver_ltb v b) eqn:E3; destruct (ver_leb b v) eqn:E4; cbn; try reflexivity.
    all: exfalso.
    all: try (unfold ver_leb in E4; rewrite E3 in E4; discriminate).
    all: try (pose proof (ver_lt_leb_trans _ _ _ E3 Hbc); congruence).
    all: try (pose proof (ver_leb_trans _ _ _ Hab E4); congruence).
  - destruct (ver_ltb v b) eqn:E3; destruct (ver_leb b v) eqn:E4; cbn;
      rewrite ?andb_false_r; try reflexivity.
    unfold ver_leb in E4. rewrite E3 in E4. discriminate.
Qed.

(** * VersionedDict *)

Section VD.
  Context {K V : Type} (eqb : K -> K -> bool).
  Hypothesis eqb_eq : forall a b, eqb a b = true <-> a = b.

  Notation add1 := (fun d (a : addition K V) => vd_add eqb (fst (a_range a)) (snd (a_range a)) (a_key a) (a_val a) d).
  Definition vd_adds (h : list (addition K V)) : vdict K V := fold_left add1 h vd_empty.

  Lemma vd_adds_snoc h a : vd_adds (h ++ [a]) = add1 (vd_adds h) a.
  Proof. unfold vd_adds. now rewrite fold_left_app. Qed.

  Lemma vd_new_adds l : vd_new eqb l = vd_adds (map (fun '(a, b, k, x) => ((a, b), k, x)) l).
  Proof.
    unfold vd_new, vd_adds. generalize (@vd_empty K V). induction l as [|[[[a b] k] x] l IH]; intros d; cbn; [reflexivity|].
    apply IH.
  Qed.

  Lemma vd_add_eta r k x (d : vdict K V) :
    vd_add eqb (fst r) (snd r) k x d =
    VDict (dset vrange_eqb r (dset eqb k x (match dget vrange_eqb r (vd_versions d) with Some i => i | None => [] end)) (vd_versions d)) (vd_cache d).
  Proof. destruct r; reflexivity. Qed.

  Lemma vd_adds_keys_nodup h : NoDup (dkeys (vd_versions (vd_adds h))).
  Proof.
    induction h using rev_ind; [constructor|].
    rewrite vd_adds_snoc, vd_add_eta. cbn [vd_versions]. apply dset_NoDup; [apply vrange_eqb_eq|assumption].
  Qed.

  Lemma vd_adds_range_used h r : In r (dkeys (vd_versions (vd_adds h))) <-> exists a, In a h /\ a_range a = r.
  Proof.
    induction h using rev_ind; [cbn; firstorder|].
    rewrite vd_adds_snoc, vd_add_eta. cbn [vd_versions].
    rewrite dkeys_dset_in by apply vrange_eqb_eq. rewrite IHh. split.
    - intros [->|(a & H1 & H2)].
      + exists x. split; [apply in_or_app; right; left; auto|reflexivity].
      + exists a. split; [apply in_or_app; auto|assumption].
    - intros (a & H1 & H2). apply in_app_or in H1 as [H1|[->|[]]]; eauto.
  Qed.

  (** Keys occur in order of first use. *)
  Lemma vd_adds_keys_order h l1 r l2 r' : dkeys (vd_versions (vd_adds h)) = l1 ++ r :: l2 -> In r' l2 ->
    forall i i', first_use h r i -> first_use h r' i' -> (i < i')%nat.
  Proof.
    revert l2. induction h as [|a h IH] using rev_ind; intros l2 E Hin i i' Hi Hi'.
    - cbn in E. destruct l1; discriminate.
    - rewrite vd_adds_snoc, vd_add_eta in E. cbn [vd_versions] in E.
      rewrite dset_keys in E.
      assert (Hlen : forall rr j, first_use (h ++ [a]) rr j -> In rr (dkeys (vd_versions (vd_adds h))) -> first_use h rr j).
      { intros rr j [[b [Hb Hr]] Hf] Hu. apply vd_adds_range_used in Hu as (b' & Hb' & Hr').
        apply In_nth_error in Hb' as [n Hn].
        assert (n < List.length h)%nat by (apply nth_error_Some; congruence).
        assert (j <= n)%nat.
        { destruct (Nat.le_gt_cases j n); [assumption|]. exfalso. apply (Hf n b'); auto.
          now rewrite nth_error_app1. }
        split.
        - exists b. split; [|assumption]. rewrite nth_error_app1 in Hb by lia. assumption.
        - intros m b2 Hm Hb2. apply (Hf m b2 Hm). now rewrite nth_error_app1 by lia. }
      destruct (dmem vrange_eqb (a_range a) (vd_versions (vd_adds h))) eqn:Em.
      + apply (IH l2 E Hin); apply Hlen; auto; rewrite E; apply in_or_app; right; [left; reflexivity|right; assumption].
      + (* appended at the end *)
        all: destruct (exists_last (l := l2)) as (l2' & z & ->);
             [intros ->; destruct Hin|].
        all: rewrite app_comm_cons, app_assoc in E; apply app_inj_tail in E as [E <-].
        all: assert (Hr : first_use h r i)
               by (apply Hlen; [assumption|]; rewrite E; apply in_or_app; right; left; reflexivity).
        all: apply in_app_or in Hin as [Hin|[Hz|[]]].
        all: try (apply (IH l2' E Hin); [assumption|]; apply Hlen; [assumption|]; rewrite E; apply in_or_app; right; right; assumption).
        all: subst r'.
        all: destruct Hr as [[b [Hb _]] _]; assert (i < List.length h)%nat by (apply nth_error_Some; congruence).
        all: destruct Hi' as [[b' [Hb' Hr']] _].
        all: destruct (Nat.lt_ge_cases i' (List.length h)) as [Hlt|Hge]; [|lia].
        all: exfalso; rewrite nth_error_app1 in Hb' by assumption.
        all: assert (In (a_range a) (dkeys (vd_versions (vd_adds h))))
               by (apply vd_adds_range_used; exists b'; split; [eapply nth_error_In; eassumption|assumption]).
        all: unfold dmem in Em; destruct (dget vrange_eqb (a_range a) (vd_versions (vd_adds h))) eqn:Eg; [discriminate|].
        all: apply dget_None in Eg; [contradiction|apply vrange_eqb_eq].
  Qed.

  (** Contents of a range: the last values added. *)
  Definition range_bindings (h : list (addition K V)) (r : vrange) : list (K * V) :=
    map (fun a => (a_key a, a_val a)) (filter (fun a => vrange_eqb (a_range a) r) h).

  Lemma vd_adds_contents h r inner : dget vrange_eqb r (vd_versions (vd_adds h)) = Some inner ->
    NoDup (dkeys inner) /\ forall k, dget eqb k inner = last_binding eqb k (range_bindings h r).
  Proof.
    revert inner. induction h as [|a h IH] using rev_ind; intros inner H.
    - discriminate.
    - rewrite vd_adds_snoc, vd_add_eta in H. cbn [vd_versions] in H.
      rewrite (dget_dset vrange_eqb vrange_eqb_eq) in H.
      unfold range_bindings. rewrite filter_app, map_app.
      destruct (vrange_eqb r (a_range a)) eqn:E.
      + apply vrange_eqb_eq in E. subst r. injection H as <-. cbn [filter].
        assert (vrange_eqb (a_range a) (a_range a) = true) as -> by now apply vrange_eqb_eq.
        destruct (dget vrange_eqb (a_range a) (vd_versions (vd_adds h))) eqn:Eg.
        * destruct (IH _ eq_refl) as [H1 H2]. split; [now apply dset_NoDup|].
          intros k. rewrite last_binding_app. cbn [map last_binding fst snd].
          rewrite (dget_dset eqb eqb_eq). destruct (eqb k (a_key a)); [reflexivity|]. apply H2.
        * split; [apply dset_NoDup; [assumption|constructor]|].
          intros k. rewrite last_binding_app. cbn [map last_binding dset dget].
          destruct (eqb k (a_key a)); [reflexivity|].
          assert (filter (fun a0 => vrange_eqb (a_range a0) (a_range a)) h = []) as ->; [|reflexivity].
          apply dget_None in Eg; [|apply vrange_eqb_eq].
          rewrite vd_adds_range_used in Eg.
          destruct (filter (fun a0 => vrange_eqb (a_range a0) (a_range a)) h) as [|b l] eqn:Ef; [reflexivity|].
          exfalso. apply Eg. exists b. assert (In b (b :: l)) as Hb by (left; reflexivity).
          rewrite <- Ef in Hb. apply filter_In in Hb as [Hb Hv]. apply vrange_eqb_eq in Hv. auto.
      + cbn [filter]. assert (vrange_eqb (a_range a) r = false) as ->.
        { destruct (vrange_eqb (a_range a) r) eqn:E2; [|reflexivity]. apply vrange_eqb_eq in E2. subst.
          assert (vrange_eqb (a_range a) (a_range a) = true) by now apply vrange_eqb_eq. congruence. }
        cbn. rewrite app_nil_r. apply IH, H.
  Qed.

  (** Lookup: the last range, in key order, that contains v and has k. *)
  Definition lastopt {A} (l : list A) : option A :=
    match rev l with [] => None | x :: _ => Some x end.

  Lemma lastopt_app {A} (a b : list A) :
    lastopt (a ++ b) = match lastopt b with Some x => Some x | None => lastopt a end.
  Proof. unfold lastopt. rewrite rev_app_distr. now destruct (rev b). Qed.

  Definition candidates (v : version) (k : K) (l : dict vrange (dict K V)) : list V :=
    flat_map (fun '(r, dct) => if in_vrange r v
      then match dget eqb k dct with Some x => [x] | None => [] end else []) l.

  Lemma getversion_fold v (l : dict vrange (dict K V)) (acc : dict K V) k :
    (forall r dct, In (r, dct) l -> NoDup (dkeys dct)) ->
    dget eqb k (fold_left (fun res '(r, dct) => if in_vrange r v then dupdate eqb res dct else res) l acc) =
    match lastopt (candidates v k l) with
    | Some x => Some x
    | None => dget eqb k acc
    end.
  Proof.
    unfold candidates.
    revert acc; induction l as [|[r dct] l IH]; intros acc Hl; cbn [fold_left flat_map]; [reflexivity|].
    rewrite IH by (intros; eapply Hl; right; eassumption). rewrite lastopt_app.
    destruct (lastopt (flat_map _ l)); [reflexivity|].
    destruct (in_vrange r v); [|reflexivity].
    rewrite dget_dupdate by assumption.
    rewrite last_binding_nodup by (assumption || (eapply Hl; left; reflexivity)).
    destruct (dget eqb k dct); reflexivity.
  Qed.

  Lemma candidates_last v k l x :
    lastopt (candidates v k l) = Some x <->
    exists l1 r inner l2,
      l = l1 ++ (r, inner) :: l2 /\ in_vrange r v = true /\ dget eqb k inner = Some x /\
      forall r' inner', In (r', inner') l2 -> in_vrange r' v = true -> dget eqb k inner' = None.
  Proof.
    induction l as [|[r inner] l IH] using rev_ind.
    - cbn. split; [congruence|]. intros ([|] & ? & ? & ? & ? & _); discriminate.
    - unfold candidates in *. rewrite flat_map_app, lastopt_app. cbn [flat_map]. rewrite app_nil_r.
      split.
      + intros H.
        assert (Hcase : (in_vrange r v = true /\ dget eqb k inner = Some x) \/
                        ((in_vrange r v = true -> dget eqb k inner = None) /\
                         lastopt (flat_map (fun '(r, dct) => if in_vrange r v
      then match dget eqb k dct with Some x => [x] | None => [] end else []) l) = Some x)).
        { destruct (in_vrange r v); [destruct (dget eqb k inner)|]; cbn in H;
            [left; split; congruence|right; split; auto|right; split; [congruence|auto]]. }
        destruct Hcase as [[H1 H2]|[H1 H2]].
        * exists l, r, inner, []. repeat split; auto. intros ? ? [].
        * apply IH in H2 as (l1 & r1 & i1 & l2 & -> & H2 & H3 & H4).
          exists l1, r1, i1, (l2 ++ [(r, inner)]). rewrite <- app_assoc. repeat split; auto.
          intros r' i' Hin Hv. apply in_app_or in Hin as [Hin|[[= -> ->]|[]]]; eauto.
      + intros (l1 & r1 & i1 & l2 & E & H1 & H2 & H3).
        destruct l2 as [|p l2] using rev_ind.
        * apply app_inj_tail in E as [-> [= -> ->]]. rewrite H1, H2. reflexivity.
        * clear IHl2. rewrite app_comm_cons, app_assoc in E. apply app_inj_tail in E as [-> <-].
          assert (Hs := proj2 IH). rewrite Hs.
          -- destruct (in_vrange r v) eqn:Ev; [|reflexivity].
             rewrite (H3 r inner); [reflexivity| |assumption]. apply in_or_app. right. left. reflexivity.
          -- exists l1, r1, i1, l2. repeat split; auto. intros. eapply H3; [apply in_or_app; left; eassumption|assumption].
  Qed.

  Lemma getversion_spec h v k x :
    dget eqb k (vd_getversion eqb (vd_adds h) v) = Some x <->
    exists l1 r inner l2,
      vd_versions (vd_adds h) = l1 ++ (r, inner) :: l2 /\ in_vrange r v = true /\
      dget eqb k inner = Some x /\
      forall r' inner', In (r', inner') l2 -> in_vrange r' v = true -> dget eqb k inner' = None.
  Proof.
    unfold vd_getversion. rewrite getversion_fold.
    - rewrite <- candidates_last. cbn [dget]. destruct (lastopt (candidates v k (vd_versions (vd_adds h)))); reflexivity.
    - intros r inner Hin. apply (vd_adds_contents h r).
      apply dget_In_nodup; [apply vrange_eqb_eq|apply vd_adds_keys_nodup|assumption].
  Qed.

  Lemma last_value_binding h r k x : last_value h r k x <-> last_binding eqb k (range_bindings h r) = Some x.
  Proof.
    split.
    - intros (h1 & h2 & -> & Hn). unfold range_bindings. rewrite filter_app. cbn [filter].
      replace (vrange_eqb (a_range (r, k, x)) r) with true by (symmetry; now apply vrange_eqb_eq).
      rewrite map_app, last_binding_app. cbn [map last_binding].
      replace (last_binding eqb k (map _ (filter _ h2))) with (@None V).
      + replace (eqb k (a_key (r, k, x))) with true by (symmetry; now apply eqb_eq). reflexivity.
      + symmetry. apply last_binding_None; [assumption|]. intros x' Hin.
        apply in_map_iff in Hin as ([[r0 k0] x0] & [= E1 E2] & Hf). apply filter_In in Hf as [Hf Hv].
        apply vrange_eqb_eq in Hv. cbn in *. subst. now apply (Hn x').
    - induction h as [|[[r0 k0] x0] h IH]; unfold range_bindings; cbn [filter map last_binding]; [congruence|].
      destruct (vrange_eqb (a_range (r0, k0, x0)) r) eqn:E.
      + cbn [map last_binding].
        change (map (fun a => (a_key a, a_val a)) (filter (fun b => vrange_eqb (a_range b) r) h)) with (range_bindings h r).
        destruct (last_binding eqb k (range_bindings h r)) eqn:El.
        * intros [= ->]. destruct (IH eq_refl) as (h1 & h2 & -> & Hn). exists ((r0, k0, x0) :: h1), h2. auto.
        * destruct (eqb k (a_key (r0, k0, x0))) eqn:Ek; [|congruence]. intros [= ->].
          apply eqb_eq in Ek. apply vrange_eqb_eq in E. cbn in *. subst.
          exists [], h. split; [reflexivity|]. intros x' Hin.
          pose proof (proj1 (last_binding_None eqb eqb_eq k0 (range_bindings h r)) El x') as Hx. apply Hx.
          apply in_map_iff. exists (r, k0, x'). split; [reflexivity|]. apply filter_In. split; [assumption|].
          now apply vrange_eqb_eq.
      + change (map (fun a => (a_key a, a_val a)) (filter (fun b => vrange_eqb (a_range b) r) h)) with (range_bindings h r).
        intros H. destruct (IH H) as (h1 & h2 & -> & Hn). exists ((r0, k0, x0) :: h1), h2. auto.
  Qed.

  Lemma first_use_exists (h : list (addition K V)) r : (exists a, In a h /\ a_range a = r) -> exists i, first_use h r i.
  Proof.
    induction h as [|a h IH] using rev_ind; intros (b & Hb & Hr); [destruct Hb|].
    destruct (in_dec (fun x y : vrange => ltac:(decide equality; apply (list_eq_dec Z.eq_dec))) r (map a_range h)) as [Hin|Hn].
    - apply in_map_iff in Hin as (c & Hc & Hc').
      destruct IH as (i & [(d & Hd & Hd') Hf]); [eauto|]. exists i.
      assert (i < List.length h)%nat by (apply nth_error_Some; congruence).
      split; [exists d; now rewrite nth_error_app1|].
      intros j e Hj He. apply (Hf j e Hj). rewrite nth_error_app1 in He by lia. assumption.
    - apply in_app_or in Hb as [Hb|[->|[]]].
      + exfalso. apply Hn. apply in_map_iff. eauto.
      + exists (List.length h). split.
        * exists b. rewrite nth_error_app2, Nat.sub_diag by lia. auto.
        * intros j e Hj He Er. apply Hn. rewrite nth_error_app1 in He by lia.
          apply in_map_iff. exists e. split; [assumption|eapply nth_error_In; eassumption].
  Qed.

  Lemma first_use_fun (h : list (addition K V)) r i j : first_use h r i -> first_use h r j -> i = j.
  Proof.
    intros [(a & Ha & Ra) Hi] [(b & Hb & Rb) Hj].
    destruct (Nat.lt_trichotomy i j) as [H|[H|H]]; [|assumption|].
    - exfalso. eapply Hj; eauto.
    - exfalso. eapply Hi; eauto.
  Qed.

  (** C02 on a fresh version. *)
  Lemma vd_lookup_fresh h v k x :
    dget eqb k (vd_getversion eqb (vd_adds h) v) = Some x <-> applicable_value h v k x.
  Proof.
    rewrite getversion_spec. split.
    - intros (l1 & r & inner & l2 & E & Hv & Hk & Hlast).
      assert (Hr : dget vrange_eqb r (vd_versions (vd_adds h)) = Some inner).
      { apply dget_In_nodup; [apply vrange_eqb_eq|apply vd_adds_keys_nodup|].
        rewrite E. apply in_or_app. right. left. reflexivity. }
      assert (Hu : exists a, In a h /\ a_range a = r).
      { apply vd_adds_range_used. rewrite E. unfold dkeys. rewrite map_app. apply in_or_app. right. left. reflexivity. }
      destruct (first_use_exists h r Hu) as [i Hi].
      exists r, i. split; [now apply in_vrange_within|]. split; [assumption|]. split.
      + apply last_value_binding. rewrite <- Hk. symmetry. now apply (vd_adds_contents h r).
      + intros r' i' Hv' [x' Hx'] Hi'.
        apply in_vrange_within in Hv'.
        assert (Hin : In r' (dkeys (vd_versions (vd_adds h)))) by (apply vd_adds_range_used; exists (r', k, x'); auto).
        assert (Ek : dkeys (vd_versions (vd_adds h)) = map fst l1 ++ r :: map fst l2)
          by (rewrite E; unfold dkeys; now rewrite map_app).
        rewrite Ek in Hin. apply in_app_or in Hin as [Hin|[->|Hin]].
        * (* before *)
          apply in_split in Hin as (m1 & m2 & Em). rewrite Em in Ek. rewrite <- app_assoc in Ek. cbn in Ek.
          assert (i' < i)%nat; [|lia].
          eapply (vd_adds_keys_order h m1 r' (m2 ++ r :: map fst l2) r Ek); eauto.
          apply in_or_app. right. left. reflexivity.
        * rewrite (first_use_fun _ _ _ _ Hi Hi'). lia.
        * exfalso. apply in_map_iff in Hin as ([r2 inner'] & [= <-] & Hin).
          assert (Hr2 : dget vrange_eqb r2 (vd_versions (vd_adds h)) = Some inner').
          { apply dget_In_nodup; [apply vrange_eqb_eq|apply vd_adds_keys_nodup|].
            rewrite E. apply in_or_app. right. right. assumption. }
          pose proof (proj2 (vd_adds_contents h r2 inner' Hr2) k) as Hc.
          rewrite (Hlast _ _ Hin Hv') in Hc. symmetry in Hc.
          pose proof (proj1 (last_binding_None eqb eqb_eq k _) Hc x') as Hx. apply Hx.
          apply in_map_iff. exists (r2, k, x'). split; [reflexivity|]. apply filter_In. split; [assumption|].
          now apply vrange_eqb_eq.
    - intros (r & i & Hv & Hi & Hl & Hmax).
      assert (Hu : exists a, In a h /\ a_range a = r).
      { destruct Hi as [(a & Ha & Hr) _]. exists a. split; [eapply nth_error_In; eassumption|assumption]. }
      apply vd_adds_range_used in Hu. unfold dkeys in Hu. apply in_map_iff in Hu as ([r0 inner] & Er & Hin).
      cbn in Er. subst r0. apply in_split in Hin as (l1 & l2 & E).
      exists l1, r, inner, l2. split; [assumption|]. split; [now apply in_vrange_within|].
      assert (Hr : dget vrange_eqb r (vd_versions (vd_adds h)) = Some inner).
      { apply dget_In_nodup; [apply vrange_eqb_eq|apply vd_adds_keys_nodup|].
        rewrite E. apply in_or_app. right. left. reflexivity. }
      split.
      + rewrite (proj2 (vd_adds_contents h r inner Hr)). now apply last_value_binding.
      + intros r' inner' Hin Hv'.
        assert (Hr2 : dget vrange_eqb r' (vd_versions (vd_adds h)) = Some inner').
        { apply dget_In_nodup; [apply vrange_eqb_eq|apply vd_adds_keys_nodup|].
          rewrite E. apply in_or_app. right. right. assumption. }
        rewrite (proj2 (vd_adds_contents h r' inner' Hr2)).
        apply last_binding_None; [assumption|]. intros x' Hx'.
        apply in_map_iff in Hx' as ([[r2 k2] x2] & Ex & Hf). cbn in Ex. injection Ex as -> ->. apply filter_In in Hf as [Hf Hvv].
        apply vrange_eqb_eq in Hvv. cbn in Hvv. subst r2.
        destruct (first_use_exists h r') as [i' Hi']; [exists (r', k, x'); auto|].
        assert (Hle : (i' <= i)%nat).
        { apply (Hmax r' i'); [now apply in_vrange_within|exists x'; exact Hf|exact Hi']. }
        assert (i < i')%nat; [|lia].
        eapply (vd_adds_keys_order h (map fst l1) r (map fst l2) r'); eauto.
        * rewrite E. unfold dkeys. now rewrite map_app.
        * apply in_map_iff. exists (r', inner'). auto.
  Qed.

  (** Histories with lookups. *)
  Definition vd_step (d : vdict K V) (o : op K V) : vdict K V :=
    match o with
    | OAdd a => add1 d a
    | OLook v => snd (vd_getitem eqb d v)
    end.
  Definition vd_run (h : list (op K V)) : vdict K V := fold_left vd_step h vd_empty.

  Definition adds_of (h : list (op K V)) : list (addition K V) :=
    flat_map (fun o => match o with OAdd a => [a] | OLook _ => [] end) h.

  Lemma vd_run_snoc h o : vd_run (h ++ [o]) = vd_step (vd_run h) o.
  Proof. unfold vd_run. now rewrite fold_left_app. Qed.

  Lemma vd_run_versions h : vd_versions (vd_run h) = vd_versions (vd_adds (adds_of h)).
  Proof.
    induction h as [|o h IH] using rev_ind; [reflexivity|].
    rewrite vd_run_snoc. unfold adds_of. rewrite flat_map_app. fold (adds_of h).
    destruct o as [a|v]; cbn [flat_map app vd_step].
    - rewrite vd_adds_snoc, !vd_add_eta. cbn [vd_versions]. now rewrite IH.
    - rewrite app_nil_r. unfold vd_getitem. destruct (dget ver_eqb v (vd_cache (vd_run h))); cbn; assumption.
  Qed.

  Lemma vd_getversion_versions d1 d2 v : vd_versions d1 = vd_versions d2 ->
    vd_getversion (V := V) eqb d1 v = vd_getversion eqb d2 v.
  Proof. unfold vd_getversion. now intros ->. Qed.

  Lemma adds_before_no_look h v : ~ looked_up v h ->
    adds_before_look ver_eqb v h = adds_of (h : list (op K V)).
  Proof.
    induction h as [|[a|w] h IH]; intros Hn; cbn; [reflexivity| |].
    - f_equal. apply IH. intros H. apply Hn. right. exact H.
    - destruct (ver_eqb v w) eqn:E.
      + exfalso. apply ver_eqb_eq in E. subst. apply Hn. left. reflexivity.
      + apply IH. intros H. apply Hn. right. exact H.
  Qed.

  Definition is_look (v : version) (o : op K V) : bool :=
    match o with OAdd _ => false | OLook w => ver_eqb v w end.
  Definition lookedb (v : version) (h : list (op K V)) : bool := existsb (is_look v) h.

  Lemma lookedb_iff v h : lookedb v h = true <-> looked_up v h.
  Proof.
    unfold lookedb, looked_up. rewrite existsb_exists. split.
    - intros ([a|w] & H1 & H2); [discriminate|]. cbn in H2. apply ver_eqb_eq in H2. now subst.
    - intros H. exists (OLook v). split; [assumption|]. cbn. now apply ver_eqb_eq.
  Qed.

  Lemma adds_before_snoc h v o :
    adds_before_look ver_eqb v (h ++ [o]) =
    if lookedb v h then adds_before_look ver_eqb v h
    else adds_before_look ver_eqb v h ++ match o with OAdd a => [a] | OLook _ => [] end.
  Proof.
    induction h as [|[a|w] h IH]; cbn [app adds_before_look lookedb existsb is_look].
    - destruct o as [a|w]; cbn; [reflexivity|]. now destruct (ver_eqb v w).
    - fold (lookedb v h). cbn [orb]. rewrite IH. now destruct (lookedb v h).
    - fold (lookedb v h). destruct (ver_eqb v w); cbn [orb]; [reflexivity|exact IH].
  Qed.

  (** The cache holds exactly the versions looked up, with the value at first lookup. *)
  Lemma vd_run_cache h v :
    dget ver_eqb v (vd_cache (vd_run h)) =
    if lookedb v h
    then Some (vd_getversion eqb (vd_adds (adds_before_look ver_eqb v h)) v) else None.
  Proof.
    induction h as [|o h IH] using rev_ind; [reflexivity|].
    rewrite vd_run_snoc, adds_before_snoc. unfold lookedb at 1. rewrite existsb_app.
    fold (lookedb v h). cbn [existsb]. rewrite orb_false_r.
    destruct o as [a|w]; cbn [vd_step is_look].
    - rewrite vd_add_eta. cbn [vd_cache]. rewrite IH, orb_false_r. now destruct (lookedb v h).
    - rewrite app_nil_r. unfold vd_getitem.
      destruct (ver_eqb v w) eqn:E.
      + apply ver_eqb_eq in E. subst w. rewrite orb_true_r, IH.
        destruct (lookedb v h) eqn:El; cbn [snd vd_cache].
        * exact IH.
        * rewrite dget_dset_eq by apply ver_eqb_eq. f_equal.
          apply vd_getversion_versions. rewrite vd_run_versions, adds_before_no_look; [reflexivity|].
          rewrite <- lookedb_iff, El. congruence.
      + rewrite orb_false_r. destruct (dget ver_eqb w (vd_cache (vd_run h))) eqn:Ew; cbn [snd vd_cache].
        * rewrite IH. now destruct (lookedb v h).
        * rewrite (dget_dset ver_eqb ver_eqb_eq), E, IH. now destruct (lookedb v h).
  Qed.

  (** A lookup after any history sees exactly the additions made before the first
      lookup of that version (all of them if there was none). *)
  Lemma vd_getitem_run h v :
    fst (vd_getitem eqb (vd_run h) v) = vd_getversion eqb (vd_adds (adds_before_look ver_eqb v h)) v.
  Proof.
    unfold vd_getitem. rewrite vd_run_cache.
    destruct (lookedb v h) eqn:El; cbn [fst]; [reflexivity|].
    apply vd_getversion_versions. rewrite vd_run_versions, adds_before_no_look; [reflexivity|].
    rewrite <- lookedb_iff, El. congruence.
  Qed.

  Lemma vd_lookup_history h v k x :
    dget eqb k (fst (vd_getitem eqb (vd_run h) v)) = Some x <->
    applicable_value (adds_before_look ver_eqb v h) v k x.
  Proof. rewrite vd_getitem_run. apply vd_lookup_fresh. Qed.

  Lemma adds_before_app_looked v h1 h2 : looked_up v h1 ->
    adds_before_look ver_eqb v (h1 ++ h2 : list (op K V)) = adds_before_look ver_eqb v h1.
  Proof.
    unfold looked_up. induction h1 as [|[a|w] h1 IH]; intros H; cbn.
    - destruct H.
    - f_equal. apply IH. destruct H as [H|H]; [discriminate|assumption].
    - destruct (ver_eqb v w) eqn:E; [reflexivity|]. apply IH. destruct H as [[= ->]|H]; [|assumption].
      assert (ver_eqb v v = true) by now apply ver_eqb_eq. congruence.
  Qed.

  Lemma vd_stable h1 h2 v :
    fst (vd_getitem eqb (vd_run (h1 ++ OLook v :: h2)) v) = fst (vd_getitem eqb (vd_run h1) v).
  Proof.
    rewrite !vd_getitem_run. f_equal. f_equal.
    replace (h1 ++ OLook v :: h2) with ((h1 ++ [OLook v]) ++ h2) by (now rewrite <- app_assoc).
    rewrite adds_before_app_looked by (apply in_or_app; right; left; reflexivity).
    rewrite adds_before_snoc. destruct (lookedb v h1); [reflexivity|now rewrite app_nil_r].
  Qed.
End VD.

(** * VersionedList *)

Section VL.
  Context {V : Type}.

  Definition vl_adds (h : list (laddition V)) : vlist V :=
    fold_left (fun d '(r, xs) => vl_add (fst r) (snd r) xs d) h vl_empty.

  Lemma vl_adds_snoc h r xs : vl_adds (h ++ [(r, xs)]) = vl_add (fst r) (snd r) xs (vl_adds h).
  Proof. unfold vl_adds. now rewrite fold_left_app. Qed.

  Lemma vl_new_adds l : vl_new l = vl_adds (map (fun '(a, b, x) => ((a, b), x)) l).
  Proof.
    unfold vl_new, vl_adds. generalize (@vl_empty V). induction l as [|[[a b] x] l IH]; intros d; cbn; [reflexivity|]. apply IH.
  Qed.

  Lemma vl_add_eta r xs (d : vlist V) :
    vl_add (fst r) (snd r) xs d =
    VList (dset vrange_eqb r (match dget vrange_eqb r (vl_versions d) with Some i => i | None => [] end ++ xs) (vl_versions d)) (vl_cache d).
  Proof. destruct r; reflexivity. Qed.

  Lemma vl_keys_bfu h : by_first_use h (dkeys (vl_versions (vl_adds h))).
  Proof.
    induction h as [|[r xs] h IH] using rev_ind; [constructor|].
    rewrite vl_adds_snoc, vl_add_eta. cbn [vl_versions]. rewrite dset_keys.
    unfold dmem. destruct (dget vrange_eqb r (vl_versions (vl_adds h))) eqn:E.
    - apply bfu_old; [assumption|]. apply dget_In in E; [|apply vrange_eqb_eq].
      apply in_map_iff. eexists (r, _). eauto.
    - apply bfu_new; [assumption|]. eapply dget_None; [apply vrange_eqb_eq|exact E].
  Qed.

  Lemma bfu_fun h l l' : @by_first_use V h l -> by_first_use h l' -> l = l'.
  Proof.
    intros H. revert l'. induction H; intros l' H'.
    - inversion H'; subst; [reflexivity| |]; match goal with H : ?a ++ [_] = [] |- _ => destruct a; discriminate end.
    - inversion H' as [E|h0 l0 r0 xs0 Hb Hi E|h0 l0 r0 xs0 Hb Hi E]; subst.
      + destruct h; discriminate.
      + apply app_inj_tail in E as [-> [= -> ->]]. auto.
      + apply app_inj_tail in E as [-> [= -> ->]]. rewrite <- (IHby_first_use _ Hb) in Hi. contradiction.
    - inversion H' as [E|h0 l0 r0 xs0 Hb Hi E|h0 l0 r0 xs0 Hb Hi E]; subst.
      + destruct h; discriminate.
      + apply app_inj_tail in E as [-> [= -> ->]]. rewrite <- (IHby_first_use _ Hb) in Hi. contradiction.
      + apply app_inj_tail in E as [-> [= -> ->]]. f_equal. auto.
  Qed.

  Lemma vl_keys_nodup h : NoDup (dkeys (vl_versions (vl_adds h))).
  Proof.
    induction h as [|[r xs] h IH] using rev_ind; [constructor|].
    rewrite vl_adds_snoc, vl_add_eta. cbn [vl_versions]. apply dset_NoDup; [apply vrange_eqb_eq|assumption].
  Qed.

  Lemma values_of_app r (h1 h2 : list (laddition V)) xs ys :
    values_of r h1 xs -> values_of r h2 ys -> values_of r (h1 ++ h2) (xs ++ ys).
  Proof.
    intros H H2. induction H; cbn.
    - assumption.
    - rewrite <- app_assoc. now constructor.
    - now constructor.
  Qed.

  Lemma values_of_unused r (h : list (laddition V)) : (forall xs, ~ In (r, xs) h) -> values_of r h [].
  Proof.
    induction h as [|[r' xs] h IH]; intros H; [constructor|].
    apply vo_no.
    - intros ->. apply (H xs). left. reflexivity.
    - apply IH. intros ys Hy. apply (H ys). right. assumption.
  Qed.

  Lemma bfu_used h l : @by_first_use V h l -> forall r xs, In (r, xs) h -> In r l.
  Proof.
    induction 1; intros r' xs' Hin.
    - destruct Hin.
    - apply in_app_or in Hin as [Hin|[[= -> ->]|[]]]; [eauto|assumption].
    - apply in_or_app. apply in_app_or in Hin as [Hin|[[= -> ->]|[]]]; [left; eauto|right; left; reflexivity].
  Qed.

  Lemma vl_contents h r xs : dget vrange_eqb r (vl_versions (vl_adds h)) = Some xs -> values_of r h xs.
  Proof.
    revert xs. induction h as [|[r0 x0] h IH] using rev_ind; intros xs H; [discriminate|].
    rewrite vl_adds_snoc, vl_add_eta in H. cbn [vl_versions] in H.
    rewrite (dget_dset vrange_eqb vrange_eqb_eq) in H.
    destruct (vrange_eqb r r0) eqn:E.
    - apply vrange_eqb_eq in E. subst r0. injection H as <-.
      apply values_of_app.
      + destruct (dget vrange_eqb r (vl_versions (vl_adds h))) eqn:Eg; [apply IH; reflexivity|].
        apply values_of_unused. intros ys Hy. apply (bfu_used _ _ (vl_keys_bfu h)) in Hy.
        apply dget_None in Eg; [contradiction|apply vrange_eqb_eq].
      + pose proof (vo_yes r [] x0 [] (vo_nil r)) as H. rewrite app_nil_r in H. exact H.
    - rewrite <- (app_nil_r xs). apply values_of_app; [apply IH, H|].
      apply vo_no; [|constructor]. intros ->.
      assert (vrange_eqb r r = true) by now apply vrange_eqb_eq. congruence.
  Qed.

  Lemma vl_getversion_gathered h v :
    gathered h v (dkeys (vl_versions (vl_adds h))) (vl_getversion (vl_adds h) v).
  Proof.
    unfold vl_getversion.
    assert (Hc : forall r xs, In (r, xs) (vl_versions (vl_adds h)) -> values_of r h xs).
    { intros r xs Hin. apply vl_contents. apply dget_In_nodup; [apply vrange_eqb_eq|apply vl_keys_nodup|assumption]. }
    revert Hc. generalize (vl_versions (vl_adds h)) as l. intros l Hc.
    assert (Hgen : forall acc, exists ys,
      fold_left (fun res '(r, x) => if in_vrange r v then res ++ x else res) l acc = acc ++ ys /\
      gathered h v (dkeys l) ys).
    { induction l as [|[r xs] l IH]; intros acc.
      - exists []. rewrite app_nil_r. split; [reflexivity|constructor].
      - cbn [fold_left dkeys map fst].
        assert (Hc' : forall r xs, In (r, xs) l -> values_of r h xs) by (intros; apply Hc; right; assumption).
        destruct (in_vrange r v) eqn:E.
        + destruct (IH Hc' (acc ++ xs)) as (ys & -> & Hg). exists (xs ++ ys). split; [now rewrite app_assoc|].
          apply ga_in; [now apply in_vrange_within|apply Hc; left; reflexivity|assumption].
        + destruct (IH Hc' acc) as (ys & -> & Hg). exists ys. split; [reflexivity|].
          apply ga_out; [now apply in_vrange_false|assumption]. }
    destruct (Hgen []) as (ys & E & Hg). cbn in E. rewrite E. assumption.
  Qed.

  (** Nothing lost, duplicated or invented: a permutation of what is applicable. *)
  Lemma applicable_app v (h1 h2 : list (laddition V)) xs ys :
    applicable v h1 xs -> applicable v h2 ys -> applicable v (h1 ++ h2) (xs ++ ys).
  Proof.
    intros H H2. induction H; cbn.
    - assumption.
    - rewrite <- app_assoc. now constructor.
    - now constructor.
  Qed.

  Lemma applicable_snoc_inv v (h : list (laddition V)) r xs zs :
    applicable v (h ++ [(r, xs)]) zs ->
    exists ys, applicable v h ys /\ zs = ys ++ (if in_vrange r v then xs else []).
  Proof.
    revert zs; induction h as [|[r0 x0] h IH]; intros zs H; cbn in H.
    - inversion H as [|? ? ? ? Hw Ha|? ? ? ? Hw Ha]; subst; inversion Ha; subst.
      + exists []. split; [constructor|]. apply in_vrange_within in Hw. rewrite Hw. now rewrite app_nil_r.
      + exists []. split; [constructor|]. apply in_vrange_false in Hw. rewrite Hw. reflexivity.
    - inversion H as [|? ? ? ? Hw Ha|? ? ? ? Hw Ha]; subst; apply IH in Ha as (w & Hw1 & ->).
      + exists (x0 ++ w). split; [now constructor|]. now rewrite app_assoc.
      + exists w. split; [now constructor|]. reflexivity.
  Qed.

  Lemma gathered_new_range h v l ys r xs :
    gathered h v l ys -> ~ In r l -> gathered (h ++ [(r, xs)]) v (V := V) l ys.
  Proof.
    induction 1; intros Hn.
    - constructor.
    - apply ga_in; [assumption| |apply IHgathered; intros Hi; apply Hn; right; assumption].
      rewrite <- (app_nil_r xs0). apply values_of_app; [assumption|]. apply vo_no; [|constructor].
      intros ->. apply Hn. left. reflexivity.
    - apply ga_out; [assumption|]. apply IHgathered. intros Hi. apply Hn. right. assumption.
  Qed.

  Lemma values_of_fun r (h : list (laddition V)) xs ys : values_of r h xs -> values_of r h ys -> xs = ys.
  Proof.
    intros H. revert ys. induction H; intros zs Hz; inversion Hz; subst; try congruence.
    - f_equal. auto.
    - auto.
  Qed.

  Lemma gathered_fun h v l xs ys : @gathered V h v l xs -> gathered h v l ys -> xs = ys.
  Proof.
    intros H. revert ys. induction H; intros zs Hz; inversion Hz; subst; try contradiction; auto.
    f_equal; [eapply values_of_fun; eassumption|auto].
  Qed.

  (** From gathered of h++[(r,xs)] back to h. *)
  Lemma values_of_snoc_inv r (h : list (laddition V)) r0 xs zs :
    values_of r (h ++ [(r0, xs)]) zs -> exists ys, values_of r h ys /\ zs = ys ++ (if vrange_eqb r0 r then xs else []).
  Proof.
    revert zs; induction h as [|[r1 x1] h IH]; intros zs H; cbn in H.
    - inversion H as [|? ? ? Ha|? ? ? ? Hn Ha]; subst; inversion Ha; subst.
      + exists []. split; [constructor|]. rewrite (proj2 (vrange_eqb_eq _ _) eq_refl). now rewrite app_nil_r.
      + exists []. split; [constructor|]. destruct (vrange_eqb r0 r) eqn:E; [apply vrange_eqb_eq in E; contradiction|reflexivity].
    - inversion H as [|? ? ? Ha|? ? ? ? Hn Ha]; subst; apply IH in Ha as (w & Hw & ->).
      + exists (x1 ++ w). split; [now constructor|]. now rewrite app_assoc.
      + exists w. split; [now constructor|reflexivity].
  Qed.

  Lemma memb_iff r l : existsb (vrange_eqb r) l = true <-> In r l.
  Proof.
    rewrite existsb_exists. split.
    - intros (x & H & E). apply vrange_eqb_eq in E. now subst.
    - intros H. exists r. split; [assumption|]. now apply vrange_eqb_eq.
  Qed.

  Lemma gathered_snoc_inv h v l zs r xs :
    gathered (h ++ [(r, xs)]) v (V := V) l zs -> NoDup l ->
    exists ys, gathered h v l ys /\
      Permutation zs (ys ++ (if in_vrange r v && existsb (vrange_eqb r) l then xs else [])).
  Proof.
    intros H Hnd. remember (h ++ [(r, xs)]) as hh eqn:Eh. revert Hnd.
    induction H as [|r0 l vs ys Hw Hvs Hg IH|r0 l ys Hw Hg IH]; intros Hnd.
    - exists []. split; [constructor|]. cbn. rewrite andb_false_r. reflexivity.
    - inversion Hnd as [|? ? Hni Hnd']; subst. destruct (IH Hnd') as (w & Hgw & Hp).
      apply values_of_snoc_inv in Hvs as (u & Hu & ->).
      exists (u ++ w). split; [now constructor|].
      apply in_vrange_within in Hw. cbn [existsb].
      destruct (vrange_eqb r r0) eqn:E.
      + apply vrange_eqb_eq in E. subst r0. rewrite Hw in *. cbn [andb orb].
        destruct (existsb (vrange_eqb r) l) eqn:Em; [apply memb_iff in Em; contradiction|].
        cbn [andb] in Hp. rewrite app_nil_r in Hp. rewrite Hp. rewrite <- !app_assoc.
        apply Permutation_app_head, Permutation_app_comm.
      + rewrite app_nil_r, <- app_assoc. cbn [orb]. now apply Permutation_app_head.
    - inversion Hnd as [|? ? Hni Hnd']; subst. destruct (IH Hnd') as (w & Hgw & Hp).
      exists w. split; [now constructor|]. rewrite Hp. apply Permutation_app_head. cbn [existsb].
      destruct (vrange_eqb r r0) eqn:E; [|reflexivity].
      apply vrange_eqb_eq in E. subst r0. apply in_vrange_false in Hw. rewrite Hw. reflexivity.
  Qed.

  Lemma bfu_nodup h l : @by_first_use V h l -> NoDup l.
  Proof.
    induction 1; [constructor|assumption|].
    apply Permutation_NoDup with (r :: l); [apply Permutation_cons_append|]. now constructor.
  Qed.

  Lemma gathered_perm_applicable h v l zs ys :
    by_first_use h l -> gathered h v (V := V) l zs -> applicable v h ys -> Permutation zs ys.
  Proof.
    intros Hb. revert zs ys. induction Hb as [|h l r xs Hb IH Hin|h l r xs Hb IH Hni]; intros zs ys Hg Ha.
    - inversion Hg; inversion Ha; subst. constructor.
    - apply gathered_snoc_inv in Hg as (w & Hw & Hp); [|eapply bfu_nodup; eassumption].
      apply applicable_snoc_inv in Ha as (u & Hu & ->). rewrite Hp.
      apply Permutation_app; [auto|].
      rewrite (proj2 (memb_iff r l) Hin), andb_true_r. reflexivity.
    - assert (Hb' : by_first_use (h ++ [(r, xs)]) (l ++ [r])) by now constructor.
      apply gathered_snoc_inv in Hg as (w & Hw & Hp); [|eapply bfu_nodup; eassumption].
      apply applicable_snoc_inv in Ha as (u & Hu & ->). rewrite Hp.
      apply Permutation_app.
      + apply IH; [|assumption].
        (* the new range contributes nothing in h *)
        assert (Hv0 : values_of r h []).
        { apply values_of_unused. intros zs' Hz. apply Hni. eapply bfu_used; eassumption. }
        clear - Hw Hv0. revert w Hw. induction l as [|r0 l IHl]; intros w Hw.
        * cbn in Hw. inversion Hw as [|? ? a b H1 H2 H3|? ? ? H1 H3]; subst; inversion H3; subst.
          -- rewrite (values_of_fun _ _ _ _ H2 Hv0). constructor.
          -- constructor.
        * cbn in Hw. inversion Hw; subst; [apply ga_in|apply ga_out]; auto.
      + rewrite (proj2 (memb_iff r (l ++ [r]))), andb_true_r; [reflexivity|].
        apply in_or_app. right. left. reflexivity.
  Qed.

  (** Once looked up, a version keeps its value. *)
  Inductive lop := LAdd (a : laddition V) | LLook (v : version).
  Definition vl_step (d : vlist V) (o : lop) : vlist V :=
    match o with
    | LAdd (r, xs) => vl_add (fst r) (snd r) xs d
    | LLook v => snd (vl_getitem d v)
    end.

  Lemma vl_cache_kept d h v c :
    dget ver_eqb v (vl_cache d) = Some c ->
    dget ver_eqb v (vl_cache (fold_left vl_step h d)) = Some c.
  Proof.
    revert d; induction h as [|[[r xs]|w] h IH]; intros d H; cbn [fold_left]; [assumption| |]; apply IH.
    - cbn [vl_step]. rewrite vl_add_eta. assumption.
    - cbn [vl_step]. unfold vl_getitem. destruct (dget ver_eqb w (vl_cache d)) eqn:E; [assumption|].
      cbn [snd vl_cache]. rewrite (dget_dset ver_eqb ver_eqb_eq).
      destruct (ver_eqb v w) eqn:E2; [|assumption]. apply ver_eqb_eq in E2. congruence.
  Qed.

  Lemma vl_stable d h v :
    fst (vl_getitem (fold_left vl_step h (snd (vl_getitem d v))) v) = fst (vl_getitem d v).
  Proof.
    assert (Hc : dget ver_eqb v (vl_cache (snd (vl_getitem d v))) = Some (fst (vl_getitem d v))).
    { unfold vl_getitem. destruct (dget ver_eqb v (vl_cache d)) eqn:E; cbn; [assumption|].
      apply dget_dset_eq, ver_eqb_eq. }
    apply (vl_cache_kept _ h) in Hc. unfold vl_getitem at 1. now rewrite Hc.
  Qed.
End VL.

(** * Affixes *)

Lemma anyprefix_iff s pxs : anyprefix s pxs = true <-> exists px t, In px pxs /\ s = px ++ t.
Proof.
  unfold anyprefix. rewrite existsb_exists. split.
  - intros (px & H & E). apply startswith_iff in E as [t ->]. eauto.
  - intros (px & t & H & ->). exists px. split; [assumption|apply startswith_app].
Qed.

Lemma anysuffix_iff s sxs : anysuffix s sxs = true <-> exists sx t, In sx sxs /\ s = t ++ sx.
Proof.
  unfold anysuffix. rewrite existsb_exists. split.
  - intros (px & H & E). apply endswith_iff in E as [t ->]. eauto.
  - intros (px & t & H & ->). exists px. split; [assumption|apply endswith_app].
Qed.

Lemma noprefix_none s pxs : (forall px t, In px pxs -> s <> px ++ t) -> noprefix s pxs = s.
Proof.
  induction pxs as [|px pxs IH]; intros H; cbn; [reflexivity|].
  destruct (startswith s px) eqn:E.
  - exfalso. apply startswith_iff in E as [t ->]. apply (H px t); [left|]; reflexivity.
  - apply IH. intros. apply H. right. assumption.
Qed.

Lemma noprefix_first pre px post t :
  (forall q u, In q pre -> px ++ t <> q ++ u) -> noprefix (px ++ t) (pre ++ px :: post) = t.
Proof.
  induction pre as [|q pre IH]; intros H; cbn.
  - rewrite startswith_app. apply slice_from_app.
  - destruct (startswith (px ++ t) q) eqn:E.
    + exfalso. apply startswith_iff in E as [u E]. apply (H q u); [left; reflexivity|assumption].
    + apply IH. intros. apply H. right. assumption.
Qed.

Lemma nosuffix_none s pxs : (forall px t, In px pxs -> s <> t ++ px) -> nosuffix s pxs = s.
Proof.
  induction pxs as [|px pxs IH]; intros H; cbn; [reflexivity|].
  destruct (endswith s px) eqn:E.
  - exfalso. apply endswith_iff in E as [t ->]. apply (H px t); [left|]; reflexivity.
  - apply IH. intros. apply H. right. assumption.
Qed.

Lemma nosuffix_first pre px post t : px <> [] ->
  (forall q u, In q pre -> t ++ px <> u ++ q) -> nosuffix (t ++ px) (pre ++ px :: post) = t.
Proof.
  intros Hne. induction pre as [|q pre IH]; intros H; cbn.
  - rewrite endswith_app. now apply slice_to_neg.
  - destruct (endswith (t ++ px) q) eqn:E.
    + exfalso. apply endswith_iff in E as [u E]. apply (H q u); [left; reflexivity|assumption].
    + apply IH. intros. apply H. right. assumption.
Qed.

(** Shape of the results, useful elsewhere. *)
Lemma noprefix_shape s pxs :
  noprefix s pxs = s \/ exists px, In px pxs /\ s = px ++ noprefix s pxs.
Proof.
  induction pxs as [|px pxs IH]; cbn; [auto|].
  destruct (startswith s px) eqn:E.
  - right. exists px. apply startswith_iff in E as [t ->]. rewrite slice_from_app. auto.
  - destruct IH as [IH|(q & H1 & H2)]; [auto|]. right. exists q. auto.
Qed.

Lemma nosuffix_shape s sxs : (forall sx, In sx sxs -> sx <> []) ->
  nosuffix s sxs = s \/ exists sx, In sx sxs /\ s = nosuffix s sxs ++ sx.
Proof.
  induction sxs as [|px pxs IH]; cbn; intros Hne; [auto|].
  destruct (endswith s px) eqn:E.
  - right. exists px. apply endswith_iff in E as [t ->]. rewrite slice_to_neg by auto. auto.
  - destruct IH as [IH|(q & H1 & H2)]; [auto|auto|]. right. exists q. auto.
Qed.

Lemma nosuffix_empty_bug s : nosuffix s [[]] = [].
Proof. cbn. unfold slice_to, clampi. reflexivity. Qed.

(** * Paths *)

Lemma parts_prefix_iff p l : parts_prefix p l = true <-> exists t, l = p ++ t.
Proof.
  revert l; induction p as [|x p IH]; intros l; cbn.
  - split; eauto.
  - destruct l as [|y l]; [split; [congruence|intros [t H]; discriminate]|].
    rewrite andb_true_iff, str_eqb_eq, IH. split.
    + intros [-> [t ->]]. eauto.
    + intros [t [= -> ->]]. eauto.
Qed.

Lemma is_relative_to_iff p r : is_relative_to p r = true <-> root p = root r /\ exists t, parts p = parts r ++ t.
Proof. unfold is_relative_to. rewrite andb_true_iff, str_eqb_eq, parts_prefix_iff. reflexivity. Qed.

Lemma is_relative_to_join p r : is_relative_to p r = true <-> exists t, p = path_join r (Path [] t).
Proof.
  rewrite is_relative_to_iff. unfold path_join; cbn. split.
  - intros [H [t E]]. exists t. destruct p; cbn in *. congruence.
  - intros [t ->]. cbn. eauto.
Qed.

Lemma maybe_rel_under r t : maybe_rel (Some (path_join r (Path [] t))) (Some r) = Ok (Some (Path [] t)).
Proof.
  unfold maybe_rel, relative_to.
  assert (is_relative_to (path_join r (Path [] t)) r = true) as -> by (apply is_relative_to_join; eauto).
  cbn. rewrite skipn_app_exact. reflexivity.
Qed.

Lemma maybe_rel_outside p r : (forall t, p <> path_join r (Path [] t)) -> maybe_rel (Some p) (Some r) = Ok (Some p).
Proof.
  intros H. unfold maybe_rel. destruct (is_relative_to p r) eqn:E; [|reflexivity].
  exfalso. apply is_relative_to_join in E as [t E]. now apply (H t).
Qed.

Lemma maybe_rel_back p r q :
  maybe_rel (Some p) (Some r) = Ok (Some q) -> is_relative_to p r = true -> path_join r q = p.
Proof.
  intros H E. pose proof E as E'. apply is_relative_to_join in E' as [t ->].
  rewrite maybe_rel_under in H. injection H as <-. reflexivity.
Qed.

Lemma maybe_rel_total p r : exists q, maybe_rel (Some p) r = Ok (Some q).
Proof.
  destruct r as [r|]; [|cbn; eauto].
  destruct (is_relative_to p r) eqn:E.
  - apply is_relative_to_join in E as [t ->]. rewrite maybe_rel_under. eauto.
  - exists p. apply maybe_rel_outside. intros t ->.
    assert (is_relative_to (path_join r (Path [] t)) r = true) by (apply is_relative_to_join; eauto). congruence.
Qed.

(** Text and back, for paths as pathlib builds them. *)
Definition good_part (p : str) : Prop := p <> [] /\ p <> $"." /\ ~ In "/"%char p.
Definition good_path (p : path) : Prop :=
  (root p = [] \/ root p = $"/" \/ root p = $"//") /\ Forall good_part (parts p).

Lemma join_ne sep l : Forall good_part l -> l <> [] -> join sep l <> [].
Proof.
  intros H Hn. destruct l as [|x l]; [congruence|]. inversion H as [|? ? [H1 _]]; subst.
  cbn. destruct l; [assumption|]. destruct x; [congruence|discriminate].
Qed.

Lemma filter_good l : Forall good_part l ->
  filter (fun p => negb (str_eqb p [] || str_eqb p $".")) l = l.
Proof.
  induction 1 as [|x l [H1 [H2 H3]] Hl IH]; cbn [filter]; [reflexivity|].
  rewrite (proj2 (str_eqb_neq x []) H1), (proj2 (str_eqb_neq x $".") H2). cbn [orb negb]. now rewrite IH.
Qed.

Lemma good_no_slash x : good_part x -> startswith x $"/" = false.
Proof.
  intros (H1 & H2 & H3). destruct (startswith x $"/") eqn:E; [|reflexivity].
  apply startswith_iff in E as [t ->]. exfalso. apply H3. left. reflexivity.
Qed.

Lemma starts_join l : Forall good_part l -> l <> [] -> startswith (join $"/" l) $"/" = false.
Proof.
  intros H Hn. destruct l as [|x l]; [congruence|]. inversion H as [|? ? Hx Hl]; subst.
  destruct (startswith (join $"/" (x :: l)) $"/") eqn:E; [|reflexivity].
  apply startswith_iff in E as [t E]. exfalso. destruct Hx as (H1 & H2 & H3).
  destruct x as [|c x]; [congruence|]. apply H3.
  destruct l; cbn in E; injection E as -> _; left; reflexivity.
Qed.

Lemma split_slash_join l : Forall good_part l ->
  filter (fun p => negb (str_eqb p [] || str_eqb p $".")) (split_char "/"%char (join $"/" l)) = l.
Proof.
  intros H. destruct l as [|x l].
  - reflexivity.
  - change $"/" with ["/"%char]. rewrite split_join.
    + now apply filter_good.
    + congruence.
    + eapply Forall_impl; [|exact H]. intros a (_ & _ & Ha). exact Ha.
Qed.

Lemma path_str_roundtrip p : good_path p -> path_of_str (str_of_path p) = p.
Proof.
  intros [Hr Hp]. destruct p as [r l]; cbn [root parts] in *.
  destruct Hr as [->|[->| ->]].
  - destruct l as [|x l]; [reflexivity|].
    assert (Hs := starts_join (x :: l) Hp ltac:(congruence)).
    change (str_of_path (Path [] (x :: l))) with (join $"/" (x :: l)). unfold path_of_str. f_equal.
    + unfold path_root.
      assert (Hp1 : forall t, startswith (join $"/" (x :: l)) ($"/" ++ t) = false).
      { intros t. destruct (startswith (join $"/" (x :: l)) ($"/" ++ t)) eqn:E; [|reflexivity].
        apply startswith_iff in E as [u E]. rewrite <- app_assoc in E.
        assert (startswith (join $"/" (x :: l)) $"/" = true) by (apply startswith_iff; eauto). congruence. }
      pose proof (Hp1 $"//") as Ha. pose proof (Hp1 $"/") as Hb.
      change ($"/" ++ $"//") with $"///" in Ha. change ($"/" ++ $"/") with $"//" in Hb.
      rewrite Ha, Hb, Hs. reflexivity.
    + now apply split_slash_join.
  - assert (E : str_of_path (Path $"/" l) = "/"%char :: join $"/" l) by (destruct l; reflexivity). rewrite E.
    unfold path_of_str. f_equal.
    + unfold path_root. destruct l as [|x l]; [reflexivity|].
      assert (Hs := starts_join (x :: l) Hp ltac:(congruence)).
      destruct (join $"/" (x :: l)) as [|c j] eqn:Ej; [reflexivity|].
      cbn [startswith list_ascii_of_string] in Hs |- *. rewrite andb_true_r in Hs. rewrite Hs. reflexivity.
    + cbn [split_char]. replace (Ascii.eqb "/" "/") with true by reflexivity. cbn [filter].
      replace (negb (str_eqb [] [] || str_eqb [] $".")) with false by reflexivity.
      now apply split_slash_join.
  - assert (E : str_of_path (Path $"//" l) = "/"%char :: "/"%char :: join $"/" l) by (destruct l; reflexivity). rewrite E.
    unfold path_of_str. f_equal.
    + unfold path_root. destruct l as [|x l]; [reflexivity|].
      assert (Hs := starts_join (x :: l) Hp ltac:(congruence)).
      destruct (join $"/" (x :: l)) as [|c j] eqn:Ej; [reflexivity|].
      cbn [startswith list_ascii_of_string] in Hs |- *. rewrite andb_true_r in Hs. rewrite Hs. reflexivity.
    + cbn [split_char]. replace (Ascii.eqb "/" "/") with true by reflexivity. cbn [filter].
      replace (negb (str_eqb [] [] || str_eqb [] $".")) with false by reflexivity.
      now apply split_slash_join.
Qed.

(** * Shell quoting *)

Lemma shlex_safe_plain c : shlex_safe c = true -> sh_plain c = true.
Proof.
  assert (H : forall c, implb (shlex_safe c) (sh_plain c) = true)
    by (apply ascii_forall; vm_compute; reflexivity).
  intros Hc. specialize (H c). now rewrite Hc in H.
Qed.

Lemma shlex_safe_not_special c : shlex_safe c = true ->
  (code c =? 32) = false /\ (code c =? 39) = false /\ (code c =? 34) = false.
Proof.
  assert (H : forall c, implb (shlex_safe c) (negb (code c =? 32) && negb (code c =? 39) && negb (code c =? 34)) = true)
    by (apply ascii_forall; vm_compute; reflexivity).
  intros Hc. specialize (H c). rewrite Hc in H. cbn [implb] in H. lia.
Qed.

Definition curw (cur : option str) : str := match cur with None => [] | Some w => w end.

Lemma sh_split_safe s rest cur : forallb shlex_safe s = true -> s <> [] ->
  sh_split 0 (s ++ rest) cur = sh_split 0 rest (Some (rev s ++ curw cur)).
Proof.
  revert cur; induction s as [|c s IH]; intros cur Hs Hne; [congruence|].
  cbn [forallb] in Hs. apply andb_prop in Hs as [Hc Hs].
  destruct (shlex_safe_not_special c Hc) as (H1 & H2 & H3).
  cbn [app sh_split]. rewrite H1, H2, H3, (shlex_safe_plain c Hc).
  destruct s as [|c' s]; [reflexivity|].
  rewrite IH by (assumption || congruence). cbn [rev curw]. now rewrite <- !app_assoc.
Qed.

Lemma code_quote c : (code c =? 39) = Ascii.eqb c QUOTE.
Proof.
  assert (H : forall c, Bool.eqb (code c =? 39) (Ascii.eqb c QUOTE) = true)
    by (apply ascii_forall; vm_compute; reflexivity).
  specialize (H c). now apply Bool.eqb_prop in H.
Qed.

Lemma replace_fuel_quote n s rest w : (List.length s <= n)%nat ->
  sh_split 1 (replace_fuel n s [QUOTE] $"'""'""'" ++ QUOTE :: rest) (Some w) =
  sh_split 0 rest (Some (rev s ++ w)).
Proof.
  revert s w; induction n as [|n IH]; intros s w Hn.
  - destruct s; [|cbn in Hn; lia]. reflexivity.
  - destruct s as [|c s]; [reflexivity|]. cbn [replace_fuel].
    assert (E : startswith (c :: s) [QUOTE] = Ascii.eqb QUOTE c) by (cbn; now rewrite andb_true_r).
    rewrite E. destruct (Ascii.eqb QUOTE c) eqn:Ec.
    + apply ascii_eqb_eq in Ec. subst c. cbn [List.length skipn]. rewrite <- app_assoc.
      assert (Hs : forall t w, sh_split 1 ($"'""'""'" ++ t) (Some w) = sh_split 1 t (Some (QUOTE :: w))) by reflexivity.
      rewrite Hs. rewrite IH by (cbn in Hn; lia). cbn [rev]. now rewrite <- app_assoc.
    + cbn [app sh_split]. rewrite code_quote.
      assert (Ascii.eqb c QUOTE = false) as ->
        by (destruct (Ascii.eqb c QUOTE) eqn:E2; [apply ascii_eqb_eq in E2; subst; discriminate|reflexivity]).
      rewrite IH by (cbn in Hn; lia). cbn [rev]. now rewrite <- app_assoc.
Qed.

Lemma sh_split_quoted s rest cur :
  sh_split 0 (shlex_quote s ++ rest) cur = sh_split 0 rest (Some (rev s ++ curw cur)).
Proof.
  destruct s as [|c s]; [destruct cur; reflexivity|].
  unfold shlex_quote. destruct (forallb shlex_safe (c :: s)) eqn:E.
  - apply sh_split_safe; [assumption|congruence].
  - unfold replace. rewrite <- !app_assoc. cbn [app].
    assert (H0 : forall t, sh_split 0 (QUOTE :: t) cur = sh_split 1 t (Some (curw cur))) by (destruct cur; reflexivity).
    rewrite H0. apply replace_fuel_quote. lia.
Qed.

Lemma sh_words_join l : sh_words (shlex_join l) = Some l.
Proof.
  unfold sh_words, shlex_join. induction l as [|s l IH]; [reflexivity|].
  destruct l as [|s2 l].
  - cbn [map join]. rewrite <- (app_nil_r (shlex_quote s)), sh_split_quoted. cbn. now rewrite app_nil_r, rev_involutive.
  - change (join $" " (map shlex_quote (s :: s2 :: l)))
      with (shlex_quote s ++ " "%char :: join $" " (map shlex_quote (s2 :: l))).
    rewrite sh_split_quoted. cbn [sh_split curw]. rewrite app_nil_r.
    change (code " " =? 32) with true. cbv iota. rewrite IH. cbn. now rewrite rev_involutive.
Qed.

Lemma argv_roundtrip l : exists s, command_argv_to_string (CArgv l) = Ok s /\
  sh_words s = Some (map part_str l).
Proof. eexists. split; [reflexivity|]. apply sh_words_join. Qed.

Lemma path_roundtrip p : exists s, command_argv_to_string (CPath p) = Ok s /\
  sh_words s = Some [str_of_path p].
Proof.
  eexists. split; [reflexivity|]. unfold sh_words.
  rewrite <- (app_nil_r (shlex_quote _)), sh_split_quoted. cbn. now rewrite app_nil_r, rev_involutive.
Qed.

(** * Durations *)

Lemma round_nearest n d : 0 < d -> nearest_even n d (round_half_even n d).
Proof.
  intros Hd. unfold nearest_even, round_half_even.
  pose proof (Z.div_mod n d ltac:(lia)) as E. pose proof (Z.mod_pos_bound n d Hd) as B.
  set (q := n / d) in *. set (r := n mod d) in *.
  destruct (2 * r <? d) eqn:E1.
  - replace (n - q * d) with r by lia. lia.
  - destruct (d <? 2 * r) eqn:E2.
    + replace (n - (q + 1) * d) with (r - d) by lia. lia.
    + destruct (Z.even q) eqn:E3.
      * replace (n - q * d) with r by lia. split; [lia|]. auto.
      * replace (n - (q + 1) * d) with (r - d) by lia. split; [lia|]. intros _.
        rewrite Z.add_1_r, Z.even_succ, <- Z.negb_even, E3. reflexivity.
Qed.

Lemma nearest_even_unique n d a b : 0 < d -> nearest_even n d a -> nearest_even n d b -> a = b.
Proof.
  unfold nearest_even. intros Hd [H1 H2] [H3 H4].
  destruct (Z.eq_dec a b) as [|Hn]; [assumption|exfalso].
  assert (Hab : a = b + 1 \/ b = a + 1) by nia.
  assert (Ha : 2 * Z.abs (n - a * d) = d) by nia.
  assert (Hb : 2 * Z.abs (n - b * d) = d) by nia.
  specialize (H2 Ha). specialize (H4 Hb).
  destruct Hab as [->| ->].
  - rewrite Z.add_1_r, Z.even_succ, <- Z.negb_even, H4 in H2. discriminate.
  - rewrite Z.add_1_r, Z.even_succ, <- Z.negb_even, H2 in H4. discriminate.
Qed.

Lemma round_nonneg n d : 0 < d -> 0 <= n -> 0 <= round_half_even n d.
Proof.
  intros Hd Hn. unfold round_half_even. assert (0 <= n / d) by (apply Z.div_pos; lia).
  destruct (2 * (n mod d) <? d), (d <? 2 * (n mod d)), (Z.even (n / d)); lia.
Qed.

Lemma read_field_ok u k z pad : unit_seconds u = Some k -> 0 <= z ->
  read_field (repeat "0"%char pad ++ digits 10 z ++ [u]) = Some (k * z).
Proof.
  intros Hu Hz. unfold read_field. rewrite app_assoc, rev_app_distr. cbn [rev app].
  rewrite Hu. rewrite rev_involutive.
  assert (Hl : 0 <? len (rev (repeat "0"%char pad ++ digits 10 z)) = true).
  { rewrite len_rev, len_app. pose proof (len_nonneg (repeat "0"%char pad)).
    pose proof (digits_ne 10 z). destruct (digits 10 z) as [|c0 l0]; [congruence|]. rewrite len_cons. pose proof (len_nonneg l0). lia. }
  rewrite Hl. cbn [andb].
  assert (Hf : forallb is_dec (rev (repeat "0"%char pad ++ digits 10 z)) = true).
  { apply forallb_forall. intros c Hc. apply in_rev in Hc. apply in_app_or in Hc as [Hc|Hc].
    - apply repeat_spec in Hc. subst. reflexivity.
    - pose proof (digits_dec_b z) as Hd. rewrite forallb_forall in Hd. auto. }
  rewrite Hf. unfold int_dec. rewrite int_of_digits_zeros. now rewrite int_of_digits_digits by lia.
Qed.

Lemma field_no_blank pad z u : u <> " "%char -> ~ In " "%char (repeat "0"%char pad ++ digits 10 z ++ [u]).
Proof.
  intros Hu H. apply in_app_or in H as [H|H].
  - apply repeat_spec in H. discriminate.
  - apply in_app_or in H as [H|[H|[]]].
    + pose proof (digits_dec_b z) as Hd. rewrite forallb_forall in Hd. apply Hd in H. discriminate.
    + congruence.
Qed.

Lemma fmt02_shape z : exists pad, fmt02 z = repeat "0"%char pad ++ digits 10 z.
Proof. unfold fmt02, rjust_with, str_of_nonneg. eauto. Qed.

Lemma read_format n d : 0 < d -> 0 <= n -> read_duration (format_duration n d) = Some (round_half_even n d).
Proof.
  intros Hd Hn. unfold format_duration. pose proof (round_nonneg n d Hd Hn) as Hr.
  set (t := round_half_even n d) in *.
  assert (Et : t = 3600 * (t / 3600) + 60 * ((t mod 3600) / 60) + (t mod 3600) mod 60).
  { pose proof (Z.div_mod t 3600 ltac:(lia)). pose proof (Z.div_mod (t mod 3600) 60 ltac:(lia)). lia. }
  pose proof (Z.mod_pos_bound t 3600 ltac:(lia)). pose proof (Z.mod_pos_bound (t mod 3600) 60 ltac:(lia)).
  assert (0 <= t / 3600) by (apply Z.div_pos; lia). assert (0 <= t mod 3600 / 60) by (apply Z.div_pos; lia).
  set (h := t / 3600) in *. set (mi := t mod 3600 / 60) in *. set (s := (t mod 3600) mod 60) in *.
  destruct (fmt02_shape mi) as [p1 E1]. destruct (fmt02_shape s) as [p2 E2]. rewrite E1, E2.
  assert (Hstr : forall z, 0 <= z -> str_of_int z = repeat "0"%char 0 ++ digits 10 z).
  { intros z Hz. unfold str_of_int. destruct (z <? 0) eqn:E; [lia|reflexivity]. }
  rewrite !Hstr by assumption || lia.
  assert (Hd1 : forall a z u b, u <> " "%char ->
     read_duration ((repeat "0"%char a ++ digits 10 z) ++ u :: " "%char :: b) =
     match read_field (repeat "0"%char a ++ digits 10 z ++ [u]), read_duration b with Some x, Some y => Some (x + y) | _, _ => None end).
  { intros a z u b Hu. unfold read_duration.
    replace ((repeat "0"%char a ++ digits 10 z) ++ u :: " "%char :: b)
      with ((repeat "0"%char a ++ digits 10 z ++ [u]) ++ " "%char :: b)
      by (rewrite <- !app_assoc; reflexivity).
    rewrite split_char_app by (now apply field_no_blank). reflexivity. }
  assert (Hd2 : forall a z u, u <> " "%char ->
     read_duration ((repeat "0"%char a ++ digits 10 z) ++ [u]) =
     match read_field (repeat "0"%char a ++ digits 10 z ++ [u]) with Some x => Some (x + 0) | None => None end).
  { intros a z u Hu. unfold read_duration. rewrite <- app_assoc.
    rewrite split_char_no by (now apply field_no_blank). reflexivity. }
  assert (Rh : forall z p, 0 <= z -> read_field (repeat "0"%char p ++ digits 10 z ++ ["h"%char]) = Some (3600 * z))
    by (intros; now apply read_field_ok).
  assert (Rm : forall z p, 0 <= z -> read_field (repeat "0"%char p ++ digits 10 z ++ ["m"%char]) = Some (60 * z))
    by (intros; now apply read_field_ok).
  assert (Rs : forall z p, 0 <= z -> read_field (repeat "0"%char p ++ digits 10 z ++ ["s"%char]) = Some (1 * z))
    by (intros; now apply read_field_ok).
  change $"h " with ["h"%char; " "%char]. change $"m " with ["m"%char; " "%char]. change $"s" with ["s"%char].
  destruct (0 <? h) eqn:Eh; [|destruct (0 <? mi) eqn:Em].
  - cbn [app]. rewrite Hd1 by congruence. rewrite Hd1 by congruence. rewrite Hd2 by congruence.
    rewrite ?Rh, ?Rm, ?Rs by lia. f_equal. lia.
  - cbn [app]. rewrite Hd1 by congruence. rewrite Hd2 by congruence.
    rewrite ?Rh, ?Rm, ?Rs by lia. f_equal. lia.
  - rewrite Hd2 by congruence. rewrite ?Rh, ?Rm, ?Rs by lia. f_equal. lia.
Qed.

(** Minutes and seconds below 60; leading zero units omitted. *)
Lemma format_shape n d : 0 < d -> 0 <= n ->
  exists h mi s, 0 <= h /\ 0 <= mi < 60 /\ 0 <= s < 60 /\ nearest_even n d (3600 * h + 60 * mi + s) /\
    format_duration n d =
      (if h =? 0 then (if mi =? 0 then digits 10 s ++ $"s"
                       else digits 10 mi ++ $"m " ++ (if s <? 10 then $"0" else []) ++ digits 10 s ++ $"s")
       else digits 10 h ++ $"h " ++ (if mi <? 10 then $"0" else []) ++ digits 10 mi ++ $"m " ++
            (if s <? 10 then $"0" else []) ++ digits 10 s ++ $"s").
Proof.
  intros Hd Hn. pose proof (round_nonneg n d Hd Hn) as Hr. pose proof (round_nearest n d Hd) as Hne.
  unfold format_duration. set (t := round_half_even n d) in *.
  exists (t / 3600), (t mod 3600 / 60), ((t mod 3600) mod 60).
  pose proof (Z.mod_pos_bound t 3600 ltac:(lia)). pose proof (Z.mod_pos_bound (t mod 3600) 60 ltac:(lia)).
  assert (0 <= t / 3600) by (apply Z.div_pos; lia). assert (0 <= t mod 3600 / 60) by (apply Z.div_pos; lia).
  assert (t mod 3600 / 60 < 60) by (apply Z.div_lt_upper_bound; lia).
  repeat split; try lia.
  - replace (3600 * (t / 3600) + 60 * (t mod 3600 / 60) + (t mod 3600) mod 60) with t; [apply Hne|].
    pose proof (Z.div_mod t 3600 ltac:(lia)). pose proof (Z.div_mod (t mod 3600) 60 ltac:(lia)). lia.
  - replace (3600 * (t / 3600) + 60 * (t mod 3600 / 60) + (t mod 3600) mod 60) with t; [apply Hne|].
    pose proof (Z.div_mod t 3600 ltac:(lia)). pose proof (Z.div_mod (t mod 3600) 60 ltac:(lia)). lia.
  - set (h := t / 3600) in *. set (mi := t mod 3600 / 60) in *. set (s := (t mod 3600) mod 60) in *.
    assert (Hf : forall z, 0 <= z < 60 -> fmt02 z = (if z <? 10 then $"0" else []) ++ digits 10 z).
    { intros z Hz. assert (HP : forallb (fun z => str_eqb (fmt02 z) ((if z <? 10 then $"0" else []) ++ digits 10 z)) (zrange 0 60) = true)
        by (vm_compute; reflexivity).
      rewrite forallb_forall in HP. apply str_eqb_eq, HP, zrange_in. lia. }
    rewrite !Hf by lia.
    assert (Hs : forall z, 0 <= z -> str_of_int z = digits 10 z)
      by (intros z Hz; unfold str_of_int; destruct (z <? 0) eqn:E; [lia|reflexivity]).
    rewrite !Hs by lia.
    destruct (0 <? h) eqn:Eh; destruct (h =? 0) eqn:Eh2; try lia.
    + now rewrite <- !app_assoc.
    + destruct (0 <? mi) eqn:Em; destruct (mi =? 0) eqn:Em2; try lia; now rewrite <- ?app_assoc.
Qed.

(** * Forms used by the property files *)

Lemma vd_lookup_not_looked {K V} (eqb : K -> K -> bool) :
  (forall a b, eqb a b = true <-> a = b) ->
  forall (h : list (op K V)) v k x, ~ looked_up v h ->
  (dget eqb k (fst (vd_getitem eqb (vd_run eqb h) v)) = Some x <->
   applicable_value (flat_map (fun o => match o with OAdd a => [a] | OLook _ => [] end) h) v k x).
Proof.
  intros He h v k x Hn. rewrite vd_lookup_history by assumption. rewrite adds_before_no_look by assumption.
  reflexivity.
Qed.

Lemma vd_domain {K V} (eqb : K -> K -> bool) :
  (forall a b, eqb a b = true <-> a = b) ->
  forall (h : list (addition K V)) v k,
  (exists x, dget eqb k (vd_getversion eqb (vd_adds eqb h) v) = Some x) <->
  (exists a b x, In ((a, b), k, x) h /\ lexle a v /\ lexlt v b).
Proof.
  intros He h v k. split.
  - intros [x Hx]. apply vd_lookup_fresh in Hx; [|assumption].
    destruct Hx as ([a b] & i & [H1 H2] & _ & (h1 & h2 & -> & _) & _).
    exists a, b, x. split; [apply in_or_app; right; left; reflexivity|]. auto.
  - intros (a & b & x & Hin & H1 & H2).
    destruct (dget eqb k (vd_getversion eqb (vd_adds eqb h) v)) eqn:E; [eauto|exfalso].
    assert (Hw : in_vrange (a, b) v = true) by (apply in_vrange_within; split; assumption).
    assert (Hu : In (a, b) (dkeys (vd_versions (vd_adds eqb h))))
      by (apply vd_adds_range_used; exists (a, b, k, x); auto).
    apply in_map_iff in Hu as ([r inner] & Er & Hr). cbn in Er. subst r.
    unfold vd_getversion in E. rewrite getversion_fold in E.
    + cbn [dget] in E.
      assert (Hin2 : exists y, In y (candidates eqb v k (vd_versions (vd_adds eqb h)))).
      { assert (Hd : dget vrange_eqb (a, b) (vd_versions (vd_adds eqb h)) = Some inner)
          by (apply dget_In_nodup; [apply vrange_eqb_eq|apply vd_adds_keys_nodup|assumption]).
        pose proof (proj2 (vd_adds_contents eqb He h (a, b) inner Hd) k) as Hc.
        destruct (last_binding eqb k (range_bindings h (a, b))) as [y|] eqn:El.
        - exists y. unfold candidates. apply in_flat_map. exists ((a, b), inner). split; [assumption|].
          rewrite Hw, Hc. left. reflexivity.
        - exfalso. apply (proj1 (last_binding_None eqb He k _) El x). apply in_map_iff.
          exists (a, b, k, x). split; [reflexivity|]. apply filter_In. split; [assumption|]. now apply vrange_eqb_eq. }
      destruct Hin2 as [y Hy]. unfold lastopt in E.
      destruct (rev (candidates eqb v k (vd_versions (vd_adds eqb h)))) eqn:Er; [|discriminate].
      apply (f_equal (@rev V)) in Er. rewrite rev_involutive in Er. rewrite Er in Hy. destruct Hy.
    + assumption.
    + intros r inner' Hin'. apply (vd_adds_contents eqb He h r).
      apply dget_In_nodup; [apply vrange_eqb_eq|apply vd_adds_keys_nodup|assumption].
Qed.

Lemma vd_add_invisible :
  exists (h : list (op str Z)) (r : vrange) (v : version) (k : str) (x : Z),
    within r v /\
    dget str_eqb k (fst (vd_getitem str_eqb (vd_run str_eqb (h ++ [OAdd (r, k, x)])) v)) <> Some x.
Proof.
  exists [OLook [4]], ([3], [7]), [4], $"A", 1. split.
  - apply in_vrange_within. reflexivity.
  - vm_compute. congruence.
Qed.

Lemma vl_lookup {V} (h : list (laddition V)) v :
  exists ranges, by_first_use h ranges /\ gathered h v ranges (vl_getversion (vl_adds h) v).
Proof. eexists. split; [apply vl_keys_bfu|apply vl_getversion_gathered]. Qed.

Lemma vl_nothing_lost {V} (h : list (laddition V)) v xs :
  applicable v h xs -> Permutation (vl_getversion (vl_adds h) v) xs.
Proof. apply gathered_perm_applicable with (l := dkeys (vl_versions (vl_adds h))); [apply vl_keys_bfu|apply vl_getversion_gathered]. Qed.

Lemma vl_first_lookup {V} (d : vlist V) v :
  dget ver_eqb v (vl_cache d) = None -> fst (vl_getitem d v) = vl_getversion d v.
Proof. unfold vl_getitem. now intros ->. Qed.

Lemma duration_read_back n d : 0 < d -> 0 <= n ->
  exists z, nearest_even n d z /\ read_duration (format_duration n d) = Some z.
Proof. intros Hd Hn. exists (round_half_even n d). split; [now apply round_nearest|now apply read_format]. Qed.

Lemma string_command_bug : exists s out,
  command_argv_to_string (CStr s) = Ok out /\ sh_words out <> sh_words s.
Proof. exists $"make", $"m a k e". split; [reflexivity|]. vm_compute. congruence. Qed.

Definition ladds_of {V} (h : list (lop (V := V))) : list (laddition V) :=
  flat_map (fun o => match o with LAdd a => [a] | LLook _ => [] end) h.

Lemma vl_run_versions {V} (h : list (lop (V := V))) :
  vl_versions (fold_left vl_step h vl_empty) = vl_versions (vl_adds (ladds_of h)).
Proof.
  induction h as [|o h IH] using rev_ind; [reflexivity|].
  rewrite fold_left_app. unfold ladds_of. rewrite flat_map_app. fold (ladds_of h).
  destruct o as [[r xs]|v]; cbn [fold_left vl_step flat_map app].
  - match goal with |- _ = vl_versions ?x =>
      replace x with (vl_add (fst r) (snd r) xs (vl_adds (ladds_of h))) by (symmetry; apply vl_adds_snoc) end.
    rewrite !vl_add_eta. cbn [vl_versions]. now rewrite IH.
  - rewrite app_nil_r. unfold vl_getitem.
    destruct (dget ver_eqb v (vl_cache (fold_left vl_step h vl_empty))); cbn; assumption.
Qed.

Lemma vl_run_cache {V} (h : list (lop (V := V))) v :
  ~ In (LLook v) h -> dget ver_eqb v (vl_cache (fold_left vl_step h vl_empty)) = None.
Proof.
  induction h as [|o h IH] using rev_ind; intros Hn; [reflexivity|].
  rewrite fold_left_app. cbn [fold_left].
  assert (Hh : ~ In (LLook v) h) by (intros H; apply Hn, in_or_app; auto).
  destruct o as [[r xs]|w]; cbn [vl_step].
  - rewrite vl_add_eta. auto.
  - unfold vl_getitem. destruct (dget ver_eqb w (vl_cache (fold_left vl_step h vl_empty))); cbn [snd vl_cache]; [auto|].
    rewrite (dget_dset ver_eqb ver_eqb_eq). destruct (ver_eqb v w) eqn:E; [|auto].
    exfalso. apply ver_eqb_eq in E. subst. apply Hn, in_or_app. right. left. reflexivity.
Qed.

Lemma vl_run_lookup {V} (h : list (lop (V := V))) v : ~ In (LLook v) h ->
  exists ranges, by_first_use (ladds_of h) ranges /\
    gathered (ladds_of h) v ranges (fst (vl_getitem (fold_left vl_step h vl_empty) v)).
Proof.
  intros Hn. rewrite vl_first_lookup by (now apply vl_run_cache).
  replace (vl_getversion (fold_left vl_step h vl_empty) v) with (vl_getversion (vl_adds (ladds_of h)) v).
  - apply vl_lookup.
  - unfold vl_getversion. now rewrite vl_run_versions.
Qed.
