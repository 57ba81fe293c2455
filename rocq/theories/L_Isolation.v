(** Lemmas for the exact form of C05. *)
From Coq Require Import List Bool Ascii String ZArith Lia.
From Verif Require Import PyBase PyFacts M_Utils S_Utils L_Utils M_Arch S_Arch L_Arch L_Arch3 S_Isolation.
Import ListNotations.
Open Scope Z_scope.
Open Scope list_scope.

Local Notation step := (vd_step str_eqb (V := list str)).

Lemma run_adds (l : list kentry) (d : kconf) : fold_left step (map OAdd l) d = kc_add_all l d.
Proof.
  unfold kc_add_all. revert d. induction l as [|[[[a b] k] x] l IH]; intros d; cbn [map fold_left]; [reflexivity|].
  rewrite IH. reflexivity.
Qed.

Lemma world_events k h : forall p,
  p_world (fold_left act_step h p) k = fold_left step (events k (p_objs p) h) (p_world p k).
Proof.
  induction h as [|x h IH]; intros [w objs]; cbn [fold_left events]; [reflexivity|].
  rewrite IH. destruct x as [k' v abi b|i v]; cbn [act_step p_objs p_world].
  - unfold instantiate. destruct (arch_new k' v abi b) as [a| | |]; cbn [bind p_objs p_world]; try reflexivity.
    rewrite fold_left_app. f_equal. unfold set_kconf. destruct (klass_eqb k' k) eqn:E.
    + apply klass_eqb_eq in E. subst k'. rewrite klass_eqb_refl, run_adds. reflexivity.
    + rewrite (klass_eqb_neq k k'); [reflexivity|]. intros ->. rewrite klass_eqb_refl in E. discriminate.
  - destruct (nth_error objs i) as [a|]; [|reflexivity]. cbn [p_objs p_world].
    rewrite fold_left_app. f_equal. unfold arch_kconfig.
    destruct (vd_getitem str_eqb (w (a_class a)) v) as [r d] eqn:G. cbn [snd]. unfold set_kconf.
    destruct (klass_eqb (a_class a) k) eqn:E.
    + apply klass_eqb_eq in E. subst k. rewrite klass_eqb_refl. cbn [fold_left vd_step]. rewrite G. reflexivity.
    + rewrite (klass_eqb_neq k (a_class a)); [reflexivity|]. intros ->. rewrite klass_eqb_refl in E. discriminate.
Qed.

Lemma world_run k h : p_world (run_process h) k = vd_run str_eqb (map OAdd (class_kconfig k) ++ events k [] h).
Proof.
  unfold run_process, vd_run. rewrite world_events, fold_left_app, run_adds. reflexivity.
Qed.

Lemma before_adds v (l : list (addition str (list str))) h :
  adds_before_look ver_eqb v (map OAdd l ++ h) = l ++ adds_before_look ver_eqb v h.
Proof. induction l as [|a l IH]; cbn; [reflexivity|]. now rewrite IH. Qed.

(** The value of each option. *)
Lemma kconfig_values h a v key deps :
  dget str_eqb key (fst (arch_kconfig a v (p_world (run_process h)))) = Some deps <->
  applicable_value (class_kconfig (a_class a) ++ adds_before_look ver_eqb v (events (a_class a) [] h)) v key deps.
Proof.
  assert (fst (arch_kconfig a v (p_world (run_process h))) =
          fst (vd_getitem str_eqb (p_world (run_process h) (a_class a)) v)) as ->.
  { unfold arch_kconfig. now destruct (vd_getitem str_eqb _ v). }
  rewrite world_run, (vd_lookup_history str_eqb str_eqb_eq), before_adds. reflexivity.
Qed.

(** Histories grow at the end. *)
Lemma run_snoc h x : run_process (h ++ [x]) = act_step (run_process h) x.
Proof. unfold run_process. now rewrite fold_left_app. Qed.

Lemma events_snoc k x h : forall objs w,
  events k objs (h ++ [x]) =
  events k objs h ++ events k (p_objs (fold_left act_step h (Process w objs))) [x].
Proof.
  induction h as [|y h IH]; intros objs w; [reflexivity|].
  destruct y as [k' v abi b|i v]; cbn [app events fold_left act_step p_world p_objs].
  - unfold instantiate. destruct (arch_new k' v abi b) as [a| | |]; cbn [bind]; try apply IH.
    rewrite <- app_assoc. f_equal. apply IH.
  - destruct (nth_error objs i) as [a|]; [|apply IH]. rewrite <- app_assoc. f_equal. apply IH.
Qed.

Lemma asked_snoc k v h x : asked k v (h ++ [x]) <->
  asked k v h \/ exists i a, x = Ask i v /\ nth_error (p_objs (run_process h)) i = Some a /\ a_class a = k.
Proof.
  split.
  - intros (h1 & i & h2 & a & E & N & K). destruct h2 as [|y h2 _] using rev_ind.
    + apply app_inj_tail in E as [-> ->]. right. eauto.
    + rewrite app_comm_cons, app_assoc in E. apply app_inj_tail in E as [-> ->]. left. exists h1, i, h2, a. auto.
  - intros [(h1 & i & h2 & a & -> & N & K)|(i & a & -> & N & K)].
    + exists h1, i, (h2 ++ [x]), a. rewrite <- app_assoc. auto.
    + exists h, i, [], a. auto.
Qed.

Lemma asked_looked k v h : asked k v h <-> looked_up v (events k [] h).
Proof.
  induction h as [|x h IH] using rev_ind.
  - split; [|intros []]. intros ([|y0 h0] & i & h2 & a & E & _); discriminate E.
  - rewrite asked_snoc, IH, (events_snoc k x h [] world0). unfold looked_up. rewrite in_app_iff.
    fold process0. fold (run_process h). apply or_iff_compat_l.
    destruct x as [k' v' abi b|i v']; cbn [events].
    + split; [intros (? & ? & [=] & _)|]. intros H. destruct (arch_new k' v' abi b); [|destruct H..].
      rewrite app_nil_r in H. destruct (klass_eqb k' k); [|destruct H].
      apply in_map_iff in H as (? & [=] & _).
    + destruct (nth_error (p_objs (run_process h)) i) as [a|] eqn:N.
      * rewrite app_nil_r. destruct (klass_eqb (a_class a) k) eqn:E.
        -- apply klass_eqb_eq in E. split.
           ++ intros (j & c & [= <- <-] & _). left. reflexivity.
           ++ intros [[= ->]|[]]. exists i, a. auto.
        -- split; [|intros []]. intros (j & c & [= <- <-] & N' & K). rewrite N in N'. injection N' as <-.
           subst k. rewrite klass_eqb_refl in E. discriminate.
      * split; [|intros []]. intros (j & c & [= <- <-] & N' & K). congruence.
Qed.

Lemma came_snoc k v h x lo hi key deps : came_before k v (h ++ [x]) lo hi key deps <->
  came_before k v h lo hi key deps \/
  ~ asked k v h /\ exists ver abi b a, x = New k ver abi b /\ arch_new k ver abi b = Ok a /\
    In (lo, hi, key, deps) (init_kconfig k abi b).
Proof.
  split.
  - intros (h1 & h2 & b & E & I & K & A & D). destruct h2 as [|y h2 _] using rev_ind.
    + rewrite app_nil_r in E. subst h1. rewrite asked_snoc in A.
      assert (~ asked k v h) as A' by tauto. rewrite run_snoc in I.
      destruct x as [k' ver abi b'|i v']; cbn [act_step] in I.
      * unfold instantiate in I. destruct (arch_new k' ver abi b') as [a| | |] eqn:N; cbn [bind p_objs] in I.
        2-4: left; exists h, [], b; rewrite app_nil_r; auto.
        apply in_app_or in I as [I|[<-|[]]]; [left; exists h, [], b; rewrite app_nil_r; auto|].
        right. split; [assumption|]. pose proof (arch_new_fields _ _ _ _ _ N) as (Hk & Hv & Habi & Hb & _).
        rewrite Hk in K. subst k'. rewrite Hk, Habi, Hb in D. exists ver, abi, b', a. auto.
      * left. exists h, [], b. rewrite app_nil_r. destruct (nth_error (p_objs (run_process h)) i); auto.
    + rewrite app_assoc in E. apply app_inj_tail in E as [-> ->]. left. exists h1, h2, b. auto.
  - intros [(h1 & h2 & b & -> & R)|(A & ver & abi & b & a & -> & N & D)].
    + exists h1, (h2 ++ [x]), b. rewrite <- app_assoc. auto.
    + exists (h ++ [New k ver abi b]), [], a. rewrite app_nil_r.
      pose proof (arch_new_fields _ _ _ _ _ N) as (Hk & Hv & Habi & Hb & _).
      split; [reflexivity|]. split; [|split; [assumption|split]].
      * rewrite run_snoc. cbn [act_step]. unfold instantiate. rewrite N. cbn [bind p_objs].
        apply in_or_app. right. left. reflexivity.
      * rewrite asked_snoc. intros [?|(? & ? & [=] & _)]. contradiction.
      * now rewrite Hk, Habi, Hb.
Qed.

Lemma came_events k v h lo hi key deps :
  came_before k v h lo hi key deps <-> In (lo, hi, key, deps) (adds_before_look ver_eqb v (events k [] h)).
Proof.
  induction h as [|x h IH] using rev_ind.
  - split; [|intros []]. intros ([|y0 h0] & h2 & b & E & I & _); [destruct I|discriminate E].
  - rewrite came_snoc, IH, (events_snoc k x h [] world0). fold process0. fold (run_process h).
    assert (asked k v h <-> lookedb v (events k [] h) = true) as AL.
    { rewrite asked_looked. symmetry. apply lookedb_iff. }
    set (E := events k [] h) in *. clearbody E.
    assert (Hadd : forall l : list (addition str (list str)), adds_before_look ver_eqb v (E ++ map OAdd l) =
      if lookedb v E then adds_before_look ver_eqb v E else adds_before_look ver_eqb v E ++ l).
    { intros l. induction l as [|y l IHl] using rev_ind.
      - rewrite !app_nil_r. now destruct (lookedb v E).
      - rewrite map_app, app_assoc. cbn [map]. rewrite adds_before_snoc, IHl. unfold lookedb at 1. rewrite existsb_app.
        fold (lookedb v E). assert (existsb (is_look v) (map OAdd l) = false) as ->.
        { clear. induction l; cbn; auto. }
        rewrite orb_false_r. destruct (lookedb v E); [reflexivity|]. now rewrite <- app_assoc. }
    assert (Hlook : forall w, adds_before_look ver_eqb v (E ++ [OLook w]) = adds_before_look ver_eqb v E).
    { intros w. rewrite adds_before_snoc. destruct (lookedb v E); [reflexivity|apply app_nil_r]. }
    destruct x as [k' ver abi b|i v']; cbn [events].
    + destruct (arch_new k' ver abi b) as [a| | |] eqn:N.
      2-4: rewrite app_nil_r; split; [|auto]; intros [?|(_ & ? & ? & ? & ? & [= <- <- <- <-] & N' & _)]; [assumption|congruence].
      rewrite app_nil_r. destruct (klass_eqb k' k) eqn:K.
      * apply klass_eqb_eq in K. subst k'. rewrite Hadd. destruct (lookedb v E).
        -- split; [|auto]. intros [?|(A & _)]; [assumption|]. destruct A. now apply AL.
        -- rewrite in_app_iff. split.
           ++ intros [?|(_ & ? & ? & ? & ? & [= <- <- <-] & _ & D)]; auto.
           ++ intros [?|D]; [auto|]. right. split; [intros A; apply AL in A; discriminate|]. eauto 8.
      * rewrite app_nil_r. split; [|auto]. intros [?|(_ & ? & ? & ? & ? & [= -> <- <- <-] & _)]; [assumption|].
        rewrite klass_eqb_refl in K. discriminate.
    + assert (R : (In (lo, hi, key, deps) (adds_before_look ver_eqb v E) \/
        ~ asked k v h /\ (exists ver abi b a, Ask i v' = New k ver abi b /\ arch_new k ver abi b = Ok a /\
          In (lo, hi, key, deps) (init_kconfig k abi b))) <-> In (lo, hi, key, deps) (adds_before_look ver_eqb v E)).
      { split; [|auto]. intros [?|(_ & ? & ? & ? & ? & [=] & _)]. assumption. }
      rewrite R. destruct (nth_error (p_objs (run_process h)) i) as [a|]; rewrite ?app_nil_r; [|reflexivity].
      destruct (klass_eqb (a_class a) k); [rewrite Hlook|rewrite app_nil_r]; reflexivity.
Qed.

(** The names of the options. *)
Lemma kconfig_keys h a v key :
  (exists deps, dget str_eqb key (fst (arch_kconfig a v (p_world (run_process h)))) = Some deps) <->
  exists lo hi deps, within (lo, hi) v /\
    (In (lo, hi, key, deps) (class_kconfig (a_class a)) \/ came_before (a_class a) v h lo hi key deps).
Proof.
  set (A := class_kconfig (a_class a) ++ adds_before_look ver_eqb v (events (a_class a) [] h)).
  transitivity (exists deps, dget str_eqb key (vd_getversion str_eqb (vd_adds str_eqb A) v) = Some deps).
  { split; intros [deps D]; exists deps.
    - apply (vd_lookup_fresh str_eqb str_eqb_eq). now apply kconfig_values.
    - apply kconfig_values. now apply (vd_lookup_fresh str_eqb str_eqb_eq). }
  rewrite (vd_domain str_eqb str_eqb_eq A v key). unfold A.
  split; intros (lo & hi & deps & R); exists lo, hi, deps.
  - destruct R as (I & L & U). split; [split; assumption|]. apply in_app_or in I as [I|I]; [auto|].
    right. now apply came_events.
  - destruct R as ([L U] & I). split; [|split; assumption]. apply in_or_app.
    destruct I as [I|I]; [auto|]. right. now apply came_events.
Qed.
