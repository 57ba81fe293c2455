(** Lemmas about M_Syscall. *)
From Coq Require Import List Bool Ascii String ZArith Lia ZifyBool Sorting.Sorted.
From Verif Require Import PyBase PyFacts M_Utils L_Utils M_Syscall S_Utils S_Syscall.
Import ListNotations.
Open Scope Z_scope.
Open Scope list_scope.

(** * Counter *)

Definition get0 (p : str) (d : dict str Z) : Z :=
  match dget str_eqb p d with Some n => n | None => 0 end.

Lemma counter_fold_get p l d :
  get0 p (fold_left counter_add l d) = get0 p d + len (filter (str_eqb p) l).
Proof.
  revert d; induction l as [|x l IH]; intros d; cbn [fold_left filter].
  - rewrite len_nil. lia.
  - rewrite IH. unfold counter_add at 1, get0 at 1. rewrite (dget_dset _ str_eqb_eq).
    destruct (str_eqb p x) eqn:E.
    + apply str_eqb_eq in E; subst. rewrite len_cons. unfold get0. lia.
    + unfold get0. lia.
Qed.

Lemma counter_get p l : get0 p (counter l) = len (filter (str_eqb p) l).
Proof. unfold counter. rewrite counter_fold_get. unfold get0. cbn. lia. Qed.

Lemma counter_fold_keys p l d :
  In p (dkeys (fold_left counter_add l d)) <-> In p (dkeys d) \/ In p l.
Proof.
  revert d; induction l as [|x l IH]; intros d; cbn [fold_left]; [cbn; tauto|].
  rewrite IH. unfold counter_add. rewrite (dkeys_dset_in _ str_eqb_eq). cbn. intuition congruence.
Qed.

Lemma counter_keys p l : In p (dkeys (counter l)) <-> In p l.
Proof. unfold counter. rewrite counter_fold_keys. cbn. tauto. Qed.

Lemma counter_NoDup l : NoDup (dkeys (counter l)).
Proof.
  unfold counter. assert (H : NoDup (dkeys (@nil (str * Z)))) by constructor. revert H.
  generalize (@nil (str * Z)). induction l as [|x l IH]; intros d H; cbn [fold_left]; [exact H|].
  apply IH. apply (dset_NoDup _ str_eqb_eq), H.
Qed.

(** * Counting the names with a prefix *)

Definition how_many (names : list str) (p : str) : Z :=
  len (filter (fun n => startswith n p) names).

Lemma how_many_spec p names : starting_with p names (how_many names p).
Proof.
  induction names as [|n names IH]; unfold how_many in *; cbn [filter]; [constructor|].
  destruct (startswith n p) eqn:E.
  - apply startswith_iff in E as [t ->]. rewrite len_cons, Z.add_comm. now constructor.
  - constructor; [|assumption]. intros t ->. rewrite startswith_app in E. discriminate.
Qed.

Lemma starting_with_fun p names k : starting_with p names k -> k = how_many names p.
Proof.
  unfold how_many. induction 1; cbn [filter]; [reflexivity| |].
  - rewrite startswith_app, len_cons. lia.
  - destruct (startswith n p) eqn:E; [|assumption].
    apply startswith_iff in E as [t ->]. now destruct (H t).
Qed.

Lemma slice_to_firstn {A} (n : list A) l : 0 <= l -> slice_to n l = firstn (Z.to_nat l) n.
Proof. intros H. unfold slice_to, clampi. destruct (l <? 0) eqn:E; [lia|reflexivity]. Qed.

(** [n] is a candidate for length [l] with prefix [p]. *)
Lemma candidate_iff l n p : 1 <= l ->
  (prefix_candidate l n = true /\ slice_to n l = p) <->
  ((exists q, p = q ++ $"_") /\ len p = l /\ exists t, n = p ++ t).
Proof.
  intros Hl. rewrite slice_to_firstn by lia. unfold prefix_candidate, index_.
  replace (l - 1 <? 0) with false by lia. cbn beta. replace (l - 1 <? 0) with false by lia. split.
  - intros [H <-]. apply andb_prop in H as [H1 H2]. unfold len in H1.
    destruct (nth_error n (Z.to_nat (l - 1))) as [c|] eqn:E; [|discriminate].
    apply ascii_eqb_eq in H2; subst c. apply nth_error_split in E as (a & b & -> & Ha).
    assert (Hf : firstn (Z.to_nat l) (a ++ "_"%char :: b) = a ++ ["_"%char]).
    { replace (a ++ "_"%char :: b) with ((a ++ ["_"%char]) ++ b) by (now rewrite <- app_assoc).
      replace (Z.to_nat l) with (List.length (a ++ ["_"%char])) by (rewrite app_length; cbn; lia).
      apply firstn_app_exact. }
    rewrite Hf. split; [|split].
    + exists a. reflexivity.
    + unfold len. rewrite app_length. cbn. lia.
    + exists b. now rewrite <- app_assoc.
  - intros ((q & ->) & Hlen & t & ->). unfold len in Hlen. rewrite app_length in Hlen. cbn in Hlen.
    split.
    + apply andb_true_intro. split; [rewrite len_app; pose proof (len_nonneg t); unfold len at 1; rewrite app_length; cbn; lia|].
      rewrite <- app_assoc. rewrite nth_error_app2 by lia.
      replace (Z.to_nat (l - 1) - List.length q)%nat with O by lia. reflexivity.
    + replace (Z.to_nat l) with (List.length (q ++ $"_")) by (rewrite app_length; cbn; lia).
      apply firstn_app_exact.
Qed.

Lemma filter_map {A B} (f : A -> B) (g : B -> bool) l :
  filter g (map f l) = map f (filter (fun x => g (f x)) l).
Proof. induction l as [|x l IH]; cbn; [reflexivity|]. destruct (g (f x)); cbn; congruence. Qed.

Lemma len_map {A B} (f : A -> B) l : len (map f l) = len l.
Proof. unfold len. now rewrite map_length. Qed.

Lemma count_prefix names l p : 1 <= l -> (exists q, p = q ++ $"_") -> len p = l ->
  len (filter (str_eqb p) (map (fun n => slice_to n l) (filter (prefix_candidate l) names)))
  = how_many names p.
Proof.
  intros Hl Hq Hp. rewrite filter_map, len_map, filter_filter. unfold how_many. f_equal.
  apply filter_ext. intros n.
  pose proof (candidate_iff l n p Hl) as H.
  destruct (startswith n p) eqn:E.
  - apply startswith_iff in E as [t ->].
    destruct H as [_ H]. destruct H as [-> ->]; [eauto|]. apply str_eqb_refl.
  - destruct (prefix_candidate l n) eqn:E2; [|reflexivity]. cbn [andb].
    apply str_eqb_neq. intros F. destruct H as [H _].
    destruct H as (_ & _ & t & ->); [auto|]. rewrite startswith_app in E. discriminate.
Qed.

Lemma filter_le {A} (f : A -> bool) l : len (filter f l) <= len l.
Proof. induction l as [|x l IH]; cbn; [reflexivity|]. destruct (f x); rewrite !len_cons; lia. Qed.

Lemma block_iff names t l p : 1 <= l ->
  In p (prefixes_of_length names t l) <->
  (exists q, p = q ++ $"_") /\ len p = l /\ 1 <= how_many names p /\ t <= how_many names p.
Proof.
  intros Hl. unfold prefixes_of_length.
  set (cands := filter (prefix_candidate l) names).
  destruct (len cands <? t) eqn:E.
  - split; [intros []|]. intros (Hq & Hp & _ & Ht).
    rewrite <- (count_prefix names l p Hl Hq Hp) in Ht. fold cands in Ht.
    assert (G : t <= len (map (fun n => slice_to n l) cands)) by (eapply Z.le_trans; [exact Ht|apply filter_le]).
    rewrite len_map in G. apply Z.ltb_lt in E. exact (Z.lt_irrefl _ (Z.lt_le_trans _ _ _ E G)).
  - rewrite filter_In, counter_keys. fold (get0 p (counter (map (fun n => slice_to n l) cands))).
    rewrite counter_get. split.
    + intros [Hin Ht]. apply in_map_iff in Hin as (n & Hn & Hc). apply filter_In in Hc as [Hc1 Hc2].
      destruct (proj1 (candidate_iff l n p Hl) (conj Hc2 Hn)) as (Hq & Hp & u & Hu).
      unfold cands in Ht. rewrite count_prefix in Ht by assumption.
      repeat split; try assumption; [|lia].
      unfold how_many. assert (In n (filter (fun n => startswith n p) names)) as Hi.
      { apply filter_In. split; [assumption|]. subst n. apply startswith_app. }
      destruct (filter (fun n => startswith n p) names) as [|y r]; [destruct Hi|].
      rewrite len_cons. pose proof (len_nonneg r). lia.
    + intros (Hq & Hp & H1 & Ht). unfold cands. rewrite count_prefix by assumption.
      split; [|lia].
      unfold how_many in H1. destruct (filter (fun n => startswith n p) names) as [|n r] eqn:Ef.
      { rewrite len_nil in H1. lia. }
      assert (Hi : In n (filter (fun n => startswith n p) names)) by (rewrite Ef; now left).
      apply filter_In in Hi as [Hi1 Hi2]. apply startswith_iff in Hi2 as [u Hu].
      destruct (proj2 (candidate_iff l n p Hl)) as [Hc Hs]; [eauto|].
      apply in_map_iff. exists n. split; [assumption|]. apply filter_In. auto.
Qed.

Lemma block_NoDup names t l : NoDup (prefixes_of_length names t l).
Proof.
  unfold prefixes_of_length. destruct (_ <? _); [constructor|]. apply NoDup_filter, counter_NoDup.
Qed.

(** * All lengths *)

Definition longer_first : list str -> Prop := StronglySorted (fun a b => len b <= len a).

Lemma sorted_app {A} (R : A -> A -> Prop) a b :
  StronglySorted R a -> StronglySorted R b -> (forall x y, In x a -> In y b -> R x y) ->
  StronglySorted R (a ++ b).
Proof.
  induction a as [|x a IH]; cbn; intros Ha Hb H; [assumption|].
  inversion Ha; subst. constructor; [apply IH; auto|].
  apply Forall_app. split; [assumption|]. apply Forall_forall. auto.
Qed.

Lemma NoDup_app {A} (a b : list A) :
  NoDup a -> NoDup b -> (forall x, In x a -> In x b -> False) -> NoDup (a ++ b).
Proof.
  induction a as [|x a IH]; cbn; intros Ha Hb H; [assumption|].
  inversion Ha; subst. constructor; [|apply IH; eauto].
  rewrite in_app_iff. intros [F|F]; [contradiction|eauto].
Qed.

Lemma sorted_same_len (l : list str) k : (forall p, In p l -> len p = k) -> longer_first l.
Proof.
  induction l as [|x l IH]; intros H; constructor.
  - apply IH. intros. apply H. now right.
  - apply Forall_forall. intros y Hy. rewrite (H x (or_introl eq_refl)), (H y (or_intror Hy)). lia.
Qed.

Lemma in_blocks names t lo hi p : 1 <= lo ->
  In p (flat_map (prefixes_of_length names t) (rev (zrange lo hi))) <->
  (exists q, p = q ++ $"_") /\ lo <= len p < hi /\ 1 <= how_many names p /\ t <= how_many names p.
Proof.
  intros Hlo. rewrite in_flat_map. split.
  - intros (l & Hl & Hp). apply in_rev, zrange_in in Hl. apply block_iff in Hp; [|lia].
    destruct Hp as (Hq & <- & H). split; [assumption|]. split; [lia|assumption].
  - intros (Hq & Hl & H). exists (len p). split; [apply -> in_rev; now apply zrange_in|].
    apply block_iff; [lia|]. repeat split; tauto.
Qed.

Lemma blocks_sorted names t n lo hi : 1 <= lo -> (Z.to_nat (hi - lo) <= n)%nat ->
  longer_first (flat_map (prefixes_of_length names t) (rev (zrange lo hi))) /\
  NoDup (flat_map (prefixes_of_length names t) (rev (zrange lo hi))).
Proof.
  revert lo. induction n as [|n IH]; intros lo Hlo Hn.
  - rewrite zrange_empty by lia. split; constructor.
  - destruct (Z_lt_le_dec lo hi) as [Hlt|Hge]; [|rewrite zrange_empty by lia; split; constructor].
    rewrite zrange_cons by assumption. cbn [rev]. rewrite flat_map_app. cbn [flat_map].
    rewrite app_nil_r. destruct (IH (lo + 1)) as [IH1 IH2]; [lia|lia|].
    split.
    + apply sorted_app; [assumption| |].
      * apply (sorted_same_len _ lo). intros p Hp. now apply block_iff in Hp.
      * intros x y Hx Hy. apply in_blocks in Hx; [|lia]. apply block_iff in Hy; lia.
    + apply NoDup_app; [assumption|apply block_NoDup|].
      intros x Hx Hy. apply in_blocks in Hx; [|lia]. apply block_iff in Hy; lia.
Qed.

Lemma fold_max_ge l z : z <= fold_left Z.max l z /\ forall x, In x l -> x <= fold_left Z.max l z.
Proof.
  revert z; induction l as [|y l IH]; intros z; cbn; [split; [lia|tauto]|].
  destruct (IH (Z.max z y)) as [H1 H2]. split; [lia|].
  intros x [->|Hx]; [lia|auto].
Qed.

Lemma how_many_len n ns p :
  1 <= how_many (n :: ns) p -> len p <= fold_left Z.max (map len ns) (len n).
Proof.
  unfold how_many. intros H.
  destruct (filter (fun n => startswith n p) (n :: ns)) as [|m r] eqn:E; [rewrite len_nil in H; lia|].
  assert (Hi : In m (filter (fun n => startswith n p) (n :: ns))) by (rewrite E; now left).
  apply filter_In in Hi as [Hi Hs]. apply startswith_iff in Hs as [u ->].
  destruct (fold_max_ge (map len ns) (len n)) as [H1 H2].
  assert (Hm : len (p ++ u) <= fold_left Z.max (map len ns) (len n)).
  { destruct Hi as [->|Hi]; [assumption|]. apply H2. now apply in_map. }
  rewrite len_app in Hm. pose proof (len_nonneg u). lia.
Qed.

Lemma prefixes_exact names t : names <> [] -> 1 <= t ->
  exists ps, common_syscall_symbol_prefixes names t = Ok ps /\
    NoDup ps /\ longer_first ps /\ forall p, In p ps <-> common_prefix names t p.
Proof.
  intros Hne Ht. destruct names as [|n ns]; [congruence|].
  unfold common_syscall_symbol_prefixes. eexists. split; [reflexivity|].
  set (m := fold_left Z.max (map len ns) (len n)).
  destruct (blocks_sorted (n :: ns) t (Z.to_nat (m + 1 - 2)) 2 (m + 1)) as [H1 H2]; [lia|lia|].
  split; [assumption|]. split; [assumption|]. intros p. rewrite in_blocks by lia.
  unfold common_prefix. split.
  - intros ((q & ->) & Hl & H3 & H4). split.
    + exists q. split; [|reflexivity]. intros ->. cbn in Hl. unfold len in Hl. cbn in Hl. lia.
    + exists (how_many (n :: ns) (q ++ $"_")). split; [apply how_many_spec|assumption].
  - intros ((q & Hq & ->) & k & Hk & Htk). apply starting_with_fun in Hk. subst k.
    split; [eauto|]. pose proof (how_many_len n ns (q ++ $"_")). fold m in H.
    assert (2 <= len (q ++ $"_")).
    { rewrite len_app. destruct q; [congruence|]. rewrite len_cons. pose proof (len_nonneg q).
      change (len $"_") with 1. lia. }
    lia.
Qed.

Lemma prefixes_empty t : common_syscall_symbol_prefixes [] t = Raise ValueError.
Proof. reflexivity. Qed.

(** * Stripping *)

Lemma noprefix_longest ps s : longer_first ps ->
  (exists p, In p ps /\ s = p ++ noprefix s ps /\
     forall q u, In q ps -> s = q ++ u -> len q <= len p) \/
  ((forall p u, In p ps -> s <> p ++ u) /\ noprefix s ps = s).
Proof.
  intros H. induction ps as [|p ps IH]; cbn [noprefix].
  - right. split; [intros ? ? []|reflexivity].
  - inversion H as [|? ? Hs Hf]; subst. destruct (startswith s p) eqn:E.
    + apply startswith_iff in E as [t ->]. left. exists p. rewrite slice_from_app.
      split; [now left|]. split; [reflexivity|]. intros q u [<-|Hq] _; [lia|].
      rewrite Forall_forall in Hf. auto.
    + destruct (IH Hs) as [(p' & H1 & H2 & H3)|[H1 H2]].
      * left. exists p'. split; [now right|]. split; [assumption|].
        intros q u [<-|Hq] F; [|eauto]. subst s. rewrite startswith_app in E. discriminate.
      * right. split; [|assumption]. intros q u [<-|Hq] F; [|eapply H1; eauto].
        subst s. rewrite startswith_app in E. discriminate.
Qed.

Lemma strip_longest names t s : names <> [] -> 1 <= t ->
  exists ps, common_syscall_symbol_prefixes names t = Ok ps /\
  ((exists p, common_prefix names t p /\ s = p ++ noprefix s ps /\
      forall q u, common_prefix names t q -> s = q ++ u -> len q <= len p) \/
   ((forall p u, common_prefix names t p -> s <> p ++ u) /\ noprefix s ps = s)).
Proof.
  intros Hn Ht. destruct (prefixes_exact names t Hn Ht) as (ps & E & _ & Hs & Hi).
  exists ps. split; [assumption|]. destruct (noprefix_longest ps s Hs) as [(p & H1 & H2 & H3)|[H1 H2]].
  - left. exists p. rewrite <- Hi. split; [assumption|]. split; [assumption|].
    intros q u Hq. apply H3. now apply Hi.
  - right. split; [|assumption]. intros p u Hp. apply H1. now apply Hi.
Qed.
