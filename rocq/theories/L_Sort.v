(** Lemmas for C94. *)
From Coq Require Import List Bool Ascii String ZArith Lia Permutation Sorted.
From Verif Require Import PyBase PyFacts M_Utils M_Elf M_Syscall M_Arch M_Config M_Output M_Html S_Output L_Output M_Sort S_Html S_Sort L_Html L_Html2 L_Html3.
Import ListNotations.
Open Scope Z_scope.
Open Scope list_scope.

(** * Decimal texts read as hexadecimal keep their order *)

Fixpoint hv (n : nat) (z : Z) : Z := match n with O => 0 | S n' => 16 * hv n' (z / 10) + z mod 10 end.
Lemma hv_0 n : hv n 0 = 0.
Proof. induction n as [|n IH]; [reflexivity|]. cbn [hv]. rewrite Z.div_0_l, Z.mod_0_l, IH by lia. reflexivity. Qed.
Lemma hv_nonneg n z : 0 <= hv n z.
Proof. revert z. induction n as [|n IH]; intros z; cbn [hv]; [lia|]. pose proof (IH (z / 10)). pose proof (Z.mod_pos_bound z 10). lia. Qed.
Lemma div10_bound n z : 0 <= z < 2 ^ Z.of_nat (S n) -> 0 <= z / 10 < 2 ^ Z.of_nat n.
Proof.
  rewrite Nat2Z.inj_succ, Z.pow_succ_r by lia. intros H. pose proof (Z.div_mod z 10). pose proof (Z.mod_pos_bound z 10). lia.
Qed.
Lemma hv_mono n : forall n' a b, 0 <= a < 2 ^ Z.of_nat n -> 0 <= b < 2 ^ Z.of_nat n' ->
  (a < b -> hv n a < hv n' b) /\ (a = b -> hv n a = hv n' b).
Proof.
  induction n as [|n IH]; intros n' a b Ha Hb.
  - assert (a = 0) as -> by (cbn in Ha; lia). cbn [hv]. split; intros H; [|subst; now rewrite hv_0].
    revert b Hb H. induction n' as [|n' IH']; intros b Hb H; [cbn in Hb; lia|]. cbn [hv]. pose proof (div10_bound _ _ Hb) as D.
    pose proof (Z.div_mod b 10). pose proof (Z.mod_pos_bound b 10). pose proof (hv_nonneg n' (b / 10)).
    destruct (Z.eq_dec (b / 10) 0) as [Q|Q]; [lia|]. specialize (IH' (b / 10) D). lia.
  - destruct n' as [|n'].
    { assert (b = 0) as -> by (cbn in Hb; lia). split; intros H; [lia|subst; now rewrite !hv_0]. }
    cbn [hv]. pose proof (div10_bound _ _ Ha) as Da. pose proof (div10_bound _ _ Hb) as Db. destruct (IH n' (a / 10) (b / 10) Da Db) as [I1 I2].
    pose proof (Z.div_mod a 10). pose proof (Z.mod_pos_bound a 10). pose proof (Z.div_mod b 10). pose proof (Z.mod_pos_bound b 10).
    split; intros H'.
    + assert (a / 10 <= b / 10) by (apply Z.div_le_mono; lia). destruct (Z.eq_dec (a / 10) (b / 10)) as [Q|Q]; [rewrite (I2 Q)|]; lia.
    + subst b. rewrite I2 by reflexivity. reflexivity.
Qed.
Definition hexed (z : Z) : Z := hv (S (Z.to_nat (Z.log2 z))) z.
Lemma hexed_lt a b : 0 <= a -> 0 <= b -> (hexed b <? hexed a) = (b <? a).
Proof.
  intros Ha Hb. unfold hexed. pose proof (digits_fuel_enough a Ha) as Ea. pose proof (digits_fuel_enough b Hb) as Eb.
  destruct (hv_mono (S (Z.to_nat (Z.log2 b))) (S (Z.to_nat (Z.log2 a))) b a (conj Hb Eb) (conj Ha Ea)) as [I1 I2].
  destruct (hv_mono (S (Z.to_nat (Z.log2 a))) (S (Z.to_nat (Z.log2 b))) a b (conj Ha Ea) (conj Hb Eb)) as [I3 I4].
  destruct (Z.compare_spec a b) as [E|E|E].
  - specialize (I4 E). rewrite I4. lia.
  - specialize (I3 E). lia.
  - specialize (I1 E). lia.
Qed.

Definition dec_text (t : list Z) : Prop := Forall (fun c => 48 <= c <= 57) t.
Lemma hex_digit_dec c : 48 <= c <= 57 -> hex_digit c = Some (c - 48).
Proof. intros H. unfold hex_digit, in_range. destruct (48 <=? c) eqn:E1, (c <=? 57) eqn:E2; try lia. reflexivity. Qed.
Definition dec_hex (acc : Z) (t : list Z) : Z := fold_left (fun n c => 16 * n + (c - 48)) t acc.
Lemma hex_prefix_dec t : dec_text t -> forall acc, hex_prefix (Some acc) t = Some (dec_hex acc t).
Proof.
  induction 1 as [|c t H F IH]; intros acc; cbn [hex_prefix]; [reflexivity|]. rewrite hex_digit_dec by exact H. rewrite IH. reflexivity.
Qed.
Lemma parse_dec t : dec_text t -> t <> [] -> parse_int16 t = Some (dec_hex 0 t).
Proof.
  intros F N. destruct t as [|c t]; [congruence|]. inversion F as [|? ? H F']; subst. unfold parse_int16. cbn [trim_start].
  unfold in_range. destruct (9 <=? c) eqn:E1, (c <=? 13) eqn:E2, (c =? 32) eqn:E3, (c =? 160) eqn:E4; try lia. cbn [andb orb].
  destruct (c =? 45) eqn:E5; [lia|]. destruct (c =? 43) eqn:E6; [lia|].
  assert (skip_0x (c :: t) = c :: t) as ->.
  { destruct t as [|x t]; [reflexivity|]. cbn [skip_0x]. inversion F' as [|? ? H' _]; subst. destruct (x =? 120) eqn:E7; [lia|]. destruct (x =? 88) eqn:E8; [lia|]. now rewrite andb_false_r. }
  cbn [hex_prefix]. rewrite hex_digit_dec by exact H. now rewrite hex_prefix_dec.
Qed.
Lemma digit_code z : 0 <= z < 10 -> code (digit_chr z) = 48 + z.
Proof. intros H. unfold digit_chr. replace (z <? 10) with true by lia. apply code_chr. lia. Qed.
Lemma digits_fuel_hex n : forall z acc, 0 <= z < 2 ^ Z.of_nat n ->
  dec_hex 0 (codes (digits_fuel n 10 z acc)) = dec_hex (hv n z) (codes acc).
Proof.
  induction n as [|n IH]; intros z acc H; [reflexivity|]. cbn [digits_fuel hv]. pose proof (div10_bound _ _ H) as D.
  pose proof (Z.mod_pos_bound z 10) as M.
  destruct (z / 10 =? 0) eqn:E.
  - assert (z / 10 = 0) as -> by lia. rewrite hv_0. unfold dec_hex, codes. cbn [map fold_left]. rewrite digit_code by lia. f_equal. lia.
  - rewrite IH by exact D. unfold dec_hex, codes. cbn [map fold_left]. rewrite digit_code by lia. f_equal. lia.
Qed.
Lemma parse_number z : 0 <= z -> parse_int16 (decimal_text z) = Some (hexed z).
Proof.
  intros H. unfold decimal_text, str_of_int. destruct (z <? 0) eqn:E; [lia|]. rewrite parse_dec.
  - unfold digits. rewrite digits_fuel_hex; [reflexivity|]. split; [exact H|now apply digits_fuel_enough].
  - unfold dec_text, codes. apply Forall_map. eapply Forall_impl; [|apply digits_dec]. intros c. unfold is_dec, in_range. intros X. lia.
  - pose proof (digits_ne 10 z). destruct (digits 10 z); [congruence|discriminate].
Qed.

(** * Texts *)
Lemma text_le_gt a : forall b, text_le a b <-> text_gt a b = false.
Proof.
  induction a as [|x a IH]; intros b.
  - split; [reflexivity|]. constructor.
  - destruct b as [|y b]; cbn [text_gt]; [split; [intros H; inversion H|discriminate]|].
    destruct (x =? y) eqn:E.
    + assert (x = y) as -> by lia. rewrite <- IH. split; [intros H; inversion H; subst; [lia|assumption]|now constructor].
    + split; [intros H; inversion H; subst; lia|]. intros H. constructor. lia.
Qed.
Lemma text_le_total a : forall b, text_le a b \/ text_le b a.
Proof.
  induction a as [|x a IH]; intros b; [left; constructor|]. destruct b as [|y b]; [right; constructor|].
  destruct (Z.compare_spec x y) as [->|E|E]; [destruct (IH b); [left|right]; now constructor|left; now constructor|right; now constructor].
Qed.
Lemma text_le_trans a : forall b c, text_le a b -> text_le b c -> text_le a c.
Proof.
  induction a as [|x a IH]; intros b c H1 H2; [constructor|]. inversion H1; subst; inversion H2; subst; try (constructor; lia); try (now constructor).
  apply tl_same. eauto.
Qed.
Lemma column_total i s t : column_le i s t \/ column_le i t s.
Proof. unfold column_le. destruct (Nat.eqb i 0); [lia|apply text_le_total]. Qed.
Lemma column_trans i s t u : column_le i s t -> column_le i t u -> column_le i s u.
Proof. unfold column_le. destruct (Nat.eqb i 0); [lia|apply text_le_trans]. Qed.

(** * The values compared *)
Definition value_of (i : nat) (s : syscall) : value :=
  if Nat.eqb i 0 then VNum (Some (hexed (sc_number s))) else VText (column_text i s).
Lemma location_any tag s : c_text (location tag s) = c_text (location [] s).
Proof. unfold location. destruct (sc_file s); [|reflexivity]. destruct (sc_line s); reflexivity. Qed.
Lemma get_value_row tag m i s : 0 <= sc_number s -> (i < 5)%nat -> get_value i (map c_text (row_of tag m s)) = Ok (value_of i s).
Proof.
  intros N I. unfold get_value, value_of, child, row_of.
  do 5 (destruct i as [|i]; [cbn [Nat.eqb plain marked map app nth_error Nat.add c_text bind column_text]; try rewrite parse_number by exact N; try rewrite location_any; reflexivity|]).
  lia.
Qed.
Lemma gt_value i s t : 0 <= sc_number s -> 0 <= sc_number t -> gt (value_of i s) (value_of i t) = false <-> column_le i s t.
Proof.
  intros N1 N2. unfold value_of, column_le. destruct (Nat.eqb i 0); cbn [gt]; [rewrite hexed_lt by assumption; lia|]. symmetry. apply text_le_gt.
Qed.
Definition row_le (mark : nat * bool) (x y : bool * syscall) : bool :=
  compare (negb (snd mark)) (value_of (fst mark) (snd x)) (value_of (fst mark) (snd y)) <=? 0.
Lemma row_le_iff mark x y : 0 <= sc_number (snd x) -> 0 <= sc_number (snd y) ->
  row_le mark x y = true <-> (if snd mark then column_le (fst mark) (snd x) (snd y) else column_le (fst mark) (snd y) (snd x)).
Proof.
  intros N1 N2. unfold row_le, compare. destruct mark as [i [|]]; cbn [fst snd negb]; rewrite <- gt_value by assumption.
  - destruct (gt (value_of i (snd x)) (value_of i (snd y))) eqn:E1; [split; [intros H; discriminate H|discriminate]|].
    destruct (gt (value_of i (snd y)) (value_of i (snd x))); split; auto.
  - destruct (gt (value_of i (snd y)) (value_of i (snd x))) eqn:E1; [split; [intros H; discriminate H|discriminate]|].
    destruct (gt (value_of i (snd x)) (value_of i (snd y))); split; auto.
Qed.

(** * Sorting *)
Lemma insert_image {A B} (f : A -> B) (le : B -> B -> bool) x l :
  insert_sorted le (f x) (map f l) = map f (insert_sorted (fun a b => le (f a) (f b)) x l).
Proof. induction l as [|y l IH]; [reflexivity|]. cbn [map insert_sorted]. destruct (le (f x) (f y)); [reflexivity|]. cbn [map]. now rewrite IH. Qed.
Lemma sort_image {A B} (f : A -> B) (le : B -> B -> bool) l : sort_stable le (map f l) = map f (sort_stable (fun a b => le (f a) (f b)) l).
Proof. unfold sort_stable. induction l as [|x l IH]; [reflexivity|]. cbn [map fold_right]. rewrite IH. apply insert_image. Qed.
(** With an order that is only known on the elements *)
Lemma insert_on {A} (P : A -> Prop) (le : A -> A -> bool) (R : A -> A -> Prop) x l :
  (forall a b, P a -> P b -> le a b = true <-> R a b) -> (forall a b, P a -> P b -> R a b \/ R b a) ->
  (forall a b c, P a -> P b -> P c -> R a b -> R b c -> R a c) ->
  P x -> Forall P l -> StronglySorted R l -> StronglySorted R (insert_sorted le x l).
Proof.
  intros I T Tr Px. induction l as [|y l IH]; intros F S; cbn [insert_sorted]; [constructor; constructor|].
  inversion F as [|? ? Py F']; subst. inversion S as [|? ? S' Fy]; subst. destruct (le x y) eqn:E.
  - constructor; [exact S|]. apply I in E; [|assumption..]. constructor; [exact E|].
    rewrite Forall_forall in *. intros z Iz. apply (Tr x y z); auto.
  - constructor; [now apply IH|]. rewrite <- insert_perm. constructor; [|exact Fy].
    destruct (T x y Px Py) as [H|H]; [|exact H]. apply I in H; [|assumption..]. congruence.
Qed.
Lemma sort_on {A} (P : A -> Prop) (le : A -> A -> bool) (R : A -> A -> Prop) l :
  (forall a b, P a -> P b -> le a b = true <-> R a b) -> (forall a b, P a -> P b -> R a b \/ R b a) ->
  (forall a b c, P a -> P b -> P c -> R a b -> R b c -> R a c) ->
  Forall P l -> StronglySorted R (sort_stable le l).
Proof.
  intros I T Tr F. induction F as [|x l Px F IH]; [constructor|]. change (StronglySorted R (insert_sorted le x (sort_stable le l))).
  apply (insert_on P); try assumption. rewrite <- sort_perm. exact F.
Qed.
Lemma ties_on {A} (P : A -> Prop) (le : A -> A -> bool) (f : A -> bool) l :
  (forall a b, P a -> P b -> f a = true -> f b = true -> le a b = true) -> Forall P l -> filter f (sort_stable le l) = filter f l.
Proof.
  intros H F. induction F as [|x l Px F IH]; [reflexivity|]. change (filter f (insert_sorted le x (sort_stable le l)) = filter f (x :: l)).
  cbn [filter]. rewrite <- IH. assert (Forall P (sort_stable le l)) as G by (rewrite <- sort_perm; exact F). clear IH F. revert G.
  generalize (sort_stable le l). intros m G. induction G as [|y m Py G IH]; [reflexivity|]. cbn [insert_sorted]. destruct (le x y) eqn:E; [reflexivity|].
  cbn [filter]. rewrite IH. destruct (f x) eqn:Ex, (f y) eqn:Ey; try reflexivity. rewrite (H x y) in E by assumption. discriminate.
Qed.
Lemma sorted_map {A B} (f : A -> B) (R : B -> B -> Prop) l : StronglySorted (fun a b => R (f a) (f b)) l -> StronglySorted R (map f l).
Proof. induction 1 as [|x l S IH F]; cbn [map]; constructor; [exact IH|]. now apply Forall_map. Qed.

(** * One click *)
Lemma heads_nth m mark i : (i < 5)%nat -> nth_error (heads_shown m mark) i =
  Some ($"sortable" :: if Nat.eqb (fst mark) i then [if snd mark then $"ascending" else $"descending"] else []).
Proof. intros I. unfold heads_shown. rewrite nth_error_app1 by (rewrite map_length, seq_length; exact I). do 5 (destruct i as [|i]; [reflexivity|]). lia. Qed.
Lemma map_repeat {A B} (f : A -> B) x n : map f (repeat x n) = repeat (f x) n.
Proof. induction n; cbn; congruence. Qed.
Lemma heads_next m mark i : (i < 5)%nat ->
  set_nth i (fun l => l ++ [if Nat.eqb (fst mark) i && snd mark then $"descending" else $"ascending"]) (map without_marks (heads_shown m mark)) =
  heads_shown m (next_mark mark i).
Proof.
  intros I. unfold heads_shown, next_mark. cbn [fst snd]. rewrite map_app, map_repeat, map_map.
  replace (map (fun x => without_marks ($"sortable" :: (if (fst mark =? x)%nat then [if snd mark then $"ascending" else $"descending"] else []))) (seq 0 5))
    with (repeat [$"sortable"] 5).
  - cbn [without_marks filter]. destruct (Nat.eqb (fst mark) i && snd mark); cbn [negb];
      (do 5 (destruct i as [|i]; [reflexivity|])); lia.
  - change (repeat [$"sortable"] 5) with (map (fun _ : nat => [$"sortable"]) (seq 0 5)). apply map_ext. intros x.
    destruct (Nat.eqb (fst mark) x), (snd mark); reflexivity.
Qed.
Lemma desc_class (mark : nat * bool) i :
  has_class $"ascending" ($"sortable" :: if Nat.eqb (fst mark) i then [if snd mark then $"ascending" else $"descending"] else []) = Nat.eqb (fst mark) i && snd mark.
Proof. destruct (Nat.eqb (fst mark) i), (snd mark); reflexivity. Qed.

Lemma head_clicked tag m mark l d i : shows tag m mark l d -> Forall (fun x => 0 <= sc_number (snd x)) l -> l <> [] -> (i < 5)%nat ->
  exists l' d', click_head i d = Ok d' /\ shows tag m (next_mark mark i) l' d' /\ Permutation l l' /\ ordered (next_mark mark i) (map snd l') /\
    forall f : bool * syscall -> bool, (forall x y, f x = true -> f y = true -> column_le i (snd x) (snd y)) -> filter f l' = filter f l.
Proof.
  intros S F N I. unfold shows in S. subst d. set (next := next_mark mark i).
  set (row := fun x : bool * syscall => (fst x, map c_text (row_of tag m (snd x)))).
  exists (sort_stable (row_le next) l).
  exists (Dom (heads_shown m next) (map row (sort_stable (row_le next) l))). split; [|split; [reflexivity|split; [apply sort_perm|split]]].
  - unfold click_head. cbn [d_heads d_rows]. rewrite heads_nth by exact I.
    replace (has_class $"sortable" _) with true by reflexivity. cbn [negb]. rewrite desc_class. cbv zeta. fold row.
    destruct (map row l) as [|r0 rows] eqn:E; [destruct l; [congruence|discriminate]|]. rewrite <- E.
    assert (mapM (fun r => v <- get_value i (snd r) ;; Ok (v, r)) (map row l) = Ok (map (fun x => (value_of i (snd x), row x)) l)) as ->.
    { clear E N r0 rows. induction F as [|x l Px F IH]; [reflexivity|]. cbn [map mapM]. unfold row at 1 2. cbn [snd]. rewrite get_value_row by assumption. cbn [bind]. rewrite IH. reflexivity. }
    cbn [bind]. rewrite sort_image. rewrite map_map. cbn [fst snd]. rewrite heads_next by exact I. fold next. do 2 f_equal.
    unfold row_le, next, next_mark. cbn [fst snd]. now rewrite negb_involutive.
  - unfold ordered. apply sorted_map.
    apply (sort_on (fun x => 0 <= sc_number (snd x))); [| | |exact F].
    + intros x y Px Py. now apply row_le_iff.
    + intros x y _ _. destruct (snd next); [|destruct (column_total (fst next) (snd x) (snd y)); auto]. apply column_total.
    + intros x y z _ _ _. destruct (snd next); intros A B; [exact (column_trans _ _ _ _ A B)|exact (column_trans _ _ _ _ B A)].
  - intros f Hf. apply (ties_on (fun x => 0 <= sc_number (snd x))); [|exact F]. intros x y Px Py Fx Fy. apply row_le_iff; [assumption..|].
    change (fst next) with i. destruct (snd next); auto.
Qed.
Lemma set_nth_map {A B} (f : A -> B) g g' j l : (forall x, f (g x) = g' (f x)) -> set_nth j g' (map f l) = map f (set_nth j g l).
Proof.
  intros H. revert j. induction l as [|x l IH]; intros j; [destruct j; reflexivity|]. destruct j as [|j]; cbn [map set_nth]; [now rewrite H|now rewrite IH].
Qed.
Lemma set_nth_same {A B} (f : A -> B) g j l : (forall x, f (g x) = f x) -> map f (set_nth j g l) = map f l.
Proof. intros H. revert j. induction l as [|x l IH]; intros [|j]; cbn [map set_nth]; try reflexivity; [now rewrite H|now rewrite IH]. Qed.
Definition toggle (x : bool * syscall) : bool * syscall := (negb (fst x), snd x).
Lemma row_clicked tag m mark l d j : shows tag m mark l d -> 
  exists d', click_row j d = Ok d' /\ shows tag m mark (set_nth j toggle l) d'.
Proof.
  intros S. unfold shows in *. subst d. eexists. split; [reflexivity|]. cbn [d_heads d_rows]. f_equal. apply set_nth_map. reflexivity.
Qed.

(** * All clicks *)
Lemma clicked tag m es : forall mark l d, shows tag m mark l d -> Forall (fun x => 0 <= sc_number (snd x)) l -> l <> [] ->
  Forall (hits (len l)) es ->
  exists l' d', reacts es d = Ok d' /\ shows tag m (last_mark mark es) l' d' /\ Permutation (map snd l) (map snd l') /\
    (ordered mark (map snd l) \/ (exists i, In (Head i) es) -> ordered (last_mark mark es) (map snd l')).
Proof.
  induction es as [|e es IH]; intros mark l d S F N H.
  { exists l, d. split; [reflexivity|]. split; [exact S|]. split; [reflexivity|]. intros [O|(i & [])]. exact O. }
  inversion H as [|? ? He H']; subst. destruct e as [i|j]; cbn [reacts react].
  - cbn [hits] in He. destruct (head_clicked tag m mark l d i S F N He) as (l1 & d1 & -> & S1 & P1 & O1 & _). cbn [bind].
    assert (Forall (fun x => 0 <= sc_number (snd x)) l1) as F1 by (rewrite <- P1; exact F).
    assert (l1 <> []) as N1 by (intros ->; apply Permutation_sym, Permutation_nil in P1; auto).
    assert (len l1 = len l) as L1 by (unfold len; now rewrite (Permutation_length P1)).
    destruct (IH (next_mark mark i) l1 d1 S1 F1 N1) as (l' & d' & E & S' & P' & O'); [now rewrite L1|].
    exists l', d'. split; [exact E|]. split; [exact S'|]. split; [rewrite <- P'; now apply Permutation_map|]. intros _. apply O'. now left.
  - destruct (row_clicked tag m mark l d j S) as (d1 & -> & S1). cbn [bind].
    assert (map snd (set_nth j toggle l) = map snd l) as M by (apply set_nth_same; reflexivity).
    assert (len (set_nth j toggle l) = len l) as L1 by (unfold len; rewrite <- (map_length snd), M, map_length; reflexivity).
    destruct (IH mark (set_nth j toggle l) d1 S1) as (l' & d' & E & S' & P' & O').
    + apply Forall_map with (f := snd) (P := fun s => 0 <= sc_number s). rewrite M. now apply Forall_map.
    + intros Q. rewrite Q in M. destruct l; [congruence|discriminate].
    + now rewrite L1.
    + exists l', d'. split; [exact E|]. split; [exact S'|]. rewrite M in P', O'. split; [exact P'|].
      intros [O|(i & [I|I])]; [apply O'; now left|discriminate|apply O'; right; eauto].
Qed.

(** * The page *)
Lemma heads_of a m : 0 <= m -> map class_list (headings a m) = heads_shown m (0%nat, true).
Proof.
  intros M. unfold headings, heads_shown. rewrite map_app, map_map. apply (f_equal2 (@app (list str))).
  - unfold class_list, heading. destruct (a_num_reg a) as [[|c r]|]; vm_compute; reflexivity.
  - unfold class_list, heading. cbn [c_attrs map]. clear M. generalize (Z.to_nat m) as n. intros n.
    transitivity (map (fun _ : nat => ([] : list str)) (seq 0 n)).
    + apply map_ext. reflexivity.
    + generalize 0%nat. induction n as [|n IH]; intros s; cbn [seq map repeat]; [reflexivity|]. now rewrite IH.
Qed.
Lemma page_shows sv copy tag a scs text : output_html sv copy (Ok tag) a scs = Ok text -> Forall (fun s => 0 <= sc_number s) scs ->
  exists m ts, longest scs m /\ html_read text = Some ts /\ shows tag m (0%nat, true) (map (fun s => (false, s)) scs) (dom_of (table_of ts)).
Proof.
  intros E F. pose proof (output_html_ok _ _ _ _ _ _ E) as (m & L & M & N & ->). exists m, (page_tokens sv copy tag a m scs).
  split; [exact L|]. split; [apply page_read|]. rewrite page_table by assumption. unfold shows, dom_of. rewrite heads_of by exact M.
  f_equal. rewrite !map_map. reflexivity.
Qed.
Lemma page_clicks sv copy tag a scs text ts es : output_html sv copy (Ok tag) a scs = Ok text -> Forall (fun s => 0 <= sc_number s) scs ->
  html_read text = Some ts -> Forall (hits (len scs)) es ->
  exists m l d, longest scs m /\ reacts es (dom_of (table_of ts)) = Ok d /\ shows tag m (last_mark (0%nat, true) es) l d /\ Permutation scs (map snd l) /\
    (ordered (0%nat, true) scs \/ (exists i, In (Head i) es) -> ordered (last_mark (0%nat, true) es) (map snd l)).
Proof.
  intros E F R H. destruct (page_shows _ _ _ _ _ _ E F) as (m & ts' & L & R' & S). rewrite R in R'.
  assert (ts' = ts) as -> by (apply (f_equal (fun o => match o with Some t => t | None => [] end)) in R'; now symmetry).
  destruct (output_html_ok _ _ _ _ _ _ E) as (_ & _ & _ & N & _).
  destruct (clicked tag m es _ _ _ S) as (l & d & C & S' & P & O).
  - now apply Forall_map.
  - destruct scs; [congruence|discriminate].
  - unfold len. rewrite map_length. exact H.
  - rewrite map_map, map_id in P, O. cbn [snd] in P, O. exists m, l, d. auto.
Qed.
