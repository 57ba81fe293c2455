(** Reading the mapping off the candidates (C43). *)
From Coq Require Import List Bool Ascii String ZArith Lia ZifyBool ZifyNat Permutation Sorted.
From Verif Require Import PyBase PyFacts M_Utils M_Elf M_Arch L_Arch M_Emu S_Emu L_Emu L_Emu2.
Import ListNotations.
Open Scope Z_scope.
Open Scope list_scope.

Lemma Zeqb_eq' : forall a b, Z.eqb a b = true <-> a = b.
Proof. intros; apply Z.eqb_eq. Qed.

Lemma put_numbers_spec v ns : forall d,
  match put_numbers v ns d with
  | Some d' => (forall n w, In n ns -> dget Z.eqb n d = Some w -> w = v) /\
               forall n w, dget Z.eqb n d' = Some w <-> dget Z.eqb n d = Some w \/ (In n ns /\ w = v)
  | None => exists n w, In n ns /\ dget Z.eqb n d = Some w /\ w <> v
  end.
Proof.
  induction ns as [|x ns IH]; intros d; cbn [put_numbers].
  - split; [intros n w []|]. intros n w. cbn. tauto.
  - destruct (dget Z.eqb x d) as [w|] eqn:E.
    + destruct (w =? v) eqn:Ew.
      * assert (w = v) as -> by lia. specialize (IH d). destruct (put_numbers v ns d) as [d'|].
        -- destruct IH as [H1 H2]. split.
           ++ intros n w [<-|Hn] Hd; [congruence|eauto].
           ++ intros n w. rewrite H2. cbn [In]. split; [tauto|]. intros [H|[[<-|H] ->]]; auto.
        -- destruct IH as (n & w & Hn & H). exists n, w. split; [now right|exact H].
      * exists x, w. split; [now left|]. split; [assumption|lia].
    + specialize (IH (dset Z.eqb x v d)). destruct (put_numbers v ns (dset Z.eqb x v d)) as [d'|].
      * destruct IH as [H1 H2]. split.
        -- intros n w [<-|Hn] Hd; [congruence|]. destruct (Z.eq_dec n x) as [->|Hne]; [congruence|].
           apply (H1 n w Hn). rewrite (dget_dset_neq Z.eqb Zeqb_eq'); assumption.
        -- intros n w. rewrite H2. destruct (Z.eq_dec n x) as [->|Hne].
           ++ rewrite (dget_dset_eq Z.eqb Zeqb_eq'), E. cbn [In]. split.
              ** intros [[= <-]|[_ ->]]; auto.
              ** intros [H|[_ ->]]; [discriminate|auto].
           ++ rewrite (dget_dset_neq Z.eqb Zeqb_eq') by assumption. cbn [In]. split; [tauto|].
              intros [H|[[->|H] ->]]; auto. contradiction.
      * destruct IH as (n & w & Hn & Hd & Hw). destruct (Z.eq_dec n x) as [->|Hne].
        -- rewrite (dget_dset_eq Z.eqb Zeqb_eq') in Hd. congruence.
        -- exists n, w. rewrite (dget_dset_neq Z.eqb Zeqb_eq') in Hd by assumption. split; [now right|auto].
Qed.

Section Collect.
Context (m : nrs_map).
Notation nums := (get m).

Lemma conflict_app ts ts' : conflict nums ts -> conflict nums (ts ++ ts').
Proof.
  intros [(t & H & Hb)|[(a & t & b & t' & c & -> & H)|(t & t' & H1 & H2 & H)]].
  - left. exists t. split; [apply in_or_app; now left|assumption].
  - right; left. exists a, t, b, t', (c ++ ts'). split; [|assumption].
    rewrite <- app_assoc. cbn. f_equal. f_equal. rewrite <- app_assoc. reflexivity.
  - right; right. exists t, t'. split; [apply in_or_app; now left|]. split; [apply in_or_app; now left|assumption].
Qed.
Lemma conflict_snoc ts t : conflict nums (ts ++ [t]) -> conflict nums ts \/ bad_set nums t \/
  (default_case nums t /\ exists t', In t' ts /\ default_case nums t') \/ exists t', In t' ts /\ clash nums t' t.
Proof.
  intros [(x & H & Hb)|[(a & x & b & x' & c & E & H)|(x & x' & H1 & H2 & H)]].
  - apply in_app_or in H as [H|[<-|[]]]; [left; left; eauto|auto].
  - destruct (destruct_list_last c) as [->|(c' & y & ->)].
    + assert (ts = a ++ x :: b /\ t = x') as [-> ->].
      { change (a ++ x :: b ++ [x']) with (a ++ (x :: b) ++ [x']) in E. rewrite app_assoc in E. now apply app_inj_tail in E. }
      right; right; left. split; [apply H|]. exists x. split; [apply in_or_app; right; now left|apply H].
    + left; right; left. exists a, x, b, x', c'. split; [|assumption].
      replace (a ++ x :: b ++ x' :: c' ++ [y]) with ((a ++ x :: b ++ x' :: c') ++ [y]) in E.
      2:{ rewrite <- app_assoc. cbn. f_equal. f_equal. rewrite <- app_assoc. reflexivity. }
      now apply app_inj_tail in E.
  - assert (Hsym : clash nums x' x).
    { destruct H as (N & A & B & n & C1 & C2). repeat split; auto. eauto. }
    apply in_app_or in H1 as [H1|[<-|[]]]; apply in_app_or in H2 as [H2|[<-|[]]].
    + left; right; right. eauto.
    + right; right; right. eauto.
    + right; right; right. eauto.
    + destruct H as [H _]. congruence.
Qed.

Definition maps (ts : list Z) (n v : Z) : Prop := In v ts /\ ~ default_case nums v /\ In n (nums v).

Lemma collect_spec l : forall ts d found,
  ~ conflict nums ts -> (forall n v, dget Z.eqb n d = Some v <-> maps ts n v) ->
  (found = true <-> exists t, In t ts /\ default_case nums t) ->
  let r := collect m l d found in
  (conflict nums (ts ++ map target_of l) /\ r = []) \/
  (~ conflict nums (ts ++ map target_of l) /\ forall n v, dget Z.eqb n r = Some v <-> maps (ts ++ map target_of l) n v).
Proof.
  induction l as [|i l IH]; intros ts d found Hn Hd Hf; cbn [collect map]; cbv zeta.
  - rewrite app_nil_r. right. auto.
  - set (t := target_of i) in *.
    assert (Eapp : ts ++ t :: map target_of l = (ts ++ [t]) ++ map target_of l) by (now rewrite <- app_assoc).
    rewrite Eapp. clear Eapp.
    destruct (len (nums t) =? 0) eqn:E0.
    { left. split; [|reflexivity]. apply conflict_app. left. exists t. split; [apply in_or_app; right; now left|].
      unfold bad_set. destruct (nums t) as [|x l0]; [reflexivity|]. rewrite len_cons in E0. pose proof (len_nonneg l0). lia. }
    assert (Hnb : ~ bad_set nums t) by (unfold bad_set; intros E; rewrite E in E0; discriminate).
    destruct (100 <? len (nums t)) eqn:E1.
    + assert (Hdef : default_case nums t) by (unfold default_case; lia). destruct found eqn:Ef.
      * left. split; [|reflexivity]. apply conflict_app. destruct Hf as [Hf _]. destruct (Hf eq_refl) as (t' & Hin & Ht').
        apply in_split in Hin as (a & b & ->). right; left. exists a, t', b, t, []. split; [|auto].
        rewrite <- app_assoc. reflexivity.
      * apply IH.
        -- intros Hc. apply conflict_snoc in Hc as [Hc|[Hc|[(_ & t' & Hc)|(t' & _ & Hc)]]]; [auto|auto| |].
           ++ assert (false = true) by (apply Hf; eauto). discriminate.
           ++ destruct Hc as (_ & _ & Hc & _). auto.
        -- intros n v. rewrite Hd. unfold maps. split.
           ++ intros (H1 & H2). split; [apply in_or_app; now left|auto].
           ++ intros (H1 & H2 & H3). apply in_app_or in H1 as [H1|[<-|[]]]; [auto|contradiction].
        -- split; [intros _|reflexivity]. exists t. split; [apply in_or_app; right; now left|assumption].
    + assert (Hdef : ~ default_case nums t) by (unfold default_case; lia).
      pose proof (put_numbers_spec t (nums t) d) as Hp. destruct (put_numbers t (nums t) d) as [d'|].
      * destruct Hp as [H1 H2]. apply IH.
        -- intros Hc. apply conflict_snoc in Hc as [Hc|[Hc|[(Hc & _)|(t' & Hin & Hc)]]]; [auto|auto|auto|].
           destruct Hc as (Hne & Hd1 & _ & n & Hn1 & Hn2). apply Hne. symmetry. symmetry. apply (H1 n t' Hn2). apply Hd.
           repeat split; auto.
        -- intros n v. rewrite H2, Hd. unfold maps. split.
           ++ intros [(G1 & G2 & G3)|[G1 ->]]; (split; [apply in_or_app; cbn; auto|auto]).
           ++ intros (G1 & G2 & G3). apply in_app_or in G1 as [G1|[<-|[]]]; auto.
        -- rewrite Hf. split.
           ++ intros (t' & G1 & G2). exists t'. split; [apply in_or_app; now left|assumption].
           ++ intros (t' & G1 & G2). apply in_app_or in G1 as [G1|[<-|[]]]; [eauto|contradiction].
      * left. split; [|reflexivity]. apply conflict_app. destruct Hp as (n & w & Hin & Hg & Hw). apply Hd in Hg as (G1 & G2 & G3).
        right; right. exists w, t. split; [apply in_or_app; now left|]. split; [apply in_or_app; right; now left|].
        repeat split; auto. eauto.
Qed.

Lemma no_conflict_nil : ~ conflict nums [].
Proof.
  intros [(t & [] & _)|[(a & t & b & t' & c & E & _)|(t & t' & [] & _)]]. destruct a; discriminate E.
Qed.
Lemma collect_cases l : let r := collect m l [] false in let ts := map target_of l in
  (conflict nums ts /\ r = []) \/
  (~ conflict nums ts /\ forall n v, dget Z.eqb n r = Some v <-> maps ts n v).
Proof.
  apply (collect_spec l []).
  - apply no_conflict_nil.
  - intros n v. cbn. split; [discriminate|]. intros ([] & _).
  - split; [discriminate|]. intros (t & [] & _).
Qed.

Lemma two_iff ts (P : Z -> Prop) : (exists a t b t' c, ts = a ++ t :: b ++ t' :: c /\ P t /\ P t') <->
  exists t t' r, Permutation ts (t :: t' :: r) /\ P t /\ P t'.
Proof.
  split.
  - intros (a & t & b & t' & c & -> & H). exists t, t', (a ++ b ++ c). split; [|assumption].
    etransitivity; [symmetry; apply Permutation_middle|]. constructor. rewrite app_assoc.
    etransitivity; [symmetry; apply Permutation_middle|]. now rewrite <- app_assoc.
  - intros (t & t' & r & Hp & H1 & H2).
    assert (Hin : In t ts) by (apply (Permutation_in t (Permutation_sym Hp)); now left).
    apply in_split in Hin as (a & b & ->).
    assert (Hp' : Permutation (a ++ b) (t' :: r)).
    { apply (Permutation_cons_inv (a := t)). etransitivity; [|exact Hp]. apply Permutation_middle. }
    assert (Hin : In t' (a ++ b)) by (apply (Permutation_in t' (Permutation_sym Hp')); now left).
    apply in_app_or in Hin as [Hin|Hin]; apply in_split in Hin as (x & y & ->).
    + exists x, t', y, t, b. split; [rewrite <- app_assoc; reflexivity|auto].
    + exists a, t, x, t', y. split; [reflexivity|auto].
Qed.
Lemma conflict_perm ts ts' : Permutation ts ts' -> conflict nums ts -> conflict nums ts'.
Proof.
  intros Hp [(t & H & Hb)|[H|(t & t' & H1 & H2 & H)]].
  - left. exists t. split; [now apply (Permutation_in t Hp)|assumption].
  - right; left. apply two_iff. apply two_iff in H as (t & t' & r & Hp' & H). exists t, t', r. split; [|assumption].
    etransitivity; [symmetry; exact Hp|exact Hp'].
  - right; right. exists t, t'. split; [now apply (Permutation_in t Hp)|]. split; [now apply (Permutation_in t' Hp)|assumption].
Qed.

Lemma collect_order l l' : Permutation l l' ->
  forall n, dget Z.eqb n (collect m l [] false) = dget Z.eqb n (collect m l' [] false).
Proof.
  intros Hp n. assert (Hpt : Permutation (map target_of l) (map target_of l')) by now apply Permutation_map.
  destruct (collect_cases l) as [[C1 E1]|[C1 E1]], (collect_cases l') as [[C2 E2]|[C2 E2]].
  - now rewrite E1, E2.
  - exfalso. apply C2. eapply conflict_perm; eauto.
  - exfalso. apply C1. eapply conflict_perm; [symmetry; exact Hpt|assumption].
  - cbv zeta in *. assert (Hm : forall v, maps (map target_of l) n v <-> maps (map target_of l') n v).
    { intros v. unfold maps. split; intros (H1 & H2); (split; [|assumption]); [now apply (Permutation_in v Hpt)|].
      now apply (Permutation_in v (Permutation_sym Hpt)). }
    destruct (dget Z.eqb n (collect m l [] false)) as [v|] eqn:G.
    + symmetry. apply E2, Hm, E1. assumption.
    + destruct (dget Z.eqb n (collect m l' [] false)) as [v|] eqn:G'; [|reflexivity].
      apply E2, Hm, E1 in G'. congruence.
Qed.
End Collect.

(** * Runs have at most one way out *)
Section Det.
Context (reg start stop : Z) (prog : list insn) (D : dispatcher reg start stop prog).

Lemma step_det n i f k g k' g' : step n i f k g -> step n i f k' g' -> k = k' /\ g = g'.
Proof.
  intros H H'. destruct H as [r z K|r K|t K|c t z K Hf Hh|c t z K Hf Hh|t K|K];
  destruct H' as [r' z' K'|r' K'|t' K'|c' t' z' K' Hf' Hh'|c' t' z' K' Hf' Hh'|t' K'|K']; rewrite K in K'; try discriminate K'; auto.
  - injection K' as _ ->. auto.
  - injection K' as ->. auto.
  - injection K' as _ ->. auto.
  - exfalso. injection K' as <- _. assert (z' = z) as -> by congruence. contradiction.
  - exfalso. injection K' as <- _. assert (z' = z) as -> by congruence. contradiction.
  - injection K' as ->. auto.
Qed.

Inductive star (n : Z) : Z -> option Z -> Z -> option Z -> Prop :=
| sr_refl k f : star n k f k f
| sr_step i f k g k' g' : In i prog -> step n i f k g -> star n k g k' g' -> star n (i_ip i) f k' g'.
Lemma star_snoc n k f i g k' g' : star n k f (i_ip i) g -> In i prog -> step n i g k' g' -> star n k f k' g'.
Proof.
  intros H Hin Hs. remember (i_ip i) as x eqn:E. revert Hs E. induction H as [k f|j f k g k1 g1 Hj Hst H IH]; intros Hs E.
  - subst k. eapply sr_step; eauto. constructor.
  - eapply sr_step; eauto.
Qed.
Lemma reach_star n k f : reach start prog n k f -> star n start None k f.
Proof. induction 1; [constructor|]. eapply star_snoc; eauto. Qed.

Lemma reach_unique n k f k' f' : ~ (start <= k < stop) -> ~ (start <= k' < stop) ->
  reach start prog n k f -> reach start prog n k' f' -> k = k'.
Proof.
  intros Ho Ho' H H'. pose proof (d_code _ _ _ _ D) as Hc.
  assert (Hin : forall i, In i prog -> start <= i_ip i < stop) by (intros i Hi; apply (cf_range _ _ _ Hc) in Hi; lia).
  assert (Hs : star n k f k' f').
  { clear Ho. induction H as [|i f k g H IH Hi Hst]; [now apply reach_star|].
    remember (i_ip i) as x eqn:E. destruct IH as [k0 f0|j f0 k0 g0 k1 g1 Hj Hst0 Hs0].
    - exfalso. subst k0. specialize (Hin i Hi). lia.
    - assert (j = i) as ->.
      { apply in_split in Hi as (p & q & Ep). eapply cf_same_ip; eauto. }
      destruct (step_det _ _ _ _ _ _ _ Hst Hst0) as [-> ->]. assumption. }
  inversion Hs as [|i f0 k0 g k1 g1 Hi Hst Hs0]; subst; [reflexivity|]. exfalso. specialize (Hin i Hi). lia.
Qed.
End Det.

(** * The whole extraction *)
Section Whole.
Context (same : insn -> insn -> bool) (same_kind : forall a b, same a b = true -> i_kind a = i_kind b).

Lemma emulate_complete reg start stop prog m l n i f t f' : dispatcher reg start stop prog ->
  emulate same start stop prog = Ok (Some (m, l)) -> 0 <= n < 4096 ->
  reach start prog n (i_ip i) f -> In i prog -> step n i f t f' -> exits start stop i t ->
  In n (get m t) /\ exists c, In c l /\ target_of c = t.
Proof.
  intros D E Hn Hr Hi Hs He.
  destruct (emulate_exact same reg start stop prog D same_kind) as (m' & l' & E' & H1 & H2 & H3).
  rewrite E in E'. injection E' as <- <-. split; [|now apply (H3 i)]. apply H1. split; [exact Hn|]. exists f'. eapply rc_step; eauto.
Qed.
Lemma emulate_sound reg start stop prog m l n c : dispatcher reg start stop prog ->
  emulate same start stop prog = Ok (Some (m, l)) -> In c l -> In n (get m (target_of c)) ->
  0 <= n < 4096 /\ reaches start prog n (target_of c) /\ In c prog /\ exits start stop c (target_of c).
Proof.
  intros D E Hc Hn.
  destruct (emulate_exact same reg start stop prog D same_kind) as (m' & l' & E' & H1 & H2 & H3).
  rewrite E in E'. injection E' as <- <-. apply H1 in Hn as [G1 G2]. destruct (H2 c Hc). auto.
Qed.
Lemma emulate_succeeds reg start stop prog : dispatcher reg start stop prog ->
  exists m l, emulate same start stop prog = Ok (Some (m, l)).
Proof.
  intros D. destruct (emulate_exact same reg start stop prog D same_kind) as (m & l & E & _). eauto.
Qed.

Lemma emulate_ok start stop prog m l : emulate same start stop prog = Ok (Some (m, l)) -> okmap m.
Proof.
  unfold emulate. destruct (find_nr_reg prog) as [reg|]; [|discriminate]. generalize (emu_fuel prog).
  pose proof (init_ok start) as Hm. revert Hm. generalize [(start, range 0 (Z.to_nat nr_max))] as m0. generalize (@nil insn) as l0.
  intros l0 m0 Hm fuel. revert l0 m0 Hm. induction fuel as [|fuel IH]; intros l0 m0 Hm; cbn [emu_loop]; [discriminate|].
  destruct (emu_pass same start stop reg (Emu m0 l0 false false None false) prog) as [s|] eqn:E; [|discriminate].
  destruct (pass_size same start stop reg (map target_of prog) prog (Emu m0 l0 false false None false) s Hm (fun i Hi => in_map target_of prog i Hi) E) as (Hok & _).
  destruct (s_again s); [now apply IH|]. intros [= <- <-]. assumption.
Qed.

Lemma extract_exact decode order a e sym reg code prog :
  (forall l, Permutation (order l) l) ->
  a_table a = None -> dget str_eqb (a_abi a ++ $"_sys_call") (e_functions e) = Some sym -> 16 <= sym_size sym ->
  read_symbol e sym = Ok code -> prog = decode (a_bits32 a) code (sym_real sym) ->
  dispatcher reg (sym_real sym) (sym_real sym + sym_size sym) prog ->
  exists r, extract_syscall_vaddrs decode same order a e = Ok r /\
    forall n v,
    (dget Z.eqb n r = Some v ->
     0 <= n < 4096 /\ reaches (sym_real sym) prog n v /\
     (exists i, In i prog /\ exits (sym_real sym) (sym_real sym + sym_size sym) i v) /\
     exists ns, numbers_of (sym_real sym) prog v ns /\ len ns <= 100) /\
    (r <> [] ->
     0 <= n < 4096 -> reaches (sym_real sym) prog n v ->
     (exists i, In i prog /\ exits (sym_real sym) (sym_real sym + sym_size sym) i v) ->
     (exists ns, numbers_of (sym_real sym) prog v ns /\ len ns <= 100) ->
     dget Z.eqb n r = Some v).
Proof.
  intros Ho Ha Hs Hsz Hr Hp D.
  set (start := sym_real sym) in *. set (stop := start + sym_size sym) in *.
  destruct (emulate_exact same reg start stop prog D same_kind) as (m & l & E & H1 & H2 & H3).
  exists (collect m (order l) [] false). split.
  { unfold extract_syscall_vaddrs. rewrite Ha, Hs. destruct (sym_size sym <? 16) eqn:E16; [lia|]. rewrite Hr. cbn [bind].
    fold start. fold stop. rewrite <- Hp, E. cbn [bind]. reflexivity. }
  assert (Hnums : forall v, numbers_of start prog v (get m v)).
  { intros v. split; [apply sorted_NoDup, (emulate_ok _ _ _ _ _ E)|]. intros n. apply H1. }
  assert (Hin : forall v, In v (map target_of (order l)) <-> exists i, In i prog /\ exits start stop i v).
  { intros v. rewrite in_map_iff. split.
    - intros (c & <- & Hc). apply (Permutation_in c (Ho l)) in Hc. apply H2 in Hc as [G1 G2]. eauto.
    - intros (i & Hi & He). destruct (H3 i v Hi He) as (c & Hc & <-). exists c. split; [reflexivity|].
      now apply (Permutation_in c (Permutation_sym (Ho l))). }
  intros n v. destruct (collect_cases m (order l)) as [[C E1]|[C E1]]; cbv zeta in *.
  - rewrite E1. split; [discriminate|]. intros []. reflexivity.
  - rewrite E1. unfold maps. rewrite Hin, H1. split.
    + intros (G1 & G2 & G3 & G4). split; [exact G3|]. split; [exact G4|]. split; [exact G1|].
      exists (get m v). split; [apply Hnums|]. unfold default_case in G2. lia.
    + intros _ G1 G2 G3 (ns & [N1 N2] & G4). split; [exact G3|]. split; [|auto].
      unfold default_case. destruct (Hnums v) as [M1 M2].
      assert (len (get m v) = len ns); [|lia]. unfold len. f_equal. apply Permutation_length. apply NoDup_Permutation; auto.
      intros x. now rewrite M2, N2.
Qed.

(** In a dispatcher no number can lead to two addresses: the only conflicts are unreachable
    exits and a second default case. *)
Lemma no_clash reg start stop prog m t t' : dispatcher reg start stop prog ->
  (forall n k, In n (get m k) <-> 0 <= n < nr_max /\ reaches start prog n k) ->
  ~ (start <= t < stop) -> ~ (start <= t' < stop) -> ~ clash (get m) t t'.
Proof.
  intros D He Ho Ho' (Hne & _ & _ & n & H1 & H2). apply He in H1 as [_ [f H1]]. apply He in H2 as [_ [f' H2]].
  apply Hne. eapply (reach_unique reg start stop prog D); eauto.
Qed.
Lemma emulate_no_clash reg start stop prog m l c c' : dispatcher reg start stop prog ->
  emulate same start stop prog = Ok (Some (m, l)) -> In c l -> In c' l ->
  ~ clash (get m) (target_of c) (target_of c').
Proof.
  intros D E Hc Hc'. destruct (emulate_exact same reg start stop prog D same_kind) as (m' & l' & E' & H1 & H2 & H3).
  rewrite E in E'. injection E' as <- <-. destruct (H2 c Hc) as [_ [_ G1]]. destruct (H2 c' Hc') as [_ [_ G2]].
  eapply no_clash; eauto.
Qed.
End Whole.

(** The condition on flags is needed. *)
Definition stale_prog : list insn :=
  [Insn 100 103 (ICmp [OReg 1; OImm 5]); Insn 103 105 (IJcc CAE 110);
   Insn 105 108 (ICmp [OReg 1; OImm 2]); Insn 108 110 (IJmp 1000);
   Insn 110 112 (IJcc CE 2000); Insn 112 114 (IJmp 3000)].
Lemma stale_flags : exists m l n,
  emulate (fun _ _ => false) 100 114 stale_prog = Ok (Some (m, l)) /\
  code_from 100 stale_prog 114 /\ Forall (supported 1 100 114) stale_prog /\
  0 <= n < 4096 /\ reaches 100 stale_prog n 2000 /\ ~ In n (get m 2000) /\ In n (get m 3000).
Proof.
  assert (C : match emulate (fun _ _ => false) 100 114 stale_prog with
              | Ok (Some (m, l)) => negb (zin 5 (get m 2000)) && zin 5 (get m 3000)
              | _ => false
              end = true) by (vm_compute; reflexivity).
  destruct (emulate (fun _ _ => false) 100 114 stale_prog) as [[[m l]|]| | |]; try discriminate C.
  apply andb_true_iff in C as [C1 C2]. apply negb_true_iff in C1. apply zin_iff in C2.
  exists m, l, 5. split; [reflexivity|].
  split.
  { unfold stale_prog.
    apply (cf_cons (Insn 100 103 (ICmp [OReg 1; OImm 5]))); [cbn; lia|]. apply (cf_cons (Insn 103 105 (IJcc CAE 110))); [cbn; lia|].
    apply (cf_cons (Insn 105 108 (ICmp [OReg 1; OImm 2]))); [cbn; lia|]. apply (cf_cons (Insn 108 110 (IJmp 1000))); [cbn; lia|].
    apply (cf_cons (Insn 110 112 (IJcc CE 2000))); [cbn; lia|]. apply (cf_cons (Insn 112 114 (IJmp 3000))); [cbn; lia|]. apply cf_nil. }
  split.
  { unfold stale_prog. repeat constructor; unfold supported; cbn; eauto; discriminate. }
  split; [lia|]. split.
  { exists (Some 5).
    apply (rc_step 100 stale_prog 5 (Insn 110 112 (IJcc CE 2000)) (Some 5)); [|cbn; tauto|eapply st_taken; reflexivity].
    apply (rc_step 100 stale_prog 5 (Insn 103 105 (IJcc CAE 110)) (Some 5)); [|cbn; tauto|eapply st_taken; [reflexivity|reflexivity|cbn; lia]].
    apply (rc_step 100 stale_prog 5 (Insn 100 103 (ICmp [OReg 1; OImm 5])) None); [|cbn; tauto|exact (st_cmp 5 (Insn 100 103 (ICmp [OReg 1; OImm 5])) None 1 5 eq_refl)].
    apply rc_start. }
  split; [|assumption]. intros H. apply zin_iff in H. congruence.
Qed.
