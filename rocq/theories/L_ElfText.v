(** Lemmas about the parsing of readelf's output in elf.py *)
From Coq Require Import List Bool Ascii String ZArith Lia ZifyBool ZifyNat Permutation.
From Verif Require Import PyBase PyFacts Regex RegexFacts M_Elf S_Elf L_Elf.
Import ListNotations.
Open Scope Z_scope.
Open Scope list_scope.

Ltac norm_app := repeat (progress (rewrite <- ?app_assoc; cbn [app])).

Ltac cls := intros c; 
  match goal with |- ?f c = true -> ?g c = ?b =>
    intros H;
    pose proof (ascii_forall (fun c => negb (f c) || Bool.eqb (g c) b) ltac:(vm_compute; reflexivity) c) as X;
    cbv beta in X; rewrite H in X; cbn in X; now apply eqb_prop in X end.

Lemma space_not_hex : forall c, is_space c = true -> is_hex c = false. Proof. cls. Qed.
Lemma space_not_dec : forall c, is_space c = true -> is_dec c = false. Proof. cls. Qed.
Lemma space_not_word : forall c, is_space c = true -> is_word c = false. Proof. cls. Qed.
Lemma space_not_sec : forall c, is_space c = true -> c_secname c = false. Proof. cls. Qed.
Lemma hex_not_space : forall c, is_hex c = true -> is_space c = false. Proof. cls. Qed.
Lemma dec_not_space : forall c, is_dec c = true -> is_space c = false. Proof. cls. Qed.
Lemma word_not_space : forall c, is_word c = true -> is_space c = false. Proof. cls. Qed.
Lemma sec_not_space : forall c, c_secname c = true -> is_space c = false. Proof. cls. Qed.

Lemma head_of (f g : ascii -> bool) a b :
  (forall c, f c = true -> g c = false) -> some_of f a ->
  match a ++ b with c :: _ => g c = false | [] => True end.
Proof.
  intros H [Hne Ha]. destruct a as [|c a]; [congruence|]. cbn in *.
  apply andb_prop in Ha as [Hc _]. auto.
Qed.

Lemma forallb_app_l {A} (f : A -> bool) a b : forallb f (a ++ b) = true -> forallb f a = true.
Proof. rewrite forallb_app. intros H. now apply andb_prop in H. Qed.
Lemma forallb_app_r {A} (f : A -> bool) a b : forallb f (a ++ b) = true -> forallb f b = true.
Proof. rewrite forallb_app. intros H. now apply andb_prop in H. Qed.

Lemma no_nl_dot s : ~ In NL s -> forallb c_dot s = true.
Proof.
  intros H. apply forallb_forall. intros c Hc. unfold c_dot.
  destruct (Ascii.eqb c NL) eqn:E; [|reflexivity]. apply ascii_eqb_eq in E. subst. contradiction.
Qed.

(** ** Symbol lines *)

Lemma symbol_shape_can line : ~ In NL line ->
  (has_symbol_shape line <-> exists a b, line = a ++ b /\ can symbols_re (adv (start line) a)).
Proof.
  intros Hnl. split.
  - intros (pre & idx & w1 & value & w2 & size & w3 & typ & mid & w4 & name & E & Hi & H1 & Hv & H2 & Hs & H3 & Ht & Hm & H4 & Hn).
    exists pre, (idx ++ [":"%char] ++ w1 ++ value ++ w2 ++ size ++ w3 ++ typ ++ mid ++ w4 ++ name).
    split; [exact E|].
    assert (R : rest (adv (start line) pre) = idx ++ [":"%char] ++ w1 ++ value ++ w2 ++ size ++ w3 ++ typ ++ mid ++ w4 ++ name)
      by (apply adv_rest; exact E).
    destruct Hi, H1, Hv, H2, Hs, H3, Ht, H4, Hn.
    unfold symbols_re. cbn [RSeq].
    eapply can_plus; [exact R|assumption|assumption|]. intros R1.
    eapply can_cls; [exact R1|apply ascii_eqb_refl|]. intros R2.
    eapply can_plus; [exact R2|assumption|assumption|]. intros R3.
    eapply can_grp_plus; [exact R3|assumption|assumption|]. intros R4.
    eapply can_plus; [exact R4|assumption|assumption|]. intros R5.
    eapply can_grp_plus; [exact R5|assumption|assumption|]. intros R6.
    eapply can_plus; [exact R6|assumption|assumption|]. intros R7.
    eapply can_grp_plus; [exact R7|assumption|assumption|]. intros R8.
    eapply can_plus; [exact R8|assumption| |].
    { apply no_nl_dot. intros Hin. apply Hnl. rewrite E. rewrite !in_app_iff. tauto. }
    intros R9. eapply can_plus; [exact R9|assumption|assumption|]. intros R10.
    eapply can_grp_plus; [rewrite app_nil_r; exact R10|assumption|assumption|]. intros R11.
    apply can_eol; [|apply can_eps]. unfold at_eol. now rewrite R11.
  - intros (pre & b & E & s' & H). unfold symbols_re in H. rm_seq H.
    assert (R : rest (adv (start line) pre) = b) by (apply adv_rest; exact E).
    apply rm_plus_inv in Hm as (idx & b0 & E0 & N0 & F0 & ->). rewrite R in E0.
    assert (R0 : rest (adv (adv (start line) pre) idx) = b0) by (apply adv_rest; congruence).
    apply rm_chr_inv in Hm0 as (b1 & E1 & ->). rewrite R0 in E1.
    apply rm_plus_inv in Hm1 as (w1 & b2 & E2 & N2 & F2 & ->).
    assert (R1 := adv_rest _ [":"%char] b1 (eq_trans R0 E1)). rewrite R1 in E2.
    assert (R2 := adv_rest _ w1 b2 (eq_trans R1 E2)).
    apply rm_grp_inv, rm_plus_inv in Hm2 as (v & b3 & E3 & N3 & F3 & ->). rewrite R2 in E3.
    assert (R3 := adv_rest _ v b3 (eq_trans R2 E3)).
    apply rm_plus_inv in Hm3 as (w2 & b4 & E4 & N4 & F4 & ->). rewrite R3 in E4.
    assert (R4 := adv_rest _ w2 b4 (eq_trans R3 E4)).
    apply rm_grp_inv, rm_plus_inv in Hm4 as (sz & b5 & E5 & N5 & F5 & ->). rewrite R4 in E5.
    assert (R5 := adv_rest _ sz b5 (eq_trans R4 E5)).
    apply rm_plus_inv in Hm5 as (w3 & b6 & E6 & N6 & F6 & ->). rewrite R5 in E6.
    assert (R6 := adv_rest _ w3 b6 (eq_trans R5 E6)).
    apply rm_grp_inv, rm_plus_inv in Hm6 as (t & b7 & E7 & N7 & F7 & ->). rewrite R6 in E7.
    assert (R7 := adv_rest _ t b7 (eq_trans R6 E7)).
    apply rm_plus_inv in Hm7 as (mid & b8 & E8 & N8 & F8 & ->). rewrite R7 in E8.
    assert (R8 := adv_rest _ mid b8 (eq_trans R7 E8)).
    apply rm_plus_inv in Hm8 as (w4 & b9 & E9 & N9 & F9 & ->). rewrite R8 in E9.
    assert (R9 := adv_rest _ w4 b9 (eq_trans R8 E9)).
    apply rm_grp_inv, rm_plus_inv in Hm9 as (n & b10 & E10 & N10 & F10 & ->). rewrite R9 in E10.
    assert (R10 := adv_rest _ n b10 (eq_trans R9 E10)).
    apply rm_eol_inv in Hm10 as [-> He]. unfold at_eol in He. rewrite R10 in He.
    assert (b10 = []) as ->.
    { destruct b10 as [|c [|c' b10]]; [reflexivity| |discriminate].
      apply ascii_eqb_eq in He. subst c. exfalso. apply Hnl. rewrite E. subst.
      rewrite !in_app_iff. cbn [In]. rewrite !in_app_iff. cbn [In]. tauto. }
    rewrite app_nil_r in E10.
    exists pre, idx, w1, v, w2, sz, w3, t, mid, w4, n. split; [subst; reflexivity|].
    repeat split; assumption.
Qed.

Lemma parse_symbol_None m line : ~ In NL line ->
  (parse_symbol_line m line = None <-> ~ has_symbol_shape line).
Proof.
  intros Hnl. rewrite (symbol_shape_can line Hnl). unfold parse_symbol_line.
  split.
  - intros H (a & b & E & Hc). destruct (re_search symbols_re line) eqn:Es; [discriminate|].
    apply re_search_None with (a := a) (b := b) in Es; auto.
  - intros H. destruct (re_search symbols_re line) eqn:Es; [|reflexivity]. exfalso. apply H.
    assert (re_search symbols_re line <> None) as Hn by congruence.
    apply re_search_iff in Hn as (a & b & s' & E & Hs). exists a, b. split; [exact E|]. now exists s'.
Qed.

Lemma app_eq_prefix {A} (a b c d : list A) : a ++ b = c ++ d ->
  (exists e, c = a ++ e /\ b = e ++ d) \/ (exists e, a = c ++ e /\ d = e ++ b).
Proof.
  revert c; induction a as [|x a IH]; intros c E; cbn in *.
  - left. exists c. auto.
  - destruct c as [|y c]; cbn in E.
    + right. exists (x :: a). auto.
    + injection E as -> E. destruct (IH c E) as [(e & -> & ->)|(e & -> & ->)]; [left|right]; exists e; auto.
Qed.

Lemma parse_symbol_printed m line value size typ name : ~ In NL line ->
  prints_symbol line value size typ name ->
  parse_symbol_line m line = Some (Symbol value (real_vaddr_of m typ value) size typ name).
Proof.
  intros Hnl (pre & idx & w1 & v & w2 & sz & w3 & mid & w4 & (E & Hi & H1 & Hv & H2 & Hs & H3 & Ht & Hm & H4 & Hn) & Hpre & Hmid & <- & <-).
  unfold parse_symbol_line.
  assert (re_search symbols_re line <> None /\ exists s' i cs,
    re_search symbols_re line = Some (i, s', cs) /\
    group 1 (i, s', cs) = Some v /\ group 2 (i, s', cs) = Some sz /\
    group 3 (i, s', cs) = Some typ /\ group 4 (i, s', cs) = Some name) as [_ (s' & i & cs & -> & G1 & G2 & G3 & G4)].
  2: { unfold group_or_nil. rewrite G1, G2, G3, G4. reflexivity. }
  assert (X : exists s' i cs,
    re_search symbols_re line = Some (i, s', cs) /\
    group 1 (i, s', cs) = Some v /\ group 2 (i, s', cs) = Some sz /\
    group 3 (i, s', cs) = Some typ /\ group 4 (i, s', cs) = Some name).
  2: { split; [|exact X]. destruct X as (? & ? & ? & -> & _). discriminate. }
  set (body := idx ++ [":"%char] ++ w1 ++ v ++ w2 ++ sz ++ w3 ++ typ ++ mid ++ w4 ++ name) in *.
  assert (Hskip : re_search symbols_re line =
     search_from symbols_re (prev (adv (start line) pre)) body (0 + len pre)).
  { unfold re_search. rewrite E. apply search_from_skip.
    intros a1 a2 -> Hne s' Hr. destruct a2 as [|c a2]; [congruence|].
    unfold symbols_re in Hr. rm_seq Hr. apply rm_plus_inv in Hm0 as (a & b & E0 & N0 & F0 & _).
    rewrite (adv_rest _ a1 (c :: a2 ++ body)) in E0 by (cbn; now rewrite <- app_assoc).
    destruct a as [|c' a]; [congruence|]. cbn in E0. injection E0 as <- _.
    cbn in F0. apply andb_prop in F0 as [F0 _].
    rewrite forallb_app in Hpre. cbn in Hpre. apply andb_prop in Hpre as [_ Hpre]. apply andb_prop in Hpre as [Hc _].
    unfold c_d in F0. rewrite (space_not_dec c Hc) in F0. discriminate. }
  rewrite Hskip.
  set (s0 := St (prev (adv (start line) pre)) body (0 + len pre)).
  (* the blanks before the name *)
  destruct (exists_last (proj1 H4)) as (w4' & c4 & E4). subst w4.
  assert (C4 : is_space c4 = true /\ forallb is_space w4' = true).
  { destruct H4 as [_ H4]. rewrite forallb_app in H4. apply andb_prop in H4 as [? H4]. cbn in H4.
    apply andb_prop in H4 as [? _]. auto. }
  destruct C4 as [C4 C4'].
  assert (R0 : rest s0 = body) by reflexivity.
  assert (exists cs s', re_match_at symbols_re s0 = Some (pos s0, s', cs) /\
     cap 1 cs = Some (pos (adv s0 (idx ++ [":"%char] ++ w1)), v) /\
     (exists p, cap 2 cs = Some (p, sz)) /\ (exists p, cap 3 cs = Some (p, typ)) /\
     (exists p, cap 4 cs = Some (p, name))) as (cs & s' & Hmatch & G1 & (p2 & G2) & (p3 & G3) & (p4 & G4)).
  { unfold re_match_at, symbols_re. cbn [RSeq].
    assert (R1 := adv_rest s0 idx _ R0).
    assert (R2 := adv_rest _ [":"%char] _ R1).
    assert (R3 := adv_rest _ w1 _ R2).
    assert (R4 := adv_rest _ v _ R3).
    assert (R5 := adv_rest _ w2 _ R4).
    assert (R6 := adv_rest _ sz _ R5).
    assert (R7 := adv_rest _ w3 _ R6).
    assert (R8 := adv_rest _ typ _ R7).
    replace (mid ++ (w4' ++ [c4]) ++ name) with ((mid ++ w4') ++ [c4] ++ name) in R8
      by (rewrite <- !app_assoc; reflexivity).
    assert (R9 := adv_rest _ (mid ++ w4') _ R8).
    assert (R10 := adv_rest _ [c4] _ R9).
    assert (R11 : rest (adv (adv (adv (adv (adv (adv (adv (adv (adv (adv (adv s0 idx) [":"%char]) w1) v) w2) sz) w3) typ) (mid ++ w4')) [c4]) name) = [])
      by (apply adv_rest; now rewrite app_nil_r).
    eexists _, _. split; [|].
    - rewrite m_cat. eapply m_plus_ok; [exact R0|apply Hi|apply Hi|reflexivity|].
      rewrite m_cat. erewrite m_chr by exact R1.
      rewrite m_cat. eapply m_plus_ok; [exact R2|apply H1|apply H1|apply (head_of is_hex); [exact hex_not_space|exact Hv]|].
      rewrite m_cat. eapply m_grp_plus_ok; [exact R3|apply Hv|apply Hv|apply (head_of is_space); [exact space_not_hex|exact H2]|].
      rewrite m_cat. eapply m_plus_ok; [exact R4|apply H2|apply H2|apply (head_of is_dec); [exact dec_not_space|exact Hs]|].
      rewrite m_cat. eapply m_grp_plus_ok; [exact R5|apply Hs|apply Hs|apply (head_of is_space); [exact space_not_dec|exact H3]|].
      rewrite m_cat. eapply m_plus_ok; [exact R6|apply H3|apply H3|apply (head_of is_word); [exact word_not_space|exact Ht]|].
      rewrite m_cat. eapply m_grp_plus_ok; [exact R7|apply Ht|apply Ht| |].
      { destruct mid as [|c mid]; [contradiction|]. exact Hmid. }
      rewrite m_cat. eapply m_plus_longest; [exact R8| | | |].
      { destruct mid; [contradiction|discriminate]. }
      { apply no_nl_dot. intros Hin. apply Hnl. rewrite E. unfold body. rewrite !in_app_iff.
        apply in_app_iff in Hin. tauto. }
      { rewrite m_cat. eapply m_plus_ok; [exact R9|discriminate|cbn; unfold c_s; now rewrite C4| |].
        { destruct Hn as [Hn1 Hn2]. destruct name as [|c name]; [congruence|]. cbn in Hn2.
          unfold c_s. destruct (is_space c); [discriminate|reflexivity]. }
        rewrite m_cat. eapply m_grp_plus_ok; [rewrite app_nil_r; exact R10|apply Hn|apply Hn|exact I|].
        rewrite m_cat. cbn [Regex.m]. unfold at_eol. rewrite R11. reflexivity. }
      { intros b1 b2 Eb Hne _. apply m_none. intros s' Hr. apply rm_cat_inv in Hr as (s1 & Hr & _).
        apply rm_plus_inv in Hr as (a & b & Ea & Na & Fa & _).
        destruct b1 as [|c b1]; [congruence|]. cbn in Eb. injection Eb as <- Eb.
        rewrite (adv_rest _ ((mid ++ w4') ++ c4 :: b1) b2) in Ea
          by (rewrite R8; cbn [app]; rewrite <- !app_assoc; cbn [app]; now rewrite Eb).
        destruct Hn as [_ Hn]. rewrite Eb, Ea in Hn. apply forallb_app_r, forallb_app_l in Hn.
        destruct a as [|x a]; [congruence|]. cbn in Hn, Fa. unfold c_s in Fa.
        destruct (is_space x); discriminate. }
    - cbn [cap Nat.eqb]. rewrite !adv_app. eauto 10. }
  assert (Hs0 : search_from symbols_re (prev (adv (start line) pre)) body (0 + len pre) = Some (pos s0, s', cs))
    by (apply search_from_here; exact Hmatch).
  exists s', (pos s0), cs. split; [exact Hs0|]. unfold group. cbn [snd]. rewrite G1, G2, G3, G4. auto.
Qed.

(** Lines and their terminators. *)
Lemma lines_keep_unlines ls : Forall (fun l => ~ In NL l) ls ->
  lines_keep (unlines ls) = map (fun l => l ++ [NL]) ls.
Proof.
  induction ls as [|l ls IH]; intros H; [reflexivity|]. inversion H; subst.
  unfold unlines. cbn [map List.concat]. change (List.concat (map (fun l => l ++ [NL]) ls)) with (unlines ls).
  rewrite <- IH by assumption. clear IH H H3.
  induction l as [|c l IHl]; cbn [app lines_keep].
  - change (Ascii.eqb NL NL) with true. reflexivity.
  - destruct (Ascii.eqb c NL) eqn:E.
    + apply ascii_eqb_eq in E. exfalso. apply H2. now left.
    + rewrite IHl; [reflexivity|]. intros Hin. apply H2. now right.
Qed.

Lemma chomp_nl l : chomp (l ++ [NL]) = l.
Proof. unfold chomp. rewrite rev_app_distr. cbn [rev app]. change (Ascii.eqb NL NL) with true. apply rev_involutive. Qed.

Lemma is_break_iff c : is_break c = true <-> ends_row c.
Proof.
  unfold is_break, ends_row. split.
  - destruct c as [[] [] [] [] [] [] [] []]; vm_compute; intros H; try discriminate; tauto.
  - intros H. repeat destruct H as [H|H]; [rewrite <- H; reflexivity ..|destruct H].
Qed.
Lemma row_break l c : row l -> In c l -> is_break c = false.
Proof.
  intros R I. destruct (is_break c) eqn:E; [|reflexivity]. apply is_break_iff in E. unfold row in R. rewrite Forall_forall in R. now elim (R c I).
Qed.
Lemma break_row (l : str) : (forall c, In c l -> is_break c = false) -> row l.
Proof. intros H. apply Forall_forall. intros c I E. apply is_break_iff in E. rewrite (H c I) in E. discriminate. Qed.
Lemma row_app l m : row (l ++ m) <-> row l /\ row m.
Proof. apply Forall_app. Qed.
Lemma row_nl l : row l -> ~ In NL l.
Proof. intros R I. apply (row_break l NL R) in I. discriminate. Qed.
Lemma splitlines_row l s : row l -> splitlines (l ++ NL :: s) = l :: splitlines s.
Proof.
  induction l as [|c l IH]; intros R.
  - cbn. now destruct s.
  - cbn [app splitlines]. rewrite (row_break (c :: l) c R) by now left. rewrite IH by (inversion R; assumption). reflexivity.
Qed.
Lemma splitlines_unlines ls : Forall row ls -> splitlines (unlines ls) = ls.
Proof.
  induction 1 as [|l ls R _ IH]; [reflexivity|]. unfold unlines. cbn [map List.concat]. rewrite <- app_assoc. cbn [app].
  rewrite splitlines_row by exact R. f_equal. exact IH.
Qed.

(** The symbols of a list of lines, in order. *)
Definition sym_list (m : Z) (ls : list str) : list symbol := flat_map (fun l => opt_list (parse_symbol_line m l)) ls.

Lemma extract_fold m ls a b :
  fold_left (add_symbol_line m) ls (a, b) =
  (dupdate str_eqb a (map (fun s => (sym_name s, s)) (sym_list m ls)),
   dupdate str_eqb b (map (fun s => (sym_name s, s)) (filter is_func (sym_list m ls)))).
Proof.
  revert a b; induction ls as [|l ls IH]; intros a b; [reflexivity|].
  cbn [fold_left sym_list flat_map]. unfold add_symbol_line at 2.
  destruct (parse_symbol_line m l) as [s|] eqn:E; cbn [opt_list app].
  - cbn [fst snd]. rewrite IH. unfold dupdate. cbn [map fold_left fst snd filter].
    change (str_eqb (sym_type s) $"FUNC") with (is_func s).
    destruct (is_func s); cbn [map fold_left fst snd]; reflexivity.
  - apply IH.
Qed.

Lemma last_binding_named {A} (name : A -> str) l n x :
  last_binding str_eqb n (map (fun s => (name s, s)) l) = Some x <-> last_named name l n x.
Proof.
  split.
  - induction l as [|y l IH] using rev_ind; [discriminate|].
    rewrite map_app, last_binding_app. cbn.
    destruct (str_eqb n (name y)) eqn:E.
    + intros [= <-]. apply str_eqb_eq in E. exists l, []. split; [reflexivity|]. split; [auto|]. intros ? [].
    + intros H. destruct (IH H) as (l1 & l2 & -> & H1 & H2). exists l1, (l2 ++ [y]).
      split; [now rewrite <- app_assoc|]. split; [exact H1|]. intros z Hz. apply in_app_iff in Hz as [Hz|[<-|[]]]; [auto|].
      intros Hy. rewrite Hy, str_eqb_refl in E. discriminate.
  - intros (l1 & l2 & -> & H1 & H2). rewrite map_app, last_binding_app. cbn [map].
    assert (last_binding str_eqb n (map (fun s => (name s, s)) l2) = None) as Hn.
    { apply last_binding_None; [apply str_eqb_eq|]. intros v Hin. apply in_map_iff in Hin as (y & [= Hy <-] & Hin).
      now apply (H2 y). }
    cbn. rewrite Hn, H1, str_eqb_refl. reflexivity.
Qed.

Lemma sym_list_describes m ls os : Forall2 (describes m) ls os -> sym_list m ls = flat_map opt_list os.
Proof.
  induction 1 as [|l o ls os [Hnl Hd] _ IH]; [reflexivity|]. cbn [sym_list flat_map]. rewrite <- IH.
  f_equal. destruct o as [s|].
  - destruct Hd as [Hp Hr]. rewrite (parse_symbol_printed m _ _ _ _ _ (row_nl _ Hnl) Hp). destruct Hr as (A & B & C).
    rewrite real_vaddr_code, <- C by assumption. now destruct s.
  - rewrite (proj2 (parse_symbol_None m l (row_nl _ Hnl)) Hd). reflexivity.
Qed.

Lemma extract_describes m ls os n : Forall2 (describes m) ls os ->
  forall s,
  (dget str_eqb n (fst (extract_symbols m (unlines ls))) = Some s <->
   last_named sym_name (flat_map opt_list os) n s) /\
  (dget str_eqb n (snd (extract_symbols m (unlines ls))) = Some s <->
   last_named sym_name (filter is_func (flat_map opt_list os)) n s).
Proof.
  intros H s. unfold extract_symbols. rewrite splitlines_unlines.
  2: { clear -H. induction H as [|? ? ? ? [? _]]; constructor; auto. }
  rewrite extract_fold. cbn [fst snd]. rewrite (sym_list_describes m ls os H).
  rewrite <- !last_binding_named. unfold dupdate.
  change (fold_left _ ?l []) with (dict_of str_eqb l).
  split; rewrite <- (dget_dict_of str_eqb str_eqb_eq); reflexivity.
Qed.

(** ** Section lines *)

Definition kindb (s : str) : bool := startswith s $"PROGBITS" || startswith s $"NOBITS".
Definition skip_blank (s : str) : str := dropwhile is_space s.

Lemma kindb_iff s : kindb s = true <-> exists k b, bits_kind k /\ s = k ++ b.
Proof.
  unfold kindb. rewrite orb_true_iff, !startswith_iff. unfold bits_kind. split.
  - intros [[t ->]|[t ->]]; eauto.
  - intros (k & b & [->| ->] & ->); eauto.
Qed.

Lemma kind_not_space k : bits_kind k -> exists c r, k = c :: r /\ is_space c = false /\ forallb (fun c => negb (is_space c)) k = true.
Proof. intros [->| ->]; eexists _, _; split; [reflexivity|split; reflexivity|reflexivity|split; reflexivity]. Qed.

Lemma skip_blank_app ws k b : forallb is_space ws = true -> bits_kind k -> skip_blank (ws ++ k ++ b) = k ++ b.
Proof.
  intros Hw Hk. unfold skip_blank. rewrite dropwhile_app_all by assumption.
  apply kind_not_space in Hk as (c & r & -> & Hc & _). cbn. now rewrite Hc.
Qed.

(** A kind at the start of [t ++ d :: T] with [d] blank is at the start of [t]. *)
Lemma kindb_app_blank t d T : is_space d = true -> kindb (t ++ d :: T) = true -> kindb t = true.
Proof.
  intros Hd H. apply kindb_iff in H as (k & b & Hk & E). apply kindb_iff.
  apply app_eq_prefix in E as [(e & E1 & E2)|(e & E1 & E2)].
  - destruct (kind_not_space k Hk) as (_ & _ & _ & _ & Hn). rewrite E1 in Hn.
    destruct e as [|x e].
    + rewrite app_nil_r in E1. subst k. exists t, []. split; [exact Hk|]. now rewrite app_nil_r.
    + cbn in E2. injection E2 as <- _. apply forallb_app_r in Hn. cbn in Hn. rewrite Hd in Hn. discriminate.
  - exists k, e. auto.
Qed.

Lemma skip_blank_split s : exists ws, s = ws ++ skip_blank s /\ forallb is_space ws = true.
Proof. destruct (dropwhile_spec is_space s) as (p & E & F & _). exists p. auto. Qed.

Lemma skip_blank_blank s T : forallb is_space s = true -> skip_blank (s ++ T) = skip_blank T.
Proof. intros. unfold skip_blank. now apply dropwhile_app_all. Qed.

Lemma skip_blank_nonblank s T : skip_blank s <> [] -> skip_blank (s ++ T) = skip_blank s ++ T.
Proof.
  intros H. destruct (skip_blank_split s) as (ws & E & Hw).
  destruct (dropwhile_spec is_space s) as (p & E1 & F1 & G1). fold (skip_blank s) in *.
  destruct (skip_blank s) as [|c r] eqn:Es; [congruence|].
  rewrite E, <- app_assoc. rewrite skip_blank_blank by assumption. unfold skip_blank. cbn. now rewrite G1.
Qed.

Lemma skip_blank_nil s : skip_blank s = [] -> forallb is_space s = true.
Proof. intros H. destruct (skip_blank_split s) as (ws & E & Hw). rewrite H, app_nil_r in E. congruence. Qed.

(** What a match of the section pattern needs. *)
Lemma sections_rm s s' : rm sections_re s s' ->
  exists c name ws b, rest s = c :: name ++ ws ++ b /\ is_space c = true /\ some_of sec_char name /\
    some_of is_space ws /\ kindb b = true.
Proof.
  intros H. unfold sections_re in H. rm_seq H.
  apply rm_cls_inv in Hm as (c & b0 & E0 & F0 & ->).
  assert (R0 := adv_rest _ [c] b0 E0).
  apply rm_grp_inv, rm_plus_inv in Hm0 as (n & b1 & E1 & N1 & F1 & ->). 
  assert (R1 := adv_rest _ n b1 E1).
  apply rm_plus_inv in Hm1 as (w & b2 & E2 & N2 & F2 & ->).
  assert (R2 := adv_rest _ w b2 E2).
  apply rm_grp_inv, rm_alt_inv in Hm2.
  exists c, n, w, b2. split; [rewrite E0; rewrite R0 in E1; rewrite R1 in E2; now rewrite E1, E2|].
  split; [exact F0|]. split; [split; assumption|]. split; [split; assumption|].
  unfold kindb. apply orb_true_iff. rewrite !startswith_iff.
  destruct Hm2 as [Hm2|Hm2]; apply rm_lit_inv in Hm2 as (rs & E3 & _); rewrite R2 in E3; eauto.
Qed.

Lemma sec_char_not_space c : sec_char c = true -> is_space c = false.
Proof. exact (sec_not_space c). Qed.

Lemma last_app_ne {A} (a b : list A) d : b <> [] -> last (a ++ b) d = last b d.
Proof.
  intros H. induction a as [|x a IH]; [reflexivity|]. cbn [app last].
  destruct (a ++ b) eqn:E; [|exact IH]. apply app_eq_nil in E as [_ ->]. congruence.
Qed.
Lemma last_in {A} (x : A) l d : In (last (x :: l) d) (x :: l).
Proof.
  revert x; induction l as [|y l IH]; intros x; [now left|]. right. apply IH.
Qed.

(** A match starting in [X], where [X] is followed by a blank. *)
Lemma sections_rm_in s s' X d D : rest s = X ++ d :: D -> X <> [] -> is_space d = true ->
  rm sections_re s s' ->
  exists c name r1, X = c :: name ++ r1 /\ is_space c = true /\ some_of sec_char name /\
    ((forallb is_space r1 = true /\ kindb (skip_blank (d :: D)) = true) \/
     (exists ws k b, r1 = ws ++ k ++ b /\ some_of is_space ws /\ bits_kind k)).
Proof.
  intros R HX Hd H. apply sections_rm in H as (c & name & ws & b & E & Hc & Hn & Hw & Hk).
  rewrite R in E. destruct X as [|c' r0]; [congruence|]. cbn in E. injection E as -> E.
  apply app_eq_prefix in E as [(e & E1 & E2)|(e & E1 & E2)].
  - (* name would reach beyond X *)
    destruct e as [|x e].
    + rewrite app_nil_r in E1. subst r0. cbn in E2. exists c, name, [].
      split; [now rewrite app_nil_r|]. split; [exact Hc|]. split; [exact Hn|]. left. split; [reflexivity|].
      rewrite E2. apply kindb_iff in Hk as (k & b' & Hk & ->). rewrite skip_blank_app by (try apply Hw; assumption).
      apply kindb_iff. eauto.
    + cbn in E2. injection E2 as <- _. destruct Hn as [_ Hn]. rewrite E1 in Hn. apply forallb_app_r in Hn.
      cbn in Hn. apply andb_prop in Hn as [Hn _]. rewrite (sec_char_not_space d Hn) in Hd. discriminate.
  - exists c, name, e. split; [now rewrite E1|]. split; [exact Hc|]. split; [exact Hn|].
    apply kindb_iff in Hk as (k & b' & Hk & ->).
    assert (Hs : skip_blank (e ++ d :: D) = k ++ b') by (rewrite <- E2; apply skip_blank_app; [apply Hw|exact Hk]).
    destruct (skip_blank e) as [|y r] eqn:Ee.
    + left. apply skip_blank_nil in Ee. split; [exact Ee|].
      rewrite skip_blank_blank in Hs by assumption. rewrite Hs. apply kindb_iff. eauto.
    + right. rewrite skip_blank_nonblank in Hs by congruence.
      assert (kindb (skip_blank e) = true) as Hke.
      { apply (kindb_app_blank _ d D Hd). rewrite Hs. apply kindb_iff. eauto. }
      apply kindb_iff in Hke as (k2 & b2 & Hk2 & Ek2).
      destruct (skip_blank_split e) as (w & Ew & Fw). exists w, k2, b2. split; [rewrite <- Ek2; exact Ew|].
      split; [split; [|exact Fw]|exact Hk2].
      intros ->. cbn in Ew. destruct ws as [|x ws]; [now destruct Hw|].
      rewrite Ew, Ek2 in E2. destruct (kind_not_space k2 Hk2) as (q & qr & -> & Hq & _).
      cbn in E2. injection E2 as -> _. destruct Hw as [_ Hw]. cbn in Hw. rewrite Hq in Hw. discriminate.
Qed.

Lemma silent_no_match l X s s' d D a : silent l -> NL :: l = a ++ X -> X <> [] ->
  rest s = X ++ d :: D -> is_space d = true -> kindb (skip_blank (d :: D)) = false ->
  ~ rm sections_re s s'.
Proof.
  intros [Hs1 _] EX HX R Hd Hk H.
  destruct (sections_rm_in _ _ _ _ _ R HX Hd H) as (c & name & r1 & -> & Hc & Hn & [[_ H1]|(ws & k & b & -> & Hw & H1)]).
  - congruence.
  - apply (Hs1 a c name ws k b EX Hc Hn Hw H1).
Qed.

(** The lines after the first one, each with the newline before it. *)
Definition tails (ls : list str) : str := List.concat (map (cons NL) ls) ++ [NL].
Lemma tails_cons l ls : tails (l :: ls) = NL :: l ++ tails ls.
Proof. unfold tails. cbn. now rewrite <- app_assoc. Qed.
Lemma tails_head ls : exists T, tails ls = NL :: T.
Proof. destruct ls; [exists []; reflexivity|]. rewrite tails_cons. eauto. Qed.
Lemma unlines_tails l ls : unlines (l :: ls) = l ++ tails ls.
Proof.
  revert l; induction ls as [|l' ls IH]; intros l.
  - unfold unlines, tails. cbn. now rewrite app_nil_r.
  - rewrite tails_cons.
    change (unlines (l :: l' :: ls)) with ((l ++ [NL]) ++ unlines (l' :: ls)). rewrite IH.
    now rewrite <- app_assoc.
Qed.

Lemma silent_start l : silent l -> kindb (skip_blank l) = false.
Proof.
  intros [_ H2]. destruct (kindb (skip_blank l)) eqn:E; [|reflexivity]. exfalso.
  apply kindb_iff in E as (k & b & Hk & E). destruct (skip_blank_split l) as (ws & Ew & Fw).
  rewrite E in Ew. apply (H2 ws k b Ew Fw Hk).
Qed.

Lemma start_app l d T : is_space d = true -> kindb (skip_blank l) = false -> skip_blank l <> [] ->
  kindb (skip_blank (l ++ d :: T)) = false.
Proof.
  intros Hd Hk Hne. rewrite skip_blank_nonblank by assumption.
  destruct (kindb (skip_blank l ++ d :: T)) eqn:E; [|reflexivity].
  apply kindb_app_blank in E; [congruence|exact Hd].
Qed.

Lemma skip_blank_ne_app a c n : is_space c = true -> some_of sec_char n -> skip_blank (a ++ c :: n) <> [].
Proof.
  intros Hc [Hne Hn] H. apply skip_blank_nil in H. apply forallb_app_r in H. cbn in H.
  apply andb_prop in H as [_ H]. destruct n as [|x n]; [congruence|]. cbn in *.
  apply andb_prop in Hn as [Hx _]. rewrite (sec_char_not_space x Hx) in H. discriminate.
Qed.

Lemma tails_start ls os : Forall2 sec_describes ls os -> kindb (skip_blank (tails ls)) = false.
Proof.
  induction 1 as [|l o ls os Hd H IH]; [reflexivity|]. rewrite tails_cons.
  change (skip_blank (NL :: l ++ tails ls)) with (skip_blank (l ++ tails ls)).
  destruct (tails_head ls) as [T ET].
  destruct o as [s|].
  - destruct Hd as (lead & c & w1 & kind & w2 & v & w3 & o & w4 & sz & tail & -> & Hc & Hn & H1 & _ & _ & _ & _ & _ & _ & _ & _ & Hsil & _).
    destruct H1 as [N1 F1]. destruct w1 as [|d w1]; [congruence|]. cbn in F1. apply andb_prop in F1 as [Fd F1].
    replace ((lead ++ c :: sec_name s ++ (d :: w1) ++ kind ++ w2 ++ v ++ w3 ++ o ++ w4 ++ sz ++ tail) ++ tails ls)
      with ((lead ++ c :: sec_name s) ++ d :: (w1 ++ kind ++ w2 ++ v ++ w3 ++ o ++ w4 ++ sz ++ tail) ++ tails ls)
      by (norm_app; reflexivity).
    apply start_app; [exact Fd|now apply silent_start|now apply skip_blank_ne_app].
  - destruct (skip_blank l) eqn:El.
    + apply skip_blank_nil in El. rewrite skip_blank_blank by assumption. exact IH.
    + rewrite ET. apply start_app; [reflexivity|now apply silent_start|congruence].
Qed.

Lemma finditer_skip n r s a b : rest s = a ++ b ->
  (forall a1 a2, a = a1 ++ a2 -> a2 <> [] -> forall s', ~ rm r (adv s a1) s') ->
  finditer_from n r s = finditer_from n r (adv s a).
Proof.
  intros E H. destruct n; [reflexivity|]. cbn [finditer_from]. rewrite E.
  rewrite search_from_skip.
  - rewrite <- E, st_eta. rewrite adv_pos, (adv_rest s a b E). reflexivity.
  - rewrite <- E, st_eta. exact H.
Qed.

Lemma m_kind {R} n s kind b cs (k : st -> caps -> option R) x :
  bits_kind kind -> rest s = kind ++ b ->
  k (adv s kind) ((n, (pos s, kind)) :: cs) = Some x ->
  m (RGrp n (RAlt (RLit $"PROGBITS") (RLit $"NOBITS"))) s cs k = Some x.
Proof.
  intros Hk E Hx. rewrite m_grp_unfold, m_alt.
  destruct Hk as [->| ->].
  - erewrite m_lit by exact E. cbv beta. rewrite (grp_text _ _ _ E).
    match goal with |- match ?y with _ => _ end = _ => assert (y = Some x) as -> by exact Hx end. reflexivity.
  - rewrite m_lit_fail by now rewrite E.
    erewrite m_lit by exact E. cbv beta. rewrite (grp_text _ _ _ E). exact Hx.
Qed.

Lemma sections_match_here s name c w1 kind w2 v w3 o w4 sz b :
  rest s = c :: name ++ w1 ++ kind ++ w2 ++ v ++ w3 ++ o ++ w4 ++ sz ++ b ->
  is_space c = true -> some_of sec_char name -> some_of is_space w1 -> bits_kind kind ->
  some_of is_space w2 -> some_of is_hex v -> some_of is_space w3 -> some_of is_hex o ->
  some_of is_space w4 -> some_of is_hex sz ->
  match b with d :: _ => is_space d = true | [] => True end ->
  exists cs, re_match_at sections_re s =
    Some (pos s, adv s (c :: name ++ w1 ++ kind ++ w2 ++ v ++ w3 ++ o ++ w4 ++ sz), cs) /\
    forall i s', section_of_match (i, s', cs) = (name, Section_ name (int_hex v) (int_hex o) (int_hex sz)).
Proof.
  intros R0 Hc Hn H1 Hk H2 Hv H3 Ho H4 Hz Hb.
  assert (R1 := adv_rest s [c] _ R0).
  assert (R2 := adv_rest _ name _ R1).
  assert (R3 := adv_rest _ w1 _ R2).
  assert (R4 := adv_rest _ kind _ R3).
  assert (R5 := adv_rest _ w2 _ R4).
  assert (R6 := adv_rest _ v _ R5).
  assert (R7 := adv_rest _ w3 _ R6).
  assert (R8 := adv_rest _ o _ R7).
  assert (R9 := adv_rest _ w4 _ R8).
  assert (R10 := adv_rest _ sz _ R9).
  eexists. split.
  - unfold re_match_at, sections_re. cbn [RSeq].
    rewrite m_cat. erewrite m_cls; [|exact R0|exact Hc].
    rewrite m_cat. eapply m_grp_plus_ok; [exact R1|apply Hn|apply Hn|apply (head_of is_space); [exact space_not_sec|exact H1]|].
    rewrite m_cat. eapply m_plus_ok; [exact R2|apply H1|apply H1| |].
    { destruct (kind_not_space kind Hk) as (k & kr & -> & Hks & _). exact Hks. }
    rewrite m_cat. eapply m_kind; [exact Hk|exact R3|].
    rewrite m_cat. eapply m_plus_ok; [exact R4|apply H2|apply H2|apply (head_of is_hex); [exact hex_not_space|exact Hv]|].
    rewrite m_cat. eapply m_grp_plus_ok; [exact R5|apply Hv|apply Hv|apply (head_of is_space); [exact space_not_hex|exact H3]|].
    rewrite m_cat. eapply m_plus_ok; [exact R6|apply H3|apply H3|apply (head_of is_hex); [exact hex_not_space|exact Ho]|].
    rewrite m_cat. eapply m_grp_plus_ok; [exact R7|apply Ho|apply Ho|apply (head_of is_space); [exact space_not_hex|exact H4]|].
    rewrite m_cat. eapply m_plus_ok; [exact R8|apply H4|apply H4|apply (head_of is_hex); [exact hex_not_space|exact Hz]|].
    rewrite m_cat. eapply m_grp_plus_ok; [exact R9|apply Hz|apply Hz| |].
    { destruct b as [|d b]; [exact I|]. now apply space_not_hex. }
    cbn [m]. f_equal. f_equal. f_equal. rewrite <- !adv_app. f_equal.
  - intros i s'. reflexivity.
Qed.

(** One line. *)
Lemma section_line_step n s l o ls os : Forall2 sec_describes ls os -> sec_describes l o ->
  (rest s = l ++ tails ls \/ rest s = NL :: l ++ tails ls) ->
  (List.length (rest s) <= n)%nat ->
  exists n' s', (List.length (rest s') <= n')%nat /\ rest s' = tails ls /\
    map section_of_match (finditer_from n sections_re s) =
    map (fun s => (sec_name s, s)) (opt_list o) ++ map section_of_match (finditer_from n' sections_re s').
Proof.
  intros Hls Hl HR Hn. pose proof (tails_start ls os Hls) as Hts. destruct (tails_head ls) as [T ET].
  assert (exists X0 a0, rest s = X0 ++ l ++ tails ls /\ [NL] = a0 ++ X0) as (X0 & a0 & R & EX0).
  { destruct HR as [HR|HR]; [exists [], [NL]|exists [NL], []]; auto. }
  clear HR.
  destruct o as [sec|].
  - destruct Hl as (lead & c & w1 & kind & w2 & v & w3 & off & w4 & sz & tail & El & Hc & Hname & H1 & Hk & H2 & Hv & H3 & Ho & H4 & Hz & Htail & Hsil & Hst & _ & Ev & Eo & Ez).
    set (name := sec_name sec) in *.
    assert (Rl : rest s = (X0 ++ lead) ++ c :: name ++ w1 ++ kind ++ w2 ++ v ++ w3 ++ off ++ w4 ++ sz ++ tail ++ tails ls).
    { rewrite R, El. norm_app. reflexivity. }
    destruct n as [|n]; [rewrite Rl, !app_length in Hn; cbn in Hn; lia|].
    assert (Hskip : forall a1 a2, X0 ++ lead = a1 ++ a2 -> a2 <> [] -> forall s', ~ rm sections_re (adv s a1) s').
    { intros a1 a2 E Hne s' Hr.
      destruct (proj1 H1 : w1 <> []). destruct w1 as [|d w1]; [reflexivity|]. exfalso.
      assert (Hd : is_space d = true) by (destruct H1 as [_ H1]; cbn in H1; now apply andb_prop in H1).
      assert (R' : rest (adv s a1) = (a2 ++ c :: name) ++ d :: w1 ++ kind ++ w2 ++ v ++ w3 ++ off ++ w4 ++ sz ++ tail ++ tails ls).
      { apply adv_rest. rewrite Rl, E. norm_app. reflexivity. }
      destruct (sections_rm_in _ _ _ _ _ R' ltac:(destruct a2; discriminate) Hd Hr) as (c' & n' & r1 & E' & Hc' & Hn' & [[Hb _]|(ws & k & b & -> & Hw & Hkk)]).
      - (* the rest of X would be blank, but it ends with the name *)
        destruct a2 as [|x a2]; [congruence|]. cbn in E'. injection E' as -> E'.
        destruct r1 as [|y r1].
        + rewrite app_nil_r in E'. destruct Hn' as [_ Hn']. rewrite <- E' in Hn'.
          apply forallb_app_r in Hn'. cbn in Hn'. apply andb_prop in Hn' as [Hn' _].
          rewrite (sec_char_not_space c Hn') in Hc. discriminate.
        + assert (In (last (a2 ++ c :: name) c) (y :: r1)) as Hin.
          { rewrite E'. rewrite last_app_ne by discriminate. apply last_in. }
          destruct Hname as [Nn Fn]. replace (a2 ++ c :: name) with ((a2 ++ [c]) ++ name) in Hin by now rewrite <- app_assoc.
          rewrite last_app_ne in Hin by exact Nn. rewrite forallb_forall in Hb, Fn.
          destruct name as [|z name'] eqn:En; [congruence|].
          assert (In (last (z :: name') c) (z :: name')) as Hin2 by apply last_in.
          specialize (Hb _ Hin). specialize (Fn _ Hin2). rewrite (sec_char_not_space _ Fn) in Hb. discriminate.
      - destruct Hsil as [Hs1 _].
        apply (Hs1 (a0 ++ a1) c' n' ws k b); auto.
        rewrite <- E'. change (NL :: lead ++ c :: name) with ([NL] ++ lead ++ c :: name). rewrite EX0.
        rewrite <- !app_assoc. f_equal. rewrite !app_assoc. rewrite E. now rewrite <- app_assoc. }
    rewrite (finditer_skip _ _ s (X0 ++ lead) _ Rl Hskip).
    cbn [finditer_from].
    pose proof (adv_rest s (X0 ++ lead) _ Rl) as R1.
    destruct (sections_match_here (adv s (X0 ++ lead)) name c w1 kind w2 v w3 off w4 sz (tail ++ tails ls) R1)
      as (cs & Hm & Hsec); auto.
    { destruct tail as [|d tail]; [rewrite ET; reflexivity|exact Htail]. }
    rewrite (search_from_here _ _ _ _ _ (eq_trans (f_equal (re_match_at sections_re) (st_eta _)) Hm)).
    cbn [map]. rewrite Hsec.
    set (s1 := adv (adv s (X0 ++ lead)) (c :: name ++ w1 ++ kind ++ w2 ++ v ++ w3 ++ off ++ w4 ++ sz)).
    assert (R2 : rest s1 = tail ++ tails ls).
    { apply adv_rest. rewrite R1. norm_app. reflexivity. }
    exists n, (adv s1 tail). split; [|split].
    + rewrite (adv_rest s1 tail _ R2). rewrite Rl, !app_length in Hn. cbn [List.length] in Hn.
      rewrite !app_length in Hn. lia.
    + now apply adv_rest.
    + rewrite (finditer_skip n sections_re s1 tail _ R2).
      * cbn [opt_list map app]. f_equal. fold name. f_equal. destruct sec. cbn in *. now subst.
      * intros a1 a2 E Hne s' Hr.
        apply (silent_no_match tail a2 (adv s1 a1) s' NL T (NL :: a1) Hst); auto.
        -- cbn. now rewrite E.
        -- apply adv_rest. rewrite R2, E, ET, <- app_assoc. reflexivity.
        -- now rewrite <- ET.
  - exists n, (adv s (X0 ++ l)).
    assert (R1 : rest (adv s (X0 ++ l)) = tails ls) by (apply adv_rest; now rewrite R, <- app_assoc).
    split; [|split; [exact R1|]].
    + rewrite R1. rewrite R, !app_length in Hn. lia.
    + cbn [opt_list map app].
      rewrite (finditer_skip n sections_re s (X0 ++ l) (tails ls)); [reflexivity|now rewrite R, <- app_assoc|].
      intros a1 a2 E Hne s' Hr.
      apply (silent_no_match l a2 (adv s a1) s' NL T (a0 ++ a1) Hl); auto.
      * change (NL :: l) with ([NL] ++ l). rewrite EX0, <- !app_assoc. f_equal. exact E.
      * apply adv_rest. rewrite R, app_assoc, E, ET, <- app_assoc. reflexivity.
      * now rewrite <- ET.
Qed.

Lemma sections_lines ls os : Forall2 sec_describes ls os -> forall n s,
  rest s = tails ls -> (List.length (rest s) <= n)%nat ->
  map section_of_match (finditer_from n sections_re s) =
  map (fun s => (sec_name s, s)) (flat_map opt_list os).
Proof.
  induction 1 as [|l o ls os Hd H IH]; intros n s R Hn.
  - replace (finditer_from n sections_re s) with (@nil mres); [reflexivity|].
    destruct n; [reflexivity|]. cbn [finditer_from]. change (tails []) with [NL] in R.
    destruct (search_from sections_re (prev s) (rest s) (pos s)) as [x|] eqn:E; [|reflexivity].
    exfalso. assert (search_from sections_re (prev s) (rest s) (pos s) <> None) as Hne by congruence.
    apply search_from_iff in Hne as (a & b & s' & E1 & Hr). rewrite st_eta in Hr.
    apply sections_rm in Hr as (c & name & ws & b' & E2 & _ & Hn1 & Hw & _).
    rewrite (adv_rest s a b E1) in E2. rewrite R in E1. apply (f_equal (@List.length _)) in E1, E2.
    rewrite app_length in E1. cbn in E1. cbn in E2. rewrite !app_length in E2.
    destruct Hn1 as [Hn1 _]. destruct name; [congruence|]. cbn in E2. lia.
  - rewrite tails_cons in R.
    destruct (section_line_step n s l o ls os H Hd (or_intror R) Hn) as (n' & s' & Hn' & R' & ->).
    cbn [flat_map]. rewrite map_app. f_equal. apply IH; assumption.
Qed.

Lemma parse_sections_list ls os : Forall2 sec_describes ls os ->
  map section_of_match (re_finditer sections_re (unlines ls)) =
  map (fun s => (sec_name s, s)) (flat_map opt_list os).
Proof.
  intros H. destruct H as [|l o ls os Hd H]; [reflexivity|].
  unfold re_finditer. rewrite unlines_tails.
  destruct (section_line_step (List.length (l ++ tails ls)) (start (l ++ tails ls)) l o ls os H Hd) as (n' & s' & Hn' & R' & ->).
  - left. reflexivity.
  - cbn. lia.
  - cbn [flat_map]. rewrite map_app. f_equal. apply (sections_lines ls os H); assumption.
Qed.

Lemma parse_sections_last ls os n s : Forall2 sec_describes ls os ->
  (dget str_eqb n (parse_sections (unlines ls)) = Some s <->
   last_named sec_name (flat_map opt_list os) n s).
Proof.
  intros H. unfold parse_sections. rewrite (parse_sections_list ls os H).
  rewrite (dget_dict_of str_eqb str_eqb_eq). apply last_binding_named.
Qed.

(** Deciding [silent]. *)
Fixpoint no_sec (s : str) : bool :=
  match s with
  | [] => true
  | c :: r =>
      negb (is_space c &&
            match takewhile sec_char r with [] => false | _ => true end &&
            match dropwhile sec_char r with d :: _ => is_space d | [] => false end &&
            kindb (skip_blank (dropwhile sec_char r)))
      && no_sec r
  end.
Definition silentb (l : str) : bool := no_sec (NL :: l) && negb (kindb (skip_blank l)).

Lemma no_sec_sound s : no_sec s = true -> forall a c name ws kind b,
  s = a ++ c :: name ++ ws ++ kind ++ b ->
  is_space c = true -> some_of sec_char name -> some_of is_space ws -> ~ bits_kind kind.
Proof.
  intros H a c name ws kind b -> Hc Hn Hw Hk. induction a as [|x a IH].
  - cbn in H. apply andb_prop in H as [H _]. rewrite Hc in H. cbn [andb] in H.
    destruct ws as [|d ws]; [destruct Hw; congruence|].
    assert (is_space d = true) as Hd by (destruct Hw as [_ Hw]; cbn in Hw; now apply andb_prop in Hw).
    assert (sec_char d = false) as Hd' by (destruct (sec_char d) eqn:E; [apply sec_char_not_space in E; congruence|reflexivity]).
    cbn [app] in H. rewrite takewhile_app_all in H by (try apply Hn; exact Hd').
    rewrite dropwhile_app_all in H by apply Hn. cbn [dropwhile] in H. rewrite Hd' in H.
    destruct name as [|y name]; [destruct Hn; congruence|]. rewrite Hd in H. cbn [andb] in H.
    rewrite app_comm_cons, skip_blank_app in H by (try apply Hw; exact Hk).
    assert (kindb (kind ++ b) = true) by (apply kindb_iff; eauto). rewrite H0 in H. discriminate.
  - cbn in H. apply andb_prop in H as [_ H]. auto.
Qed.

Lemma silentb_sound l : silentb l = true -> silent l.
Proof.
  unfold silentb. intros H. apply andb_prop in H as [H1 H2]. split.
  - exact (no_sec_sound _ H1).
  - intros ws kind b -> Hw Hk. rewrite skip_blank_app in H2 by assumption.
    assert (kindb (kind ++ b) = true) by (apply kindb_iff; eauto). rewrite H in H2. discriminate.
Qed.

Lemma example_section_line :
  prints_section
    $"  [ 1] .text             PROGBITS        ffffffff81000000 200000 e00f10 00  AX  0   0 4096"
    $".text" 18446744071578845184 2097152 14683920.
Proof.
  exists $"  [ 1]", " "%char, $"             ", $"PROGBITS", $"        ", $"ffffffff81000000", $" ",
    $"200000", $" ", $"e00f10", $" 00  AX  0   0 4096".
  split; [reflexivity|]. split; [reflexivity|].
  do 9 (split; [try (split; [discriminate|reflexivity]); try now left|]).
  split; [reflexivity|].
  split; [now apply silentb_sound|]. split; [now apply silentb_sound|].
  split; [|repeat split].
  intros H. assert (existsb (Ascii.eqb NL) $"  [ 1] .text             PROGBITS        ffffffff81000000 200000 e00f10 00  AX  0   0 4096" = true) as X.
  { apply existsb_exists. exists NL. split; [exact H|reflexivity]. }
  vm_compute in X. discriminate.
Qed.

Lemma example_silent :
  silent $"  [ 2] .notes            NOTE            ffffffff81e00f10 1000f10 000054 00   A  0   0  4" /\
  silent $"  [ 3] __ex-table        PROGBITS        ffffffff81e00f10 1000f10 000054 00   A  0   0  4".
Proof. split; now apply silentb_sound. Qed.

(** ** Consequences for the address of code *)

Lemma symbol_line_spec m line value size typ name : ~ In NL line ->
  prints_symbol line value size typ name -> (m = arm_machine -> value < 2 ^ 32) ->
  parse_symbol_line m line = Some (Symbol value (code_address m typ value) size typ name).
Proof.
  intros Hnl Hp Hv. rewrite (parse_symbol_printed m _ _ _ _ _ Hnl Hp).
  rewrite real_vaddr_code; auto. destruct Hp as (? & ? & ? & v & ? & ? & ? & ? & ? & _ & _ & _ & <- & _).
  apply int_of_digits_nonneg. lia.
Qed.

Lemma thumb_line line value size name : ~ In NL line ->
  prints_symbol line value size $"FUNC" name -> 0 <= value < 2 ^ 32 -> Z.odd value = true ->
  exists s, parse_symbol_line arm_machine line = Some s /\ sym_vaddr s = value /\ sym_real s = value - 1.
Proof.
  intros Hnl Hp Hv Ho. eexists. split; [apply (symbol_line_spec _ _ _ _ _ _ Hnl Hp); lia|].
  split; [reflexivity|]. cbn [sym_real]. unfold code_address. rewrite Ho. reflexivity.
Qed.

Lemma other_line m line value size typ name : ~ In NL line ->
  prints_symbol line value size typ name ->
  m <> arm_machine \/ typ <> $"FUNC" \/ Z.odd value = false ->
  exists s, parse_symbol_line m line = Some s /\ sym_vaddr s = value /\ sym_real s = value.
Proof.
  intros Hnl Hp H. eexists. split; [apply (parse_symbol_printed _ _ _ _ _ _ Hnl Hp)|].
  split; [reflexivity|]. cbn [sym_real]. apply real_vaddr_other. exact H.
Qed.

Lemma parse_symbol_real m line s : parse_symbol_line m line = Some s ->
  0 <= sym_vaddr s /\ sym_real s = real_vaddr_of m (sym_type s) (sym_vaddr s).
Proof.
  unfold parse_symbol_line. destruct (re_search symbols_re line); [|discriminate].
  intros [= <-]. cbn. split; [apply int_of_digits_nonneg; lia|reflexivity].
Qed.

Lemma dvalues_dict_of l (s : symbol) :
  In s (dvalues (dict_of str_eqb (map (fun s => (sym_name s, s)) l))) -> In s l.
Proof.
  intros H. apply in_map_iff in H as ([k v] & Hv & H). cbn in Hv. subst v.
  pose proof (dict_of_NoDup str_eqb str_eqb_eq (map (fun s => (sym_name s, s)) l)) as Hnd.
  apply (dget_In_nodup str_eqb str_eqb_eq) in H; [|exact Hnd].
  rewrite (dget_dict_of str_eqb str_eqb_eq) in H. apply last_binding_In in H; [|apply str_eqb_eq].
  apply in_map_iff in H as (x & [= _ ->] & H). exact H.
Qed.

Lemma extracted_sane m out s : In s (dvalues (fst (extract_symbols m out))) ->
  (m = arm_machine -> sym_vaddr s < 2 ^ 32) -> sane_symbol m s.
Proof.
  intros H Hv. unfold extract_symbols in H. rewrite extract_fold in H. cbn [fst] in H.
  change (dupdate str_eqb [] ?l) with (dict_of str_eqb l) in H. apply dvalues_dict_of in H.
  unfold sym_list in H. apply in_flat_map in H as (l & _ & Hl).
  destruct (parse_symbol_line m l) eqn:E; [|destruct Hl]. destruct Hl as [<-|[]].
  apply parse_symbol_real in E as [H0 H1]. split; [exact H0|]. split; [exact Hv|].
  rewrite H1. now apply real_vaddr_code.
Qed.
