(** Lemmas about signature.py: signatures from source (C48, C49). *)
From Coq Require Import List Bool Ascii String ZArith Lia.
From Verif Require Import PyBase PyFacts M_Utils M_Elf M_Syscall M_Build M_Signature S_Elf S_Build S_Signature L_Build L_Signature.
Import ListNotations.
Open Scope Z_scope.
Open Scope list_scope.

(** * find, rfind, slices *)

Lemma find_char_from_app c a b i : ~ In c a -> find_char_from c (a ++ c :: b) i = i + len a.
Proof.
  revert i. induction a as [|x a IH]; intros i H; cbn [app find_char_from].
  - rewrite ascii_eqb_refl, len_nil. lia.
  - destruct (Ascii.eqb_spec x c) as [->|N]; [exfalso; apply H; now left|]. rewrite IH by (intros X; apply H; now right).
    rewrite len_cons. lia.
Qed.
Lemma find_char_app c a b : ~ In c a -> find_char c (a ++ c :: b) = len a.
Proof. intros H. unfold find_char. rewrite find_char_from_app by exact H. lia. Qed.
Lemma find_char_none c a i : ~ In c a -> find_char_from c a i = -1.
Proof.
  revert i. induction a as [|x a IH]; intros i H; cbn; [reflexivity|].
  destruct (Ascii.eqb_spec x c) as [->|N]; [exfalso; apply H; now left|]. apply IH. intros X. apply H. now right.
Qed.
Lemma rfind_char_from_last c a i best : rfind_char_from c (a ++ [c]) i best = i + len a.
Proof.
  revert i best. induction a as [|x a IH]; intros i best; cbn [app rfind_char_from].
  - rewrite ascii_eqb_refl, len_nil. lia.
  - rewrite IH, len_cons. lia.
Qed.
Lemma rfind_char_last c a : rfind_char c (a ++ [c]) = len a.
Proof. unfold rfind_char. rewrite rfind_char_from_last. lia. Qed.
Lemma clampi_len {A} (a b : list A) : clampi (a ++ b) (len a) = List.length a.
Proof. unfold clampi, len. destruct (Z.ltb_spec (Z.of_nat (List.length a)) 0); lia. Qed.
Lemma slice_mid {A} (a b c : list A) : slice (a ++ b ++ c) (len a) (len a + len b) = b.
Proof.
  unfold slice. rewrite clampi_len. rewrite app_assoc, <- len_app, clampi_len, firstn_app_exact. apply skipn_app_exact.
Qed.

(** * Lines *)

Lemma lines_keep_line l r : ~ In NL l -> lines_keep (l ++ NL :: r) = (l ++ [NL]) :: lines_keep r.
Proof.
  induction l as [|c l IH]; intros H; [reflexivity|]. cbn [app lines_keep]. destruct (Ascii.eqb_spec c NL) as [->|N]; [exfalso; apply H; now left|].
  rewrite IH by (intros X; apply H; now right). reflexivity.
Qed.
Lemma lines_keep_unlines ls r : Forall one_line ls -> lines_keep (unlines ls ++ r) = map (fun l => l ++ [NL]) ls ++ lines_keep r.
Proof.
  induction 1 as [|l ls (H & _) F IH]; [reflexivity|]. change (unlines (l :: ls)) with ((l ++ [NL]) ++ unlines ls).
  rewrite <- !app_assoc. cbn [app]. rewrite lines_keep_line by exact H. now rewrite IH.
Qed.
Lemma unlines_plain ls : Forall one_line ls -> plain_text (unlines ls).
Proof.
  induction 1 as [|l ls (_ & H) F IH]; [intros []|]. unfold plain_text in *. change (unlines (l :: ls)) with ((l ++ [NL]) ++ unlines ls). intros X. rewrite <- app_assoc in X.
  apply in_app_or in X as [X|[X|X]]; [exact (H X)|discriminate X|exact (IH X)].
Qed.
Lemma source_lines ls r : Forall one_line ls -> plain_text r ->
  lines_keep (universal (unlines ls ++ r)) = map (fun l => l ++ [NL]) ls ++ lines_keep r.
Proof.
  intros F P. rewrite universal_plain; [now apply lines_keep_unlines|]. unfold plain_text. intros X.
  apply in_app_or in X as [X|X]; [exact (unlines_plain ls F X)|exact (P X)].
Qed.
Lemma skip_before before rest : skip_lines (before ++ rest) (len before + 1) = Ok rest.
Proof.
  unfold skip_lines. replace (Z.to_nat (len before + 1 - 1)) with (List.length before) by (unfold len; lia).
  rewrite app_length. destruct (Nat.ltb_spec (List.length before + List.length rest) (List.length before)); [lia|].
  now rewrite skipn_app_exact.
Qed.

Lemma endswith_one s c : endswith (s ++ [c]) [c] = true.
Proof. apply endswith_iff. eauto. Qed.
Lemma endswith_other s c d : c <> d -> endswith (s ++ [c]) [d] = false.
Proof.
  intros H. destruct (endswith (s ++ [c]) [d]) eqn:E; [|reflexivity]. apply endswith_iff in E as (t & E).
  apply app_inj_tail in E as (_ & E). congruence.
Qed.
Lemma strip_body i b c t : blanks i -> blanks t -> (forall x y, b = x :: y -> is_space x = false) -> is_space c = false ->
  strip (i ++ b ++ c :: t) = b ++ [c].
Proof.
  intros Hi Ht Hb Hc. replace (i ++ b ++ c :: t) with (i ++ (b ++ [c]) ++ t) by now rewrite <- !app_assoc.
  apply strip_by_pad; [exact Hi|exact Ht|]. split.
  - destruct b as [|x y]; [exact Hc|exact (Hb x y eq_refl)].
  - rewrite rev_app_distr. exact Hc.
Qed.

Lemma broken_nl text ls : broken text ls -> broken text (map (fun l => l ++ [NL]) ls).
Proof.
  assert (forall t, blanks t -> blanks (t ++ [NL])) as B.
  { intros t H. unfold blanks. rewrite forallb_app, H. reflexivity. }
  induction 1 as [b i t Hi Ht Hb|b i t text ls Hi Ht Hb H IH]; cbn [map].
  - rewrite <- !app_assoc. apply broken_last; auto.
  - rewrite <- !app_assoc. cbn [app]. apply broken_more; auto.
Qed.
Lemma read_broken text ls acc rest : broken text ls -> read_sig acc (ls ++ rest) = Ok (acc ++ text).
Proof.
  intros H. revert acc. induction H as [b i t Hi Ht Hb|b i t text ls Hi Ht Hb H IH]; intros acc; cbn [app read_sig].
  - change ($")" ++ t) with (")"%char :: t). rewrite strip_body by auto. change $")" with [")"%char].
    rewrite app_assoc, endswith_one. now rewrite <- app_assoc.
  - rewrite strip_body by auto. change $")" with [")"%char]. rewrite app_assoc, endswith_other by discriminate.
    rewrite IH. now rewrite <- !app_assoc.
Qed.

Lemma from_text_lines text before ls rest big : Forall one_line (before ++ ls) -> plain_text rest -> broken text ls ->
  signature_from_text (unlines (before ++ ls) ++ rest) (len before + 1) big = signature_of_text text big.
Proof.
  intros F P B. unfold signature_from_text. rewrite source_lines by assumption. rewrite map_app, <- app_assoc.
  replace (len before) with (len (map (fun l => l ++ [NL]) before)) by (unfold len; now rewrite map_length).
  rewrite skip_before. cbn [bind]. rewrite (read_broken text) by now apply broken_nl. reflexivity.
Qed.

(** * C48: MACROn(...) *)

Lemma noprefix_define m t : In m define_macros -> noprefix (m ++ t) define_prefixes = t /\ str_eqb (m ++ t) t = false.
Proof.
  intros I. split.
  - destruct I as [<-|[<-|[<-|[<-|[<-|[]]]]]]; reflexivity.
  - apply str_eqb_neq. intros X. apply (f_equal (@List.length ascii)) in X. rewrite app_length in X.
    destruct I as [<-|[<-|[<-|[<-|[<-|[]]]]]]; cbn in X; lia.
Qed.

Lemma blanks_no w c : blanks w -> is_space c = false -> ~ In c w.
Proof. intros H C I. unfold blanks in H. rewrite forallb_forall in H. rewrite (H _ I) in C. discriminate. Qed.
Lemma ident_no w c : ident w -> is_word c = false -> ~ In c w.
Proof. intros (_ & H) C I. rewrite forallb_forall in H. rewrite (H _ I) in C. discriminate. Qed.

Lemma digit_of n : 0 <= n <= 9 -> is_dec (chr (48 + n)) = true /\ digit_val (chr (48 + n)) = n.
Proof.
  intros H. assert (n = 0 \/ n = 1 \/ n = 2 \/ n = 3 \/ n = 4 \/ n = 5 \/ n = 6 \/ n = 7 \/ n = 8 \/ n = 9) as X by lia.
  repeat (destruct X as [->|X]; [split; reflexivity|]). subst n. split; reflexivity.
Qed.

Lemma count_nonneg ps : 0 <= total ps.
Proof. induction ps as [|p ps IH]; [reflexivity|]. change (total (p :: ps)) with (param_count p + total ps). destruct p; cbn [param_count]; lia. Qed.
Lemma len_fields big ps : len (flat_map (expansion big) (flat_map param_items ps)) = 2 * total ps.
Proof.
  induction ps as [|p ps IH]; [reflexivity|]. cbn [flat_map]. rewrite flat_map_app, len_app, IH.
  change (total (p :: ps)) with (param_count p + total ps). generalize (total ps). intros k.
  destruct p; cbn [param_items param_count flat_map expansion]; unfold halves; destruct big; cbn [flat_map app]; rewrite ?len_cons, ?len_nil; lia.
Qed.
Lemma param_str_declare t n : t <> [] -> param_str t n = Ok (declare t n).
Proof.
  intros H. unfold param_str, last_of, declare. destruct (last_char t) as [c|] eqn:E.
  - cbn [bind]. destruct (Ascii.eqb_spec c "*"%char) as [->|N]; [reflexivity|]. f_equal.
    destruct c as [[] [] [] [] [] [] [] []]; try reflexivity. now elim N.
  - exfalso. unfold last_char in E. destruct (rev t) eqn:R; [|discriminate]. apply H. apply (f_equal (@rev ascii)) in R. now rewrite rev_involutive in R.
Qed.
Lemma pairs_declared big ps : Forall item_ok (flat_map param_items ps) ->
  mapM (fun p => param_str (fst p) (snd p)) (pairs_of (flat_map (expansion big) (flat_map param_items ps))) = Ok (flat_map (declared big) ps).
Proof.
  induction ps as [|p ps IH]; intros F; [reflexivity|]. cbn [flat_map] in *. apply Forall_app in F as [F1 F2]. specialize (IH F2).
  destruct p as [t n|m a].
  - cbn [param_items flat_map expansion app pairs_of mapM fst snd]. pose proof (Forall_inv F1) as ((N & _) & _).
    rewrite param_str_declare by exact N. cbn [bind]. rewrite IH. reflexivity.
  - cbn [param_items flat_map expansion app]. unfold declared, halves.
    destruct big; cbn [flat_map app pairs_of mapM fst snd map]; rewrite !param_str_declare by discriminate; cbn [bind]; rewrite IH; reflexivity.
Qed.

Lemma define_signature m name ps text big : define_text m name ps text -> total ps <= 6 ->
  Forall item_ok (flat_map param_items ps) -> signature_of_text text big = Ok (Some (flat_map (declared big) ps)).
Proof.
  intros (Im & In_ & w1 & w2 & w3 & B1 & B2 & B3 & D) Ht F. pose proof (count_nonneg ps) as Hn.
  destruct ps as [|p ps].
  - subst text. destruct (noprefix_define m ($"0" ++ w1 ++ $"(" ++ w2 ++ name ++ w3 ++ $")") Im) as [E1 E2].
    unfold signature_of_text. rewrite E1, E2. cbn [negb].
    assert (find_char ","%char ($"0" ++ w1 ++ $"(" ++ w2 ++ name ++ w3 ++ $")") = -1) as ->.
    { unfold find_char. apply find_char_none. intros X.
      repeat (apply in_app_or in X as [X|X]); try (destruct X as [X|[]]; discriminate X);
        first [exact (blanks_no _ ","%char B1 eq_refl X)|exact (blanks_no _ ","%char B2 eq_refl X)|exact (blanks_no _ ","%char B3 eq_refl X)|exact (ident_no _ ","%char In_ eq_refl X)]. }
    reflexivity.
  - destruct D as (w & args & -> & L & S). set (l := flat_map param_items (p :: ps)) in *. set (n := total (p :: ps)) in *.
    set (hd := chr (48 + n) :: w1 ++ $"(" ++ w2 ++ name ++ w3).
    destruct (digit_of n) as [Hd Hv]; [lia|].
    replace (m ++ chr (48 + n) :: w1 ++ $"(" ++ w2 ++ name ++ w3 ++ COMMA :: args ++ $")") with (m ++ hd ++ COMMA :: args ++ $")")
      by (unfold hd; cbn [app]; now rewrite <- !app_assoc).
    destruct (noprefix_define m (hd ++ COMMA :: args ++ $")") Im) as [E1 E2]. unfold signature_of_text. rewrite E1, E2. cbn [negb]. cbv zeta.
    assert (~ In COMMA hd) as NC.
    { unfold hd. intros X. destruct X as [X|X].
      - assert (is_dec COMMA = true) as Y by now rewrite <- X. discriminate Y.
      - repeat (apply in_app_or in X as [X|X]); try (destruct X as [X|[]]; discriminate X);
        first [exact (blanks_no _ ","%char B1 eq_refl X)|exact (blanks_no _ ","%char B2 eq_refl X)|exact (blanks_no _ ","%char B3 eq_refl X)|exact (ident_no _ ","%char In_ eq_refl X)]. }
    change ","%char with COMMA. rewrite (find_char_app COMMA hd _ NC).
    assert (index_ (hd ++ COMMA :: args ++ $")") 0 = Ok (chr (48 + n))) as -> by reflexivity. cbn [bind]. rewrite Hd. cbn [bind]. rewrite Hv.
    assert ((n <=? 6) = true) as -> by now apply Z.leb_le. cbn [assert_ bind].
    assert ((len hd + 1 =? 0) = false) as -> by (apply Z.eqb_neq; pose proof (len_nonneg hd); lia).
    assert (slice (hd ++ COMMA :: args ++ $")") (len hd + 1) (rfind_char ")"%char (hd ++ COMMA :: args ++ $")")) = args) as ->.
    { replace (hd ++ COMMA :: args ++ $")") with ((hd ++ [COMMA]) ++ args ++ [")"%char]) by (rewrite <- !app_assoc; reflexivity).
      replace (rfind_char ")"%char ((hd ++ [COMMA]) ++ args ++ [")"%char])) with (len (hd ++ [COMMA]) + len args)
        by (rewrite (app_assoc (hd ++ [COMMA])), rfind_char_last; symmetry; apply len_app).
      replace (len hd + 1) with (len (hd ++ [COMMA])) by (rewrite len_app; unfold len; cbn; lia). apply slice_mid. }
    rewrite (parse_items big l (clean_sig args) F (clean_listed _ w args (items_tidy l F) L S)).
    cbn [bind]. assert (len (flat_map (expansion big) l) = 2 * n) as Hl by apply len_fields. rewrite Hl.
    replace (2 * n) with (n * 2) by lia. rewrite Z.mod_mul by lia. rewrite Z.div_mul by lia. rewrite !Z.eqb_refl. cbn [andb assert_ bind].
    unfold l. rewrite pairs_declared by exact F. reflexivity.
Qed.

(** * C48: asmlinkage *)

Lemma asmlinkage_define text : noprefix ($"asmlinkage" ++ text) define_prefixes = $"asmlinkage" ++ text.
Proof. reflexivity. Qed.
Lemma trimmed_ends s : trimmed s -> no_blank_ends is_space s.
Proof.
  intros [H1 H2]. split; [destruct s as [|c x]; [exact I|exact (H1 c x eq_refl)]|].
  destruct (rev s) as [|c x] eqn:R; [exact I|]. apply (H2 c (rev x)). apply (f_equal (@rev ascii)) in R. now rewrite rev_involutive in R.
Qed.
Lemma listed_ne fs w : listed fs w -> Forall tidy fs -> w <> [] /\ fs <> [].
Proof.
  intros [f a b Ha Hb|f fs' a b w' Ha Hb _] F; inversion_clear F as [|? ? (N & _) _]; (split; [|discriminate]); intros X.
  - apply app_eq_nil in X as [_ X]. apply app_eq_nil in X as [X _]. auto.
  - apply app_eq_nil in X as [_ X]. apply app_eq_nil in X as [X _]. auto.
Qed.
Lemma spelled_void s : spelled s $"void" -> s = $"void".
Proof.
  assert (forall s t, spelled s t -> forallb (fun c => negb (is_space c)) t = true -> s = t) as G.
  { induction 1 as [|c s' t Hc H IH|g s' t G H IH|s' t E H IH|g s' t G H IH]; intros F.
    - reflexivity.
    - cbn in F. apply andb_true_iff in F as [_ F]. now rewrite IH.
    - destruct (gap_cons g G) as (c & r & -> & B). cbn in F. rewrite B in F. discriminate.
    - discriminate F.
    - destruct (gap_cons g G) as (c & r & -> & B). cbn in F. rewrite B in F. discriminate. }
  intros H. now apply G.
Qed.

Lemma asmlinkage_signature head ps text big : asmlinkage_text head ps text -> Forall tidy ps -> Forall no_parens ps ->
  ps <> [$"void"] -> len ps <= 7 -> signature_of_text text big = Ok (Some ps).
Proof.
  intros (Hh & D) F Np Nv L7. 
  assert (exists w1 w2 args, blanks w1 /\ blanks w2 /\ trimmed args /\ text = $"asmlinkage" ++ head ++ $"(" ++ w1 ++ args ++ w2 ++ $")" /\
    match ps with [] => args = [] \/ args = $"void" | _ => exists w, listed ps w /\ spelled w args end) as (w1 & w2 & args & B1 & B2 & T & E & D').
  { destruct ps as [|p ps].
    - destruct D as (w1 & w2 & v & B1 & B2 & V & E). exists w1, w2, v. repeat split; auto; intros c x X; destruct V as [-> | ->]; try discriminate.
      + now injection X as <- _.
      + destruct x; discriminate X.
      + assert (rev $"void" = rev (x ++ [c])) as Y by now rewrite X. rewrite rev_app_distr in Y. now injection Y as <- _.
    - destruct D as (w1 & w2 & w & args & B1 & B2 & T & E & L & S). exists w1, w2, args. eauto 10. }
  clear D. subst text. unfold signature_of_text. rewrite asmlinkage_define, str_eqb_refl. cbn [negb]. rewrite startswith_app. cbv zeta.
  set (hd := $"asmlinkage" ++ head).
  assert (~ In "("%char hd) as NC.
  { unfold hd. intros X. apply in_app_or in X as [X|X]; [|auto]. repeat (destruct X as [X|X]; [discriminate X|]). destruct X. }
  replace ($"asmlinkage" ++ head ++ $"(" ++ w1 ++ args ++ w2 ++ $")") with (hd ++ "("%char :: (w1 ++ args ++ w2) ++ [")"%char])
    by (unfold hd; rewrite <- !app_assoc; reflexivity).
  rewrite find_char_app by exact NC.
  assert (slice (hd ++ "("%char :: (w1 ++ args ++ w2) ++ [")"%char]) (len hd + 1)
    (rfind_char ")"%char (hd ++ "("%char :: (w1 ++ args ++ w2) ++ [")"%char])) = w1 ++ args ++ w2) as ->.
  { replace (hd ++ "("%char :: (w1 ++ args ++ w2) ++ [")"%char]) with ((hd ++ ["("%char]) ++ (w1 ++ args ++ w2) ++ [")"%char]) by (rewrite <- !app_assoc; reflexivity).
    replace (rfind_char ")"%char ((hd ++ ["("%char]) ++ (w1 ++ args ++ w2) ++ [")"%char])) with (len (hd ++ ["("%char]) + len (w1 ++ args ++ w2))
      by (rewrite (app_assoc (hd ++ ["("%char])), rfind_char_last; symmetry; apply len_app).
    replace (len hd + 1) with (len (hd ++ ["("%char])) by (rewrite len_app; unfold len; cbn; lia). apply slice_mid. }
  assert (strip (w1 ++ args ++ w2) = args) as -> by (apply strip_by_pad; [exact B1|exact B2|now apply trimmed_ends]).
  destruct ps as [|p ps]; [destruct D' as [-> | ->]; reflexivity|]. destruct D' as (w & L & S).
  assert (str_eqb args [] || str_eqb args $"void" = false) as ->.
  { apply orb_false_iff. split; apply str_eqb_neq; intros ->.
    - inversion S; subst; destruct (listed_ne _ _ L F) as [X _]; try (now apply X).
      match goal with H : gap ?g, E : ?g ++ _ = [] |- _ => destruct (gap_cons g H) as (? & ? & -> & _); discriminate E end.
    - apply spelled_void in S. subst w. apply Nv. pose proof (listed_split _ _ L F) as X. replace (map strip (split_char COMMA $"void")) with [$"void"] in X by (vm_compute; reflexivity). now symmetry. }
  pose proof (clean_listed _ _ _ F L S) as Lc.
  assert (forall c, In c (clean_sig args) -> c <> "("%char /\ c <> ")"%char) as NP.
  { intros c Hc. destruct (listed_in _ _ c Lc Hc) as [->|[->|(f & If & Ic)]]; [split; discriminate|split; discriminate|].
    rewrite Forall_forall in Np. destruct (Np f If) as [N1 N2]. split; intros ->; auto. }
  assert (forall c, (c = "("%char \/ c = ")"%char) -> contains (clean_sig args) [c] = false) as Nc.
  { intros c Hc. apply contains_false. intros a b E. destruct (NP c) as [X Y]; [rewrite E; apply in_or_app; right; now left|]. tauto. }
  change $"(" with ["("%char]. change $")" with [")"%char]. rewrite !Nc by auto. cbn [negb andb assert_ bind].
  change ","%char with COMMA. rewrite (listed_split _ _ Lc F).
  assert ((len (p :: ps) <=? 7) = true) as -> by now apply Z.leb_le. reflexivity.
Qed.

(** * C48: the number of parameters, for any text *)

Lemma pairs_len l : len l mod 2 = 0 -> len (pairs_of l) = len l / 2.
Proof.
  assert (forall n l, (List.length l <= n)%nat -> len l mod 2 = 0 -> len (pairs_of l) = len l / 2) as G; [|exact (G (List.length l) l (le_n _))].
  clear l. induction n as [|n IH]; intros l Hn Hm; destruct l as [|a [|b l]]; cbn [List.length] in Hn; try lia; try reflexivity; try discriminate Hm.
  cbn [pairs_of]. rewrite !len_cons in *. replace (1 + (1 + len l)) with (len l + 1 * 2) in * by lia.
  rewrite Z.mod_add in Hm by lia. rewrite Z.div_add by lia. rewrite (IH l) by (try lia; exact Hm). lia.
Qed.
Lemma mapM_len {A B} (f : A -> outcome B) l r : mapM f l = Ok r -> len r = len l.
Proof.
  revert r. induction l as [|x l IH]; intros r; cbn; [intros X; now injection X as <-|].
  intros X. apply bind_Ok in X as (y & _ & X). apply bind_Ok in X as (ys & E & X). injection X as <-. rewrite !len_cons. now rewrite (IH ys E).
Qed.
Lemma define_arity m c t big sig : In m define_macros -> signature_of_text (m ++ c :: t) big = Ok (Some sig) ->
  exists n, c = chr (48 + n) /\ 0 <= n <= 6 /\ len sig = n.
Proof.
  intros Im. destruct (noprefix_define m (c :: t) Im) as [E1 E2]. unfold signature_of_text. rewrite E1, E2. cbn [negb]. cbv zeta.
  change (index_ (c :: t) 0) with (@Ok ascii c). cbn [bind]. destruct (is_dec c) eqn:D; [|discriminate]. cbn [bind].
  assert (c = chr (48 + digit_val c) /\ 0 <= digit_val c) as [Ec H0].
  { unfold is_dec in D. unfold digit_val. rewrite D. unfold in_range in D. apply andb_true_iff in D as [D1 D2]. apply Z.leb_le in D1, D2.
    split; [|lia]. replace (48 + (code c - 48)) with (code c) by lia. now rewrite chr_code. }
  destruct (Z.leb_spec (digit_val c) 6) as [H6|]; [|discriminate]. cbn [assert_ bind].
  intros X. exists (digit_val c). split; [exact Ec|]. split; [lia|].
  destruct (find_char ","%char (c :: t) + 1 =? 0).
  - destruct (Z.eqb_spec (digit_val c) 0) as [Z0|]; [|discriminate]. cbn [assert_ bind] in X. injection X as <-. now rewrite Z0.
  - apply bind_Ok in X as (fields & _ & X). apply bind_Ok in X as (u & A & X). apply bind_Ok in X as (r & M & X). injection X as <-.
    destruct ((len fields mod 2 =? 0) && (len fields / 2 =? digit_val c)) eqn:C; [|discriminate A].
    apply andb_true_iff in C as [C1 C2]. apply Z.eqb_eq in C1, C2. rewrite (mapM_len _ _ _ M), pairs_len by exact C1. exact C2.
Qed.

(** * C49 *)

Lemma forallb_rev {A} (f : A -> bool) l : forallb f l = true -> forallb f (rev l) = true.
Proof. rewrite !forallb_forall. intros H x Hx. apply H. now apply in_rev. Qed.
Lemma strip_split l : exists a b, blanks a /\ blanks b /\ l = a ++ strip l ++ b.
Proof.
  unfold strip, strip_by, lstrip_by, rstrip_by. destruct (dropwhile_spec is_space l) as (a & E1 & E2 & _).
  destruct (dropwhile_spec is_space (rev (dropwhile is_space l))) as (b & E3 & E4 & _).
  exists a, (rev b). split; [exact E2|]. split; [now apply forallb_rev|].
  apply (f_equal (@rev ascii)) in E3. rewrite rev_involutive, rev_app_distr in E3. rewrite <- E3. exact E1.
Qed.
Lemma closes_strip l : closes l <-> endswith (strip l) $")" = true.
Proof.
  rewrite endswith_iff. split.
  - intros (p & t & B & ->). destruct (dropwhile_spec is_space p) as (a & E1 & E2 & E3). exists (dropwhile is_space p).
    rewrite E1 at 1. rewrite <- app_assoc. apply strip_body; [exact E2|exact B| |reflexivity].
    intros x y X. now rewrite X in E3.
  - intros (q & E). destruct (strip_split l) as (a & b & Ba & Bb & El). exists (a ++ q), b. split; [exact Bb|].
    rewrite El, E, <- !app_assoc. reflexivity.
Qed.

Lemma endswith_acc acc x c : endswith acc [c] = false -> endswith (acc ++ x) [c] = endswith x [c].
Proof.
  intros H. destruct (rev x) as [|d r] eqn:R.
  - assert (x = []) as -> by (apply (f_equal (@rev ascii)) in R; now rewrite rev_involutive in R). rewrite app_nil_r. exact H.
  - apply (f_equal (@rev ascii)) in R. rewrite rev_involutive in R. cbn in R. subst x. rewrite app_assoc. destruct (Ascii.eqb_spec d c) as [->|N].
    + now rewrite !endswith_one.
    + now rewrite !endswith_other.
Qed.
Lemma read_sig_spec acc ls : endswith acc $")" = false ->
  (read_sig acc ls = Diverge <-> forall l, In l ls -> ~ closes l) /\ (read_sig acc ls <> Diverge -> exists s, read_sig acc ls = Ok s).
Proof.
  revert acc. induction ls as [|l ls IH]; intros acc H; cbn [read_sig].
  - split; [split; [intros _ l []|reflexivity]|congruence].
  - destruct (endswith (acc ++ strip l) $")") eqn:E.
    + split; [|eauto]. split; [discriminate|]. intros X. exfalso. apply (X l); [now left|]. apply closes_strip.
      change $")" with [")"%char] in *. now rewrite endswith_acc in E by exact H.
    + destruct (IH _ E) as [I1 I2]. split; [|exact I2]. rewrite I1. split.
      * intros X l' [<-|Hl']; [|now apply X]. rewrite closes_strip. change $")" with [")"%char] in *. rewrite endswith_acc in E by exact H. congruence.
      * intros X l' Hl'. apply X. now right.
Qed.

Lemma assert_halts b : assert_ b <> Diverge.
Proof. destruct b; discriminate. Qed.
Lemma bind_halts {A B} (x : outcome A) (f : A -> outcome B) : x <> Diverge -> (forall a, x = Ok a -> f a <> Diverge) -> bind x f <> Diverge.
Proof. destruct x; cbn; intros H G; try discriminate; [now apply G|congruence]. Qed.
Lemma mapM_halts {A B} (f : A -> outcome B) l : (forall x, f x <> Diverge) -> mapM f l <> Diverge.
Proof.
  intros H. induction l as [|x l IH]; cbn; [discriminate|]. apply bind_halts; [apply H|intros y _]. apply bind_halts; [exact IH|discriminate].
Qed.
Lemma last_halts s : last_of s <> Diverge.
Proof. unfold last_of. destruct (last_char s); discriminate. Qed.
Lemma param_halts t n : param_str t n <> Diverge.
Proof. apply bind_halts; [apply last_halts|discriminate]. Qed.
Lemma parse_halts s big : parse_signature s big <> Diverge.
Proof.
  unfold parse_signature. cbv zeta. destruct (_ && _).
  - apply bind_halts; [apply assert_halts|discriminate].
  - unfold expand_macros. apply bind_halts; [|discriminate]. apply mapM_halts. intros f. unfold expand_field. cbv zeta.
    destruct (str_eqb _ _); [discriminate|]. apply bind_halts; [apply last_halts|intros c _]. apply bind_halts; [apply assert_halts|discriminate].
Qed.
Lemma text_halts s big : signature_of_text s big <> Diverge.
Proof.
  unfold signature_of_text. cbv zeta. destruct (negb _).
  - apply bind_halts. { unfold index_. destruct (_ <? 0); [discriminate|]. destruct (nth_error _ _); discriminate. }
    intros c _. apply bind_halts; [destruct (is_dec c); discriminate|]. intros n _. apply bind_halts; [apply assert_halts|]. intros _ _.
    destruct (_ =? 0); [apply bind_halts; [apply assert_halts|discriminate]|]. apply bind_halts; [apply parse_halts|]. intros l _.
    apply bind_halts; [apply assert_halts|]. intros _ _. apply bind_halts; [apply mapM_halts; intros p; apply param_halts|discriminate].
  - destruct (startswith _ _); [|discriminate]. destruct (_ || _); [discriminate|]. apply bind_halts; [apply assert_halts|]. intros _ _.
    apply bind_halts; [apply assert_halts|discriminate].
Qed.

Lemma from_text_halts content line big :
  signature_from_text content line big = Diverge <->
  (Z.to_nat (line - 1) <= List.length (lines_keep (universal content)))%nat /\
  forall l, In l (skipn (Z.to_nat (line - 1)) (lines_keep (universal content))) -> ~ closes l.
Proof.
  unfold signature_from_text, skip_lines. set (ls := lines_keep (universal content)). set (n := Z.to_nat (line - 1)). cbv zeta.
  destruct (Nat.ltb_spec (List.length ls) n) as [H|H]; cbn [bind].
  - split; [discriminate|]. intros [X _]. lia.
  - destruct (read_sig_spec [] (skipn n ls) eq_refl) as [R1 R2]. destruct (read_sig [] (skipn n ls)) eqn:E.
    + cbn [bind]. split; [intros X; now apply text_halts in X|]. intros [_ X]. apply R1 in X. discriminate.
    + destruct R2 as [s X]; discriminate.
    + destruct R2 as [s X]; discriminate.
    + cbn [bind]. split; [intros _; split; [exact H|now apply R1]|reflexivity].
Qed.

(** In terms of the lines. *)
Lemma closes_nl l : closes (l ++ [NL]) <-> closes l.
Proof.
  split; intros (p & t & B & E).
  - destruct (exists_last (l := ")"%char :: t)) as (t' & c & X); [discriminate|]. rewrite X in E. rewrite app_assoc in E.
    apply app_inj_tail in E as (E & <-). destruct t' as [|d t']; [discriminate X|]. cbn in X. injection X as <- ->.
    exists p, t'. split; [|exact E]. unfold blanks in *. rewrite forallb_app in B. now apply andb_true_iff in B as [B _].
  - exists p, (t ++ [NL]). split; [unfold blanks in *; rewrite forallb_app, B; reflexivity|]. rewrite E, <- app_assoc. reflexivity.
Qed.
Lemma source_halts ls line big : Forall one_line ls ->
  (signature_from_text (unlines ls) line big = Diverge <->
   line - 1 <= len ls /\ forall l, In l (skipn (Z.to_nat (line - 1)) ls) -> ~ closes l).
Proof.
  intros F. rewrite from_text_halts. replace (unlines ls) with (unlines ls ++ []) by apply app_nil_r.
  rewrite source_lines by (try exact F; intros []). cbn [lines_keep]. rewrite app_nil_r, map_length, skipn_map.
  split; intros [H1 H2]; (split; [unfold len, str in *; lia|]); intros l Hl.
  - rewrite <- closes_nl. apply H2. now apply (in_map (fun l => l ++ [NL])).
  - apply in_map_iff in Hl as (l' & <- & Hl). rewrite closes_nl. now apply H2.
Qed.
