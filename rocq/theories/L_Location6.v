(** Lemmas for the properties of location.py: answers of addr2line (C60). *)
From Coq Require Import List Bool Ascii String ZArith Lia Permutation Sorted.
From Verif Require Import PyBase PyFacts Regex RegexFacts RegexDen M_Utils M_Elf M_Syscall M_Arch M_Location
  S_Elf S_Signature S_Location L_Utils L_ElfText L_Signature3 L_Location L_Location2 L_Location3 L_Location4 L_Location5.
Import ListNotations.
Open Scope Z_scope.
Open Scope list_scope.

Lemma dec_digit c : is_dec c = true -> is_digit c = true.
Proof. destruct c as [[] [] [] [] [] [] [] []]; vm_compute; congruence. Qed.
Lemma str_of_int_digits n : 0 <= n -> str_of_int n = digits 10 n.
Proof. intros H. unfold str_of_int. destruct (Z.ltb_spec n 0); [lia|reflexivity]. Qed.
Lemma row_digits n : 0 <= n -> row (str_of_int n).
Proof.
  intros N. apply break_row. intros c I. rewrite str_of_int_digits in I by exact N. pose proof (digits_dec_b n) as F. rewrite forallb_forall in F. specialize (F _ I).
  revert F. destruct c as [[] [] [] [] [] [] [] []]; vm_compute; congruence.
Qed.
Lemma row_literal (l : str) : forallb (fun c => negb (is_break c)) l = true -> row l.
Proof. intros H. apply break_row. intros c I. rewrite forallb_forall in H. specialize (H c I). now destruct (is_break c). Qed.
Lemma text_row x : answer_ok x -> row (answer_text x).
Proof.
  destruct x as [|f n|f]; cbn [answer_text answer_ok].
  - intros _. now apply row_literal.
  - intros (_ & _ & F & N). apply row_app. split; [exact F|]. apply row_app. split; [now apply row_literal|now apply row_digits].
  - intros (_ & _ & F). apply row_app. split; [exact F|now apply row_literal].
Qed.
Lemma parse_text x : answer_ok x -> parse_loc (answer_text x) = Ok (answer_loc x).
Proof.
  destruct x as [|f n|f]; cbn [answer_text answer_ok answer_loc].
  - reflexivity.
  - intros (Q & C & _ & N). unfold parse_loc. change (f ++ $":" ++ str_of_int n) with (f ++ ":"%char :: str_of_int n). rewrite split_char_app by exact C.
    rewrite str_of_int_digits by exact N. pose proof (digits_dec_b n) as F. rewrite split_char_no.
    + apply str_eqb_neq in Q. rewrite Q. assert (isdigit (digits 10 n) = true) as ->.
      { unfold isdigit. pose proof (digits_ne 10 n) as Ne. destruct (digits 10 n) as [|c l]; [contradiction|]. rewrite forallb_forall in *. intros y Y. now apply dec_digit, F. }
      rewrite F, int_dec_digits by exact N. reflexivity.
    + intros I. rewrite forallb_forall in F. specialize (F _ I). discriminate.
  - intros (Q & C & _). unfold parse_loc. change (f ++ $":?") with (f ++ ":"%char :: $"?"). rewrite split_char_app by exact C. cbn [split_char].
    change (split_char ":"%char $"?") with [$"?"]. cbn beta iota. apply str_eqb_neq in Q. rewrite Q. reflexivity.
Qed.
Lemma ask_says w ans addrs : addr2line_says (w_addr2line w) ans -> ask w addrs = Ok (map (fun v => answer_text (ans v)) addrs).
Proof.
  intros (O & S). unfold ask. rewrite S. cbn [bind]. rewrite splitlines_unlines; [reflexivity|]. apply Forall_map, Forall_forall. intros v _. now apply text_row.
Qed.
Lemma smart_text elf kdir x l : answer_ok x -> smart_loc elf (Some kdir) (answer_text x) = Ok l ->
  snd l = snd (answer_loc x) /\
  match fst (answer_loc x) with None => fst l = None | Some p => exists q, fst l = Some q /\ moved (path_parent elf) kdir p q end.
Proof.
  intros O H. unfold smart_loc in H. rewrite (parse_text x O) in H. cbn [bind] in H. destruct (answer_loc x) as [[p|] n]; cbn [fst snd] in *.
  - destruct (is_relative_to p (path_parent elf)) eqn:E.
    + pose proof E as E'. apply is_relative_to_join in E' as (t & ->). pose proof (maybe_rel_under (path_parent elf) t) as M. unfold maybe_rel in M. rewrite E in M.
      apply bind_Ok in H as (r & R & H). rewrite R in M. cbn [bind] in M. injection M as ->. injection H as <-. split; [reflexivity|]. eexists. split; [reflexivity|]. apply moved_below.
    + injection H as <-. split; [reflexivity|]. exists p. split; [reflexivity|]. apply moved_other. intros t ->.
      assert (is_relative_to (path_join (path_parent elf) (Path [] t)) (path_parent elf) = true) by (apply is_relative_to_join; eauto). congruence.
  - injection H as <-. auto.
Qed.
Lemma smart_total elf srcdir x : answer_ok x -> exists l, smart_loc elf srcdir (answer_text x) = Ok l.
Proof.
  intros O. unfold smart_loc. rewrite (parse_text x O). cbn [bind]. destruct srcdir as [d|], (answer_loc x) as [[p|] n]; cbn [fst snd]; eauto.
  destruct (is_relative_to p (path_parent elf)) eqn:E; [|eauto]. pose proof E as E'. apply is_relative_to_join in E' as (t & ->). pose proof (maybe_rel_under (path_parent elf) t) as M. unfold maybe_rel in M. rewrite E in M.
  apply bind_Ok in M as (r & R & M). rewrite R. cbn [bind]. eauto.
Qed.
Lemma place_text w elf kdir rdir x l file f n : answer_ok x -> smart_loc elf (Some kdir) (answer_text x) = Ok l -> remap kdir rdir (fst l) = Ok file ->
  usable w (file, snd l) = Some (f, n) -> place_of (path_parent elf) kdir rdir x f n.
Proof.
  intros O S R U. apply smart_text in S as (S1 & S2); [|exact O]. unfold usable in U. destruct file as [f'|]; [|discriminate]. destruct (snd l) as [n'|]; [|discriminate].
  destruct (w_file w f'); [|discriminate]. injection U as -> ->. destruct x as [|g m|g]; cbn [answer_loc fst snd] in *.
  - rewrite S2 in R. discriminate.
  - injection S1 as ->. destruct S2 as (q & S2 & M). rewrite S2 in R. apply remap_spec in R. now apply (po _ _ _ g m q f).
  - discriminate.
Qed.
Lemma adjust_found w f n line : adjust_line w f n = Ok line -> exists content ls, w_file w f = Some content /\ lines_of content ls /\ adjusted ls n line.
Proof.
  intros H. destruct (adjust_line_bound _ _ _ _ H) as (content & E & B). exists content, (lines_keep content). split; [exact E|]. split; [apply lines_of_ex|].
  now apply (proj1 (adjust_line_spec w f content _ n E (lines_of_ex content) B line)).
Qed.

(** * Where a location comes from *)
Section Trace.
  Variables (w : world) (ans : Z -> answer) (elf kdir : path) (rdir : option path) (a : arch).
  Hypothesis S : addr2line_says (w_addr2line w) ans.
  Let tr := traced (w_file w) ans (path_parent elf) kdir rdir.
  Definition ok (s s' : syscall) : Prop := same_but_location s s' /\ (sc_good s' = true -> sc_grepped s' = false -> tr s').
  Definition inside (s : symbol) (v : Z) : Prop := v = sym_real s \/ sym_real s <= v < sym_real s + sym_size s.

  Lemma ok_found_at s0 s v l file f n line : same_but_location s0 s -> inside (sc_symbol s) v ->
    smart_loc elf (Some kdir) (answer_text (ans v)) = Ok l -> remap kdir rdir (fst l) = Ok file -> usable w (file, snd l) = Some (f, n) ->
    adjust_line w f n = Ok line -> ok s0 (found_at s f line).
  Proof.
    intros Sm I Sl R U L. split; [apply (same_trans _ s); [exact Sm|reflexivity]|]. intros _ _. destruct S as (O & _).
    pose proof (place_text w elf kdir rdir _ _ _ _ _ (O v) Sl R U) as P. apply adjust_found in L as (content & ls & E1 & E2 & E3).
    exists v, f, n, line, content, ls. split; [reflexivity|]. split; [reflexivity|]. split; [exact I|]. auto.
  Qed.
  Lemma step1_ok kres s l r : sc_good s = false -> smart_loc elf (Some kdir) (answer_text (ans (sym_real (sc_symbol s)))) = Ok l ->
    step1 w a kdir rdir kres s l = Ok r -> ok s (fst (fst r)) /\ (snd (fst r) = Adjust -> 1 < sym_size (sc_symbol s)).
  Proof.
    intros F Sl H. unfold step1 in H. apply bind_Ok in H as (file & R & H).
    assert (forall s', same_but_location s s' -> sc_good s' = false -> ok s s') as B by (intros s' H1 H2; split; [exact H1|congruence]).
    change (sc_symbol (set_good (set_file s file) false)) with (sc_symbol s) in H. set (next := if 1 <? sym_size (sc_symbol s) then Adjust else ToGrep) in *.
    assert (next = Adjust -> 1 < sym_size (sc_symbol s)) as N3 by (unfold next; destruct (Z.ltb_spec 1 (sym_size (sc_symbol s))); [auto|discriminate]).
    destruct (usable w (file, snd l)) as [(f & n)|] eqn:U; [|injection H as <-; split; [apply B; reflexivity|exact N3]].
    apply bind_Ok in H as (line & L & H). destruct (sc_esoteric _); [injection H as <-; split; [apply B; reflexivity|discriminate]|].
    apply bind_Ok in H as (g & G & H). destruct g; injection H as <-; [|split; [apply B; reflexivity|exact N3]]. split; [|discriminate]. cbn [fst].
    destruct (ok_found_at s s (sym_real (sc_symbol s)) l file f n line) as (_ & T); [apply same_refl|now left|assumption..|].
    split; [reflexivity|]. intros H1 H2. assert (file = Some f) as ->.
    { unfold usable in U. destruct file as [f'|]; [|discriminate]. destruct (snd l); [|discriminate]. destruct (w_file w f'); [|discriminate]. now injection U as -> _. }
    apply T; [reflexivity|]. exact H2.
  Qed.
  Lemma step1_all_ok kres scs : forall locs r, Forall (fun s => sc_good s = false) scs ->
    mapM (smart_loc elf (Some kdir)) (map (fun v => answer_text (ans v)) (map (fun s => sym_real (sc_symbol s)) scs)) = Ok locs ->
    step1_all w a kdir rdir kres scs locs = Ok r ->
    Forall2 ok scs (map (fun x => fst (fst x)) r) /\ Forall (fun x => snd (fst x) = Adjust -> 1 < sym_size (sc_symbol (fst (fst x)))) r.
  Proof.
    induction scs as [|s scs IH]; intros locs r F M H.
    - cbn in M. injection M as <-. cbn in H. injection H as <-. split; constructor.
    - inversion F; subst. cbn [map mapM] in M. apply bind_Ok in M as (l & L & M). apply bind_Ok in M as (locs' & M & E). injection E as <-.
      cbn [step1_all] in H. apply bind_Ok in H as (x & X & H). apply bind_Ok in H as (r' & R & H). injection H as <-. cbn [map].
      apply step1_ok in X as (X1 & X2); [|assumption|exact L]. destruct (IH _ _ H3 M R) as (Y1 & Y2). split; constructor; try assumption.
      destruct X1 as (Sm & _). apply same_names in Sm as (_ & _ & E & _). now rewrite E.
  Qed.
  Lemma update_ok scs0 scs i (g : syscall -> syscall) : Forall2 ok scs0 scs ->
    (forall s, ok s (at_ scs i) -> ok s (g (at_ scs i))) -> Forall2 ok scs0 (update scs i g).
  Proof. intros F G. revert i G. induction F as [|x y l m Hx H IH]; intros [|i] G; cbn; constructor; auto. Qed.
  Lemma step2_ok scs0 l : forall scs r, Forall2 ok scs0 scs -> (forall i, In i l -> 1 < sym_size (sc_symbol (at_ scs i))) ->
    step2 w a elf kdir rdir scs l (map (fun v => answer_text (ans v)) (map (fun i => sym_real (sc_symbol (at_ scs i)) + sym_size (sc_symbol (at_ scs i)) - 1) l)) = Ok r ->
    Forall2 ok scs0 (fst (fst r)) /\ incl (snd (fst r)) l.
  Proof.
    induction l as [|i l IH]; intros scs r F B H; cbn [step2 map] in H; [injection H as <-; split; [exact F|apply incl_refl]|].
    apply bind_Ok in H as (x & X & H). apply bind_Ok in H as (file & R & H).
    assert (forall r', Forall2 ok scs0 (fst (fst r')) /\ incl (snd (fst r')) l ->
       (let '(scs, retry, grep) := r' in if 2 <? sym_size (sc_symbol (at_ scs i)) then (scs, i :: retry, grep) else (scs, retry, i :: grep)) = r ->
       Forall2 ok scs0 (fst (fst r)) /\ incl (snd (fst r)) (i :: l)) as N.
    { intros ((s' & re) & gr) (H1 & H2) E. cbn [fst snd] in *. destruct (_ <? _); subst r; cbn [fst snd]; (split; [exact H1|]).
      - intros y [->|Y]; [now left|right; now apply H2].
      - intros y Y. right. now apply H2. }
    assert (forall scs', (forall j, at_ scs' j = at_ scs j \/ sc_symbol (at_ scs' j) = sc_symbol (at_ scs j)) ->
      map (fun i => sym_real (sc_symbol (at_ scs' i)) + sym_size (sc_symbol (at_ scs' i)) - 1) l = map (fun i => sym_real (sc_symbol (at_ scs i)) + sym_size (sc_symbol (at_ scs i)) - 1) l) as MM.
    { intros scs' E. apply map_ext. intros j. destruct (E j) as [-> | ->]; reflexivity. }
    destruct (usable w (file, snd x)) as [(f & n)|] eqn:U.
    - apply bind_Ok in H as (line & L & H). apply bind_Ok in H as (g & G & H). destruct g.
      + assert (forall j, sc_symbol (at_ (update scs i (fun s => found_at s f line)) j) = sc_symbol (at_ scs j)) as SY.
        { intros j. destruct (Nat.eq_dec i j) as [<-|Ne]; [|now rewrite at_update_ne]. destruct (Nat.lt_ge_cases i (List.length scs)) as [Lt|Ge]; [now rewrite at_update_eq|]. now rewrite update_out. }
        rewrite <- (MM (update scs i (fun s => found_at s f line))) in H by (intros j; right; apply SY).
        apply IH in H.
        * destruct H as (H1 & H2). split; [exact H1|]. intros y Y. right. now apply H2.
        * apply update_ok; [exact F|]. intros s (Sm & _). apply (ok_found_at s _ (sym_real (sc_symbol (at_ scs i)) + sym_size (sc_symbol (at_ scs i)) - 1) x file f n line); try assumption.
          right. specialize (B i (or_introl eq_refl)). lia.
        * intros j J. rewrite SY. apply B. now right.
      + apply bind_Ok in H as (r' & H & E). injection E as E. apply (N r'); [|exact E]. apply (IH scs); [exact F|intros j J; apply B; now right|exact H].
    - apply bind_Ok in H as (r' & H & E). injection E as E. apply (N r'); [|exact E]. apply (IH scs); [exact F|intros j J; apply B; now right|exact H].
  Qed.
  Lemma scan_ok s0 s addrs : same_but_location s0 s -> Forall (inside (sc_symbol s)) addrs -> forall b c f line x y,
    scan w a elf kdir rdir s (map (fun v => answer_text (ans v)) addrs) b c = Ok (Some (f, line), x, y) -> ok s0 (found_at s f line).
  Proof.
    intros Sm. induction addrs as [|v addrs IH]; intros I b c f line x y H; cbn [scan map] in H; [discriminate|]. inversion I; subst.
    apply bind_Ok in H as (l & X & H). apply bind_Ok in H as (file & R & H). destruct (usable w (file, snd l)) as [(f' & n)|] eqn:U; [|now apply IH in H].
    apply bind_Ok in H as (line' & L & H). apply bind_Ok in H as (g & G & H). destruct g; [|now apply IH in H]. injection H as -> -> _ _.
    now apply (ok_found_at s0 s v l file f n line).
  Qed.
  Lemma inner_inside s : Forall (inside s) (inner_addrs s).
  Proof. apply Forall_forall. intros v I. unfold inner_addrs in I. apply zrange_in in I. right. lia. Qed.
  Lemma step3_ok scs0 l : forall scs r, Forall2 ok scs0 scs -> step3 w a elf kdir rdir scs l = Ok r -> Forall2 ok scs0 (fst r).
  Proof.
    induction l as [|i l IH]; intros scs r F H; cbn [step3] in H; [now injection H as <-|]. rewrite (ask_says w ans _ S) in H. cbn [bind] in H.
    apply bind_Ok in H as (((fo & invalid) & has) & X & H). destruct fo as [(f & line)|].
    - apply IH in H; [exact H|]. apply update_ok; [exact F|]. intros s (Sm & _). eapply scan_ok; [exact Sm| |exact X]. apply inner_inside.
    - destruct (negb invalid && negb has); [discriminate|]. apply bind_Ok in H as (r' & H & E). injection E as <-. cbn [fst]. apply (IH scs r'); [exact F|exact H].
  Qed.
  Lemma step4_ok scs0 l : forall scs r, Forall2 ok scs0 scs -> step4 w a scs l = Ok r -> Forall2 ok scs0 r.
  Proof.
    induction l as [|(i & [(f & line)|]) l IH]; intros scs r F H; cbn [step4] in H; [now injection H as <-| |now apply (IH scs)].
    apply bind_Ok in H as (g & G & H). apply IH in H; [exact H|]. destruct g; [|exact F].
    apply update_ok; [exact F|]. intros s (Sm & _). split; [apply (same_trans _ (at_ scs i)); [exact Sm|reflexivity]|discriminate].
  Qed.
  Lemma extract_ok kres scs r : Forall (fun s => sc_good s = false) scs ->
    extract_syscall_locations w true a elf (Some kdir) rdir kres scs = Ok r -> Forall2 ok scs r.
  Proof.
    intros F H. unfold extract_syscall_locations in H. cbn [negb] in H. apply bind_Ok in H as ((scs' & st) & H & K).
    assert (Forall2 ok scs scs') as G.
    { unfold search_locations in H. rewrite (ask_says w ans _ S) in H. cbn [bind] in H. apply bind_Ok in H as (locs & Lo & H). apply bind_Ok in H as (r1 & R1 & H).
      destruct (step1_all_ok kres scs locs r1 F Lo R1) as (G1 & Sz). set (scs1 := map (fun x => fst (fst x)) r1) in *. set (todos := map (fun x => snd (fst x)) r1) in *.
      destruct (negb _ && _); [injection H as <- _; exact G1|]. apply bind_Ok in H as (((scs2 & retry) & grep2) & R2 & H).
      assert (Forall2 ok scs scs2) as G2.
      { destruct (_ =? _); [injection R2 as <- _ _; exact G1|]. rewrite (ask_says w ans _ S) in R2. cbn [bind] in R2.
        apply (step2_ok scs) in R2; [now destruct R2|exact G1|].
        intros i I. unfold by_name in I. apply sort_by_in, positions_in in I as (j & E & I). cbn in E. subst j. unfold todos in I. rewrite nth_error_map in I.
        destruct (nth_error r1 i) as [y|] eqn:Ey; [|discriminate]. injection I as I. unfold scs1. rewrite (at_map _ _ _ _ Ey). rewrite Forall_forall in Sz. apply Sz; [now apply nth_error_In in Ey|exact I]. }
      apply bind_Ok in H as ((scs3 & grep3) & R3 & H). apply (step3_ok scs) in R3; [|exact G2]. cbn [fst] in R3. destruct (existsb _ _); injection H as <- _; exact R3. }
    cbn [fst snd] in K. destruct st; try (injection K as <-; exact G). apply bind_Ok in K as (fo & _ & K). now apply (step4_ok scs) in K.
  Qed.
End Trace.

Lemma no_sources_paired w ans a elf rdir kres scs : addr2line_says (w_addr2line w) ans ->
  exists r, extract_syscall_locations w true a elf None rdir kres scs = Ok r /\
  Forall2 (fun s s' => same_but_location s s' /\ (sc_file s', sc_line s') = answer_loc (ans (sym_real (sc_symbol s))) /\ sc_good s' = false) scs r.
Proof.
  intros S. unfold extract_syscall_locations, search_locations. cbn [negb]. rewrite (ask_says w ans _ S). cbn [bind].
  assert (mapM (smart_loc elf None) (map (fun v => answer_text (ans v)) (map (fun s => sym_real (sc_symbol s)) scs)) = Ok (map (fun s => answer_loc (ans (sym_real (sc_symbol s)))) scs)) as ->.
  { induction scs as [|s scs IH]; [reflexivity|]. cbn [map mapM]. unfold smart_loc at 1. rewrite parse_text by apply S. cbn [bind]. rewrite IH. reflexivity. }
  cbn [bind fst]. eexists. split; [reflexivity|]. rewrite map_length. rewrite skipn_all, app_nil_r.
  clear. induction scs as [|s scs IH]; [constructor|]. cbn [map combine]. constructor; [|exact IH]. split; [reflexivity|]. split; [cbn; now destruct (answer_loc _)|reflexivity].
Qed.
