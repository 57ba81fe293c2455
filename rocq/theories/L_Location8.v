(** Lemmas for C56: what is handed to the search was tried at (nearly) all addresses. *)
From Coq Require Import List Bool Ascii String ZArith Lia Permutation Sorted.
From Verif Require Import PyBase PyFacts Regex M_Utils M_Elf M_Syscall M_Arch M_Location
  S_Elf S_Signature S_Location L_Utils L_ElfText L_Signature3 L_Location L_Location2 L_Location3 L_Location4 L_Location5 L_Location6 L_Location7.
Import ListNotations.
Open Scope Z_scope.
Open Scope list_scope.

Lemma moved_fun old new p q q' : moved old new p q -> moved old new p q' -> q = q'.
Proof.
  intros H H'. inversion H as [t E1 E2|p1 N E1 E2]; subst; inversion H' as [t' E|p' N' E]; subst.
  - apply app_inv_head in E. now subst.
  - now elim (N' t).
  - now elim (N t').
  - reflexivity.
Qed.
Lemma usable_place w elf kdir rdir x l file f n : answer_ok x -> smart_loc elf (Some kdir) (answer_text x) = Ok l -> remap kdir rdir (fst l) = Ok file ->
  place_of (path_parent elf) kdir rdir x f n -> w_file w f <> None -> usable w (file, snd l) = Some (f, n).
Proof.
  intros O S R P W. apply smart_text in S as (S1 & S2); [|exact O]. inversion P as [g m p q M Q]; subst. cbn [answer_loc fst snd] in *. destruct S2 as (q & S2 & M').
  rewrite (moved_fun _ _ _ _ _ M' M) in S2. rewrite S2 in R. apply remap_spec in Q. rewrite Q in R. injection R as <-. unfold usable. rewrite S1. destruct (w_file w f); [reflexivity|contradiction].
Qed.

Section Tried.
  Variables (w : world) (ans : Z -> answer) (elf kdir : path) (rdir : option path) (a : arch).
  Hypothesis S : addr2line_says (w_addr2line w) ans.
  Let place := place_of (path_parent elf) kdir rdir.
  Definition rej (s : syscall) (v : Z) : Prop :=
    forall f n, place (ans v) f n -> w_file w f <> None -> exists line, adjust_line w f n = Ok line /\ good_location w f line a s = Ok false.
  Lemma rej_same s s' v : same_but_location s s' -> rej s' v -> rej s v.
  Proof. intros H R f n P W. destruct (R f n P W) as (line & A & G). exists line. split; [exact A|]. now rewrite <- (good_location_same _ _ _ _ _ _ H). Qed.
  Lemma rej_unusable s v l file : smart_loc elf (Some kdir) (answer_text (ans v)) = Ok l -> remap kdir rdir (fst l) = Ok file -> usable w (file, snd l) = None -> rej s v.
  Proof. intros Sm R U f n P W. rewrite (usable_place w elf kdir rdir _ _ _ _ _ (proj1 S v) Sm R P W) in U. discriminate. Qed.
  Lemma rej_bad s v l file f n line : smart_loc elf (Some kdir) (answer_text (ans v)) = Ok l -> remap kdir rdir (fst l) = Ok file -> usable w (file, snd l) = Some (f, n) ->
    adjust_line w f n = Ok line -> good_location w f line a s = Ok false -> rej s v.
  Proof.
    intros Sm R U A G f' n' P W. rewrite (usable_place w elf kdir rdir _ _ _ _ _ (proj1 S v) Sm R P W) in U. injection U as -> ->. eauto.
  Qed.

  Lemma step1_tried kres s v l s' t b : smart_loc elf (Some kdir) (answer_text (ans v)) = Ok l -> step1 w a kdir rdir kres s l = Ok (s', t, b) ->
    t <> Done -> rej s v /\ t <> Retry /\ (t = ToGrep -> sym_size (sc_symbol s) <= 1) /\ (t = Adjust -> 1 < sym_size (sc_symbol s)).
  Proof.
    intros Sm H N. unfold step1 in H. apply bind_Ok in H as (file & R & H). cbn [sc_symbol set_good set_file] in H.
    assert (forall t', t' = (if 1 <? sym_size (sc_symbol s) then Adjust else ToGrep) -> t' <> Retry /\ (t' = ToGrep -> sym_size (sc_symbol s) <= 1) /\ (t' = Adjust -> 1 < sym_size (sc_symbol s))) as T.
    { intros t' ->. destruct (Z.ltb_spec 1 (sym_size (sc_symbol s))); split; try split; congruence || lia. }
    destruct (usable w (file, snd l)) as [(f & n)|] eqn:U.
    - apply bind_Ok in H as (line & L & H). destruct (sc_esoteric _); [injection H as _ <- _; contradiction|]. apply bind_Ok in H as (g & G & H). destruct g; injection H as _ E _; [now subst|].
      split; [|apply T; congruence]. apply (rej_bad s v l file f n line Sm R U L). rewrite <- G. reflexivity.
    - injection H as _ E _. split; [|apply T; congruence]. now apply (rej_unusable s v l file).
  Qed.
  Lemma step1_all_tried kres scs : forall locs r, mapM (smart_loc elf (Some kdir)) (map (fun v => answer_text (ans v)) (map (fun s => sym_real (sc_symbol s)) scs)) = Ok locs ->
    step1_all w a kdir rdir kres scs locs = Ok r ->
    Forall2 (fun s x => same_but_location s (fst (fst x)) /\ (snd (fst x) <> Done -> rej s (sym_real (sc_symbol s)) /\ snd (fst x) <> Retry /\
      (snd (fst x) = ToGrep -> sym_size (sc_symbol s) <= 1) /\ (snd (fst x) = Adjust -> 1 < sym_size (sc_symbol s)))) scs r.
  Proof.
    induction scs as [|s scs IH]; intros locs r M H; cbn [map mapM] in M.
    - injection M as <-. cbn in H. injection H as <-. constructor.
    - apply bind_Ok in M as (l & L & M). apply bind_Ok in M as (ls & Ls & M). injection M as <-. cbn [step1_all] in H. apply bind_Ok in H as (x & X & H). apply bind_Ok in H as (r' & R & H). injection H as <-.
      constructor; [|now apply (IH ls)]. split; [now apply step1_same in X|]. destruct x as ((s' & t) & b). cbn [fst snd]. now apply (step1_tried kres s _ l s' t b).
  Qed.

  Lemma same_at scs0 scs i : Forall2 same_but_location scs0 scs -> same_but_location (at_ scs0 i) (at_ scs i).
  Proof.
    intros F. revert i. induction F as [|x y l m H F IH]; intros [|i]; try reflexivity; [exact H|apply IH].
  Qed.
  Lemma step2_tried scs0 (addr : nat -> Z) l : forall scs scs' retry grep, Forall2 same_but_location scs0 scs ->
    step2 w a elf kdir rdir scs l (map (fun v => answer_text (ans v)) (map addr l)) = Ok (scs', retry, grep) ->
    (forall i, In i retry -> In i l /\ rej (at_ scs0 i) (addr i)) /\
    (forall i, In i grep -> In i l /\ rej (at_ scs0 i) (addr i) /\ sym_size (sc_symbol (at_ scs0 i)) <= 2).
  Proof.
    induction l as [|i l IH]; intros scs scs' retry grep F H; cbn [step2 map] in H; [injection H as _ <- <-; split; intros ? []|].
    apply bind_Ok in H as (x & X & H). apply bind_Ok in H as (file & R & H).
    assert (forall r', step2 w a elf kdir rdir scs l (map (fun v => answer_text (ans v)) (map addr l)) = Ok r' -> rej (at_ scs0 i) (addr i) ->
      (let '(scs, retry, grep) := r' in if 2 <? sym_size (sc_symbol (at_ scs i)) then (scs, i :: retry, grep) else (scs, retry, i :: grep)) = (scs', retry, grep) ->
      (forall j, In j retry -> In j (i :: l) /\ rej (at_ scs0 j) (addr j)) /\
      (forall j, In j grep -> In j (i :: l) /\ rej (at_ scs0 j) (addr j) /\ sym_size (sc_symbol (at_ scs0 j)) <= 2)) as N.
    { intros ((scs1 & retry1) & grep1) H1 Rj E. pose proof (step2_same w a elf kdir rdir scs0 l scs _ _ F H1) as Sm. cbn [fst] in Sm. apply IH in H1 as (H1 & H2); [|exact F].
      pose proof (same_at scs0 scs1 i Sm) as Si. assert (sc_symbol (at_ scs1 i) = sc_symbol (at_ scs0 i)) as Es by now rewrite Si. rewrite Es in E.
      destruct (Z.ltb_spec 2 (sym_size (sc_symbol (at_ scs0 i)))) as [Lt|Lt]; injection E as <- <- <-.
      - split; [intros j [<-|J]; [split; [now left|exact Rj]|destruct (H1 j J); split; [now right|assumption]]|intros j J; destruct (H2 j J) as (? & ?); split; [now right|assumption]].
      - split; [intros j J; destruct (H1 j J); split; [now right|assumption]|intros j [<-|J]; [split; [now left|split; [exact Rj|exact Lt]]|destruct (H2 j J) as (? & ?); split; [now right|assumption]]]. }
    destruct (usable w (file, snd x)) as [(f & n)|] eqn:U.
    - apply bind_Ok in H as (line & L & H). apply bind_Ok in H as (g & G & H). destruct g.
      + apply IH in H as (H1 & H2); [|now apply update_same]. split; intros j J; [destruct (H1 j J)|destruct (H2 j J)]; (split; [now right|assumption]).
      + apply bind_Ok in H as (r' & H & E). injection E as E. apply (N r' H); [|exact E]. apply (rej_same _ (at_ scs i)); [now apply same_at|]. now apply (rej_bad _ _ x file f n line).
    - apply bind_Ok in H as (r' & H & E). injection E as E. apply (N r' H); [|exact E]. now apply (rej_unusable _ _ x file).
  Qed.
  Lemma scan_tried s addrs : forall b c i h, scan w a elf kdir rdir s (map (fun v => answer_text (ans v)) addrs) b c = Ok (None, i, h) -> Forall (rej s) addrs.
  Proof.
    induction addrs as [|v addrs IH]; intros b c i h H; cbn [scan map] in H; [constructor|]. apply bind_Ok in H as (x & X & H). apply bind_Ok in H as (file & R & H).
    destruct (usable w (file, snd x)) as [(f & n)|] eqn:U.
    - apply bind_Ok in H as (line & L & H). apply bind_Ok in H as (g & G & H). destruct g; [discriminate|]. constructor; [now apply (rej_bad _ _ x file f n line)|now apply IH in H].
    - constructor; [now apply (rej_unusable _ _ x file)|now apply IH in H].
  Qed.
  Lemma step3_tried scs0 l : forall scs scs' grep, Forall2 same_but_location scs0 scs -> step3 w a elf kdir rdir scs l = Ok (scs', grep) ->
    forall i, In i grep -> In i l /\ forall v, sym_real (sc_symbol (at_ scs0 i)) + 1 <= v <= sym_real (sc_symbol (at_ scs0 i)) + sym_size (sc_symbol (at_ scs0 i)) - 3 -> rej (at_ scs0 i) v.
  Proof.
    induction l as [|i l IH]; intros scs scs' grep F H j J; cbn [step3] in H; [injection H as _ <-; contradiction|]. rewrite (ask_says w ans _ S) in H. cbn [bind] in H.
    apply bind_Ok in H as (((fo & iv) & h) & X & H). destruct fo as [(f & line)|].
    - destruct (IH _ _ _ (update_same scs0 scs i (fun s => found_at s f line) F (fun s => eq_refl)) H j J) as (H1 & H2). split; [now right|exact H2].
    - destruct (negb iv && negb h); [discriminate|]. apply bind_Ok in H as ((s1 & g1) & H & E). injection E as <- <-. cbn [snd] in J. destruct J as [<-|J]; [|destruct (IH _ _ _ F H j J) as (H1 & H2); split; [now right|exact H2]].
      split; [now left|]. apply scan_tried in X. intros v V. rewrite Forall_forall in X. pose proof (same_at scs0 scs i F) as Si. assert (sc_symbol (at_ scs i) = sc_symbol (at_ scs0 i)) as Es by now rewrite Si.
      apply (rej_same _ (at_ scs i)); [exact Si|]. apply X. unfold inner_addrs. rewrite Es. apply zrange_in. lia.
  Qed.

  (** The addresses tried for a symbol. *)
  Definition tried (s : symbol) (v : Z) : Prop :=
    v = sym_real s \/ (1 < sym_size s /\ v = sym_real s + sym_size s - 1) \/ (sym_real s < v /\ v <= sym_real s + sym_size s - 3).
  Lemma search_tried kres scs scs' l : search_locations w a elf (Some kdir) rdir kres scs = Ok (scs', Grep l) ->
    forall i, In i l -> forall v, tried (sc_symbol (at_ scs i)) v -> rej (at_ scs i) v.
  Proof.
    intros H i I v T. unfold search_locations in H. rewrite (ask_says w ans _ S) in H. cbn [bind] in H. apply bind_Ok in H as (locs & Lo & H). apply bind_Ok in H as (r1 & R1 & H).
    pose proof (step1_all_same w a kdir rdir kres scs locs r1 R1) as F1. apply (step1_all_tried kres scs locs r1 Lo) in R1. set (scs1 := map (fun x => fst (fst x)) r1) in *. set (todos := map (fun x => snd (fst x)) r1) in *.
    destruct (negb _ && _); [discriminate|]. apply bind_Ok in H as (((scs2 & retry) & grep2) & R2 & H).
    assert (forall t j, t <> Done -> In j (positions t todos 0) -> rej (at_ scs j) (sym_real (sc_symbol (at_ scs j))) /\ t <> Retry /\
      (t = ToGrep -> sym_size (sc_symbol (at_ scs j)) <= 1) /\ (t = Adjust -> 1 < sym_size (sc_symbol (at_ scs j)))) as P1.
    { intros t j N J. apply positions_in in J as (k & E & J). cbn in E. subst k. unfold todos in J. rewrite nth_error_map in J. destruct (nth_error r1 j) as [x|] eqn:Ex; [|discriminate]. injection J as J. rewrite <- J in *.
      revert j Ex. clear -R1 N. induction R1 as [|s y scs r H R1 IH]; intros [|j] Ex; cbn in Ex; try discriminate; [injection Ex as ->; exact (proj2 H N)|apply (IH j Ex)]. }
    assert (Forall2 same_but_location scs scs2 /\
      (forall j, In j retry -> In j (positions Adjust todos 0) /\ rej (at_ scs j) (sym_real (sc_symbol (at_ scs j)) + sym_size (sc_symbol (at_ scs j)) - 1)) /\
      (forall j, In j grep2 -> In j (positions Adjust todos 0) /\ rej (at_ scs j) (sym_real (sc_symbol (at_ scs j)) + sym_size (sc_symbol (at_ scs j)) - 1) /\ sym_size (sc_symbol (at_ scs j)) <= 2)) as (F2 & P2 & P3).
    { destruct (_ =? _); [injection R2 as <- <- <-; split; [exact F1|split; intros ? []]|]. rewrite (ask_says w ans _ S) in R2. cbn [bind] in R2.
      pose proof (step2_same w a elf kdir rdir scs _ _ _ _ F1 R2) as F2. cbn [fst] in F2. apply (step2_tried scs (fun i => let s := sc_symbol (at_ scs1 i) in sym_real s + sym_size s - 1)) in R2 as (R2 & R3); [|exact F1].
      assert (forall j, sc_symbol (at_ scs1 j) = sc_symbol (at_ scs j)) as Es by (intros j; now rewrite (same_at scs scs1 j F1)).
      split; [exact F2|]. split; intros j J; [destruct (R2 j J) as (J1 & J2)|destruct (R3 j J) as (J1 & J2)]; cbn zeta in J2; rewrite Es in J2; (split; [|exact J2]); unfold by_name in J1; now apply sort_by_in in J1. }
    apply bind_Ok in H as ((scs3 & grep3) & R3 & H). pose proof (step3_tried scs _ _ _ _ F2 R3) as P4. destruct (existsb _ _); [discriminate|]. injection H as _ <-.
    apply in_app_iff in I as [I|I]; [|apply in_app_iff in I as [I|I]].
    - apply P1 in I as (I1 & _ & I2 & _); [|discriminate]. specialize (I2 eq_refl). destruct T as [->|[(T & ->)|(T1 & T2)]]; [exact I1|lia|lia].
    - destruct (P3 i I) as (J1 & J2 & J3). apply P1 in J1 as (I1 & _); [|discriminate]. destruct T as [->|[(T & ->)|(T1 & T2)]]; [exact I1|exact J2|lia].
    - destruct (P4 i I) as (J1 & J2). unfold by_name in J1. apply sort_by_in in J1. destruct (P2 i J1) as (J3 & J4). apply P1 in J3 as (I1 & _); [|discriminate]. destruct T as [->|[(T & ->)|(T1 & T2)]]; [exact I1|exact J4|]. apply J2. lia.
  Qed.
End Tried.

(** In terms of the specification. *)
Lemma rej_spec w ans elf kdir rdir a s v : rej w ans elf kdir rdir a s v ->
  forall f n content ls l text, place_of (path_parent elf) kdir rdir (ans v) f n -> w_file w f = Some content -> lines_of content ls ->
  adjusted ls n l -> nth_error ls (Z.to_nat (l - 1)) = Some text -> ~ accepts a (sc_origname s) text /\ ~ accepts a (sc_name s) text.
Proof.
  intros R f n content ls l text P W L A T. destruct (R f n P ltac:(congruence)) as (line & A' & G). 
  assert (n <= len ls) as B.
  { apply adjust_line_bound in A' as (c & E & B). assert (c = content) as -> by congruence. rewrite (lines_of_keep content ls L) in B. exact B. }
  apply (adjust_line_spec w f content ls n W L B) in A. assert (line = l) as -> by congruence.
  unfold good_location in G. rewrite W in G. change bytes with str in G. rewrite (lines_of_keep content ls L) in G. destruct (_ <? _)%nat; [discriminate|]. injection G as G. apply orb_false_iff in G as (G1 & G2).
  pose proof (nth_error_nth _ _ [] T) as X. match type of G1 with context [nth ?n ?l ?d] => replace (nth n l d) with text in * by (symmetry; exact X) end.
  split; intros D; apply good_definition_accepts in D; congruence.
Qed.
Lemma search_queried w ans a elf dir kdir rdir kres scs scs' l : addr2line_says (w_addr2line w) ans -> path_parent elf = dir ->
  search_locations w a elf (Some kdir) rdir kres scs = Ok (scs', Grep l) ->
  forall i s v, In i l -> nth_error scs i = Some s -> queried (sc_symbol s) v -> ~ points_to (w_file w) ans dir kdir rdir a s v.
Proof.
  intros S <- E i s v I Hs Q (f & n & content & ls & line & text & P & W & L & A & T & D). assert (at_ scs i = s) as Hat by (unfold at_; now apply nth_error_nth).
  pose proof (search_tried w ans elf kdir rdir a S kres scs scs' l E i I v) as R. rewrite Hat in R. specialize (R Q).
  destruct (rej_spec w ans elf kdir rdir a s v R f n content ls line text P W L A T) as (D1 & D2). destruct D; contradiction.
Qed.
