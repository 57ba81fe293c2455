(** Lemmas for C97: a location found at the first address stays, and the signature is the one
    declared there. *)
From Coq Require Import List Bool Ascii String ZArith Lia Permutation Sorted.
From Verif Require Import PyBase PyFacts Regex M_Utils M_Elf M_Syscall M_Arch M_Build M_Signature M_Location M_Annotate
  S_Elf S_Build S_Signature S_Kernel S_Location S_Declared L_Utils L_ElfText L_Signature L_Signature2 L_Signature3 L_Location L_Location2 L_Location3 L_Location4
  L_Location5 L_Location6 L_Location7 L_Location8 L_Location9.
Import ListNotations.
Open Scope Z_scope.
Open Scope list_scope.

(** * What a stage is not asked about stays *)

Lemma step2_keep w a elf kdir rdir i l : forall scs answers scs' retry grep, ~ In i l ->
  step2 w a elf kdir rdir scs l answers = Ok (scs', retry, grep) -> at_ scs' i = at_ scs i /\ ~ In i retry /\ ~ In i grep.
Proof.
  induction l as [|j l IH]; intros scs answers scs' retry grep N H.
  - cbn in H. injection H as <- <- <-. auto.
  - destruct answers as [|d answers]; [cbn in H; injection H as <- <- <-; auto|]. cbn [step2] in H. apply bind_Ok in H as (x & X & H). apply bind_Ok in H as (file & R & H).
    assert (i <> j /\ ~ In i l) as (N1 & N2) by (split; intros Y; apply N; [now left|now right]).
    assert (forall r, step2 w a elf kdir rdir scs l answers = Ok r ->
      (let '(scs, retry, grep) := r in if 2 <? sym_size (sc_symbol (at_ scs j)) then (scs, j :: retry, grep) else (scs, retry, j :: grep)) = (scs', retry, grep) ->
      at_ scs' i = at_ scs i /\ ~ In i retry /\ ~ In i grep) as M.
    { intros ((s1 & r1) & g1) E1 E2. apply IH in E1 as (E3 & E4 & E5); [|exact N2]. destruct (2 <? _) in E2; injection E2 as <- <- <-; (split; [exact E3|]); split; cbn; intros Y; repeat destruct Y as [Y|Y]; congruence || contradiction. }
    destruct (usable w _) as [(f & n)|].
    + apply bind_Ok in H as (line & L & H). apply bind_Ok in H as (g & G & H). destruct g.
      * apply IH in H as (H1 & H2); [|exact N2]. rewrite at_update_ne in H1 by congruence. auto.
      * apply bind_Ok in H as (r & R' & H). injection H as H. now apply (M r).
    + apply bind_Ok in H as (r & R' & H). injection H as H. now apply (M r).
Qed.
Lemma step3_keep w a elf kdir rdir i l : forall scs scs' grep, ~ In i l ->
  step3 w a elf kdir rdir scs l = Ok (scs', grep) -> at_ scs' i = at_ scs i /\ ~ In i grep.
Proof.
  induction l as [|j l IH]; intros scs scs' grep N H.
  - cbn in H. injection H as <- <-. auto.
  - cbn [step3] in H. apply bind_Ok in H as (answers & A & H). apply bind_Ok in H as (((found & invalid) & has) & X & H).
    assert (i <> j /\ ~ In i l) as (N1 & N2) by (split; intros Y; apply N; [now left|now right]).
    destruct found as [(f & line)|].
    + apply IH in H as (H1 & H2); [|exact N2]. rewrite at_update_ne in H1 by congruence. auto.
    + destruct (negb invalid && negb has); [discriminate|]. apply bind_Ok in H as ((s1 & g1) & R & H). cbn [fst snd] in H. injection H as <- <-. apply IH in R as (R1 & R2); [|exact N2].
      split; [exact R1|]. intros [Y|Y]; congruence || contradiction.
Qed.
Lemma step4_keep w a i l : forall scs r, ~ In i (map fst l) -> step4 w a scs l = Ok r -> at_ r i = at_ scs i.
Proof.
  induction l as [|(j & [(f & line)|]) l IH]; intros scs r N H; cbn [step4] in H.
  - now injection H as <-.
  - assert (i <> j /\ ~ In i (map fst l)) as (N1 & N2) by (split; intros Y; apply N; [now left|now right]).
    apply bind_Ok in H as (g & G & H). apply IH in H; [|exact N2]. rewrite H. destruct g; [|reflexivity]. apply at_update_ne. congruence.
  - apply IH in H; [exact H|]. intros Y. apply N. now right.
Qed.
Lemma grep_asked {A} w kdir a (scs : list (A * syscall)) r x : grep_kernel_sources w kdir a scs = Ok r -> In x (map fst r) -> In x (map fst scs).
Proof.
  intros H I. apply grep_spec in H as (out & given & left & _ & P & _ & F). apply in_map_iff in I as (y & <- & I).
  assert (exists z, In z given /\ fst y = fst (fst z)) as (z & Iz & E).
  { clear P. induction F as [|y' z r given (E & _) F IH]; [contradiction|]. destruct I as [->|I]; [exists z; split; [now left|exact E]|]. destruct (IH I) as (z' & I' & E'). exists z'. split; [now right|exact E']. }
  rewrite E. apply in_map. apply (Permutation_in _ P). now apply in_map.
Qed.

(** * The first address *)

Section First.
  Variables (w : world) (ans : Z -> answer) (elf kdir : path) (rdir : option path) (a : arch).
  Hypothesis S : addr2line_says (w_addr2line w) ans.

  (** What the code does with such an address. *)
  Definition hit (s : syscall) (v : Z) (f : path) (l : Z) : Prop :=
    exists n, place_of (path_parent elf) kdir rdir (ans v) f n /\ w_file w f <> None /\
      (forall x, adjust_line w f n = Ok x -> x = l /\ good_location w f l a s = Ok true).

  Lemma step1_hit kres s f l lc s' t b : sc_esoteric s = false -> hit s (sym_real (sc_symbol s)) f l ->
    smart_loc elf (Some kdir) (answer_text (ans (sym_real (sc_symbol s)))) = Ok lc ->
    step1 w a kdir rdir kres s lc = Ok (s', t, b) -> t = Done /\ sc_file s' = Some f /\ sc_line s' = Some l /\ sc_good s' = true.
  Proof.
    intros Es (n & P & W & A) Sm H. unfold step1 in H. apply bind_Ok in H as (file & R & H).
    rewrite (usable_place w elf kdir rdir _ _ _ _ _ (proj1 S _) Sm R P W) in H. apply bind_Ok in H as (line & L & H). destruct (A line L) as (-> & G).
    cbn [sc_esoteric set_line set_good set_file] in H. rewrite Es in H.
    assert (good_location w f l a (set_line (set_good (set_file s file) false) (Some l)) = Ok true) as G' by (rewrite <- G; reflexivity).
    rewrite G' in H. cbn [bind] in H. injection H as <- <- <-. split; [reflexivity|]. cbn [sc_file sc_line sc_good set_good set_line set_file]. split; [|auto].
    pose proof (usable_place w elf kdir rdir _ _ _ _ _ (proj1 S _) Sm R P W) as U. unfold usable in U. destruct file as [f'|]; [|discriminate]. destruct (snd lc); [|discriminate]. destruct (w_file w f'); [|discriminate]. congruence.
  Qed.
  Lemma step1_all_hit kres scs : forall locs r, mapM (smart_loc elf (Some kdir)) (map (fun v => answer_text (ans v)) (map (fun s => sym_real (sc_symbol s)) scs)) = Ok locs ->
    step1_all w a kdir rdir kres scs locs = Ok r ->
    forall i s f l, nth_error scs i = Some s -> sc_esoteric s = false -> hit s (sym_real (sc_symbol s)) f l ->
    exists x, nth_error r i = Some x /\ snd (fst x) = Done /\ sc_file (fst (fst x)) = Some f /\ sc_line (fst (fst x)) = Some l /\ sc_good (fst (fst x)) = true.
  Proof.
    induction scs as [|s scs IH]; intros locs r M H i s0 f l I Es Hi; cbn [map mapM] in M; [destruct i; discriminate|].
    apply bind_Ok in M as (lc & L & M). apply bind_Ok in M as (ls & Ls & M). injection M as <-. cbn [step1_all] in H. apply bind_Ok in H as (x & X & H). apply bind_Ok in H as (r' & R & H). injection H as <-.
    destruct i as [|i]; cbn in I.
    - injection I as ->. exists x. split; [reflexivity|]. destruct x as ((s' & t) & b). now apply (step1_hit kres s0 f l lc s' t b).
    - cbn [nth_error]. now apply (IH ls r' Ls R i s0).
  Qed.

  Lemma search_hit kres scs scs' st i s f l : search_locations w a elf (Some kdir) rdir kres scs = Ok (scs', st) ->
    nth_error scs i = Some s -> sc_esoteric s = false -> hit s (sym_real (sc_symbol s)) f l ->
    sc_file (at_ scs' i) = Some f /\ sc_line (at_ scs' i) = Some l /\ sc_good (at_ scs' i) = true /\ forall g, st = Grep g -> ~ In i g.
  Proof.
    intros H I Es Hi. unfold search_locations in H. rewrite (ask_says w ans _ S) in H. cbn [bind] in H. apply bind_Ok in H as (locs & Lo & H). apply bind_Ok in H as (r1 & R1 & H).
    destruct (step1_all_hit kres scs locs r1 Lo R1 i s f l I Es Hi) as (x & X & T & G1 & G2 & G3). clear R1 Lo.
    set (scs1 := map (fun x => fst (fst x)) r1) in *. set (todos := map (fun x => snd (fst x)) r1) in *.
    assert (at_ scs1 i = fst (fst x)) as E1 by (unfold scs1; now apply (at_map (fun x => fst (fst x)) r1 i x)).
    assert (nth_error todos i = Some Done) as ET by (unfold todos; rewrite nth_error_map, X; cbn; now rewrite T).
    assert (forall t, t <> Done -> ~ In i (positions t todos 0)) as NP.
    { intros t N Y. apply positions_in in Y as (j & E & Y). cbn in E. subst j. congruence. }
    rewrite <- E1 in G1, G2, G3. destruct (negb _ && _); [injection H as <- <-; repeat (split; [assumption|]); discriminate|].
    apply bind_Ok in H as (((scs2 & retry) & grep2) & R2 & H).
    assert (at_ scs2 i = at_ scs1 i /\ ~ In i retry /\ ~ In i grep2) as (E2 & N1 & N2).
    { destruct (_ =? _); [injection R2 as <- <- <-; auto|]. rewrite (ask_says w ans _ S) in R2. cbn [bind] in R2. apply step2_keep with (i := i) in R2; [exact R2|].
      unfold by_name. intros Y. apply sort_by_in in Y. now apply (NP Adjust). }
    apply bind_Ok in H as ((scs3 & grep3) & R3 & H). apply step3_keep with (i := i) in R3 as (E3 & N3); [|unfold by_name; intros Y; now apply sort_by_in in Y].
    rewrite <- E2, <- E3 in G1, G2, G3. destruct (existsb snd r1); injection H as <- <-; repeat (split; [assumption|]); [discriminate|].
    intros g E Y. injection E as <-. apply in_app_iff in Y as [Y|Y]; [now apply (NP ToGrep)|]. apply in_app_iff in Y as [Y|Y]; contradiction.
  Qed.
  Lemma extract_hit kres scs r i s f l : extract_syscall_locations w true a elf (Some kdir) rdir kres scs = Ok r ->
    nth_error scs i = Some s -> sc_esoteric s = false -> hit s (sym_real (sc_symbol s)) f l ->
    sc_file (at_ r i) = Some f /\ sc_line (at_ r i) = Some l /\ sc_good (at_ r i) = true.
  Proof.
    intros H I Es Hi. unfold extract_syscall_locations in H. cbn [negb] in H. apply bind_Ok in H as ((scs' & st) & H & K). cbn [fst snd] in K.
    destruct (search_hit kres scs scs' st i s f l H I Es Hi) as (G1 & G2 & G3 & N). destruct st; try (injection K as <-; auto).
    apply bind_Ok in K as (found & F & K). apply step4_keep with (i := i) in K; [rewrite K; auto|].
    unfold sort_grepped. intros Y. apply in_map_iff in Y as (y & E & Y). apply sort_by_in in Y. assert (In i (map fst found)) as Z by (rewrite <- E; now apply in_map).
    apply (grep_asked _ _ _ _ _ _ F) in Z. rewrite map_map in Z. cbn [fst] in Z. rewrite map_id in Z. now apply (N l0 eq_refl).
  Qed.
End First.
