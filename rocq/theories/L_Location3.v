(** Lemmas for the properties of location.py: the stages. *)
From Coq Require Import List Bool Ascii String ZArith Lia Permutation.
From Verif Require Import PyBase PyFacts Regex RegexFacts RegexDen M_Utils M_Elf M_Syscall M_Arch M_Location
  S_Elf S_Signature S_Location L_Utils L_Signature3 L_Location L_Location2.
Import ListNotations.
Open Scope Z_scope.
Open Scope list_scope.

(** * Lists changed in place *)
Lemma update_length {A} (l : list A) i f : List.length (update l i f) = List.length l.
Proof. revert i. induction l as [|x l IH]; intros [|i]; cbn; auto. Qed.
Lemma at_update_ne scs i j f : i <> j -> at_ (update scs i f) j = at_ scs j.
Proof.
  unfold at_. revert i j. induction scs as [|x l IH]; intros [|i] [|j] N; cbn; try reflexivity; try congruence.
  apply IH. congruence.
Qed.
Lemma at_update_eq scs i f : (i < List.length scs)%nat -> at_ (update scs i f) i = f (at_ scs i).
Proof.
  unfold at_. revert i. induction scs as [|x l IH]; intros [|i] N; cbn in *; try lia; [reflexivity|]. apply IH. lia.
Qed.
Lemma update_out {A} (l : list A) i f : (List.length l <= i)%nat -> update l i f = l.
Proof. revert i. induction l as [|x l IH]; intros [|i] N; cbn in *; try reflexivity; try lia. f_equal. apply IH. lia. Qed.
Lemma Forall2_update {A B} (P : A -> B -> Prop) l m i f d : Forall2 P l m ->
  (forall x, P x (nth i m d) -> P x (f (nth i m d))) -> Forall2 P l (update m i f).
Proof.
  intros H. revert i. induction H as [|x y l m Hx H IH]; intros [|i] F; cbn; constructor; auto.
Qed.

(** * Good locations *)
Lemma good_location_spec w f l a s : good_location w f l a s = Ok true ->
  exists content text, w_file w f = Some content /\ line_text content l text /\ (accepts a (sc_origname s) text \/ accepts a (sc_name s) text).
Proof.
  intros H. unfold good_location in H. change bytes with str in H. destruct (w_file w f) as [content|]; [|discriminate]. exists content.
  destruct (_ <? _)%nat; [discriminate|]. injection H as H. apply orb_true_iff in H. rewrite !good_definition_accepts in H.
  destruct (nth_error (lines_keep content) (Z.to_nat (l - 1))) as [text|] eqn:E.
  - pose proof (nth_error_nth _ _ [] E) as X. match type of H with context [nth ?n ?l ?d] => replace (nth n l d) with text in H by (symmetry; exact X) end. exists text. split; [reflexivity|]. split; [|exact H]. exists (lines_keep content). split; [apply lines_of_ex|exact E].
  - apply nth_error_None in E. rewrite nth_overflow in H by exact E. destruct H as [H|H]; now apply accepts_ne in H.
Qed.

(** Nothing but the location has changed, and a good location is one. *)
Definition found (w : world) (a : arch) (s s' : syscall) : Prop :=
  same_but_location s s' /\ (sc_good s' = true -> well_located (w_file w) a s').
Lemma same_names s s' : same_but_location s s' -> sc_origname s' = sc_origname s /\ sc_name s' = sc_name s /\ sc_symbol s' = sc_symbol s /\ sc_esoteric s' = sc_esoteric s.
Proof. intros ->. auto. Qed.
Lemma same_refl s : same_but_location s s.
Proof. now destruct s. Qed.
Lemma same_trans a b c : same_but_location a b -> same_but_location b c -> same_but_location a c.
Proof. intros -> ->. reflexivity. Qed.
Lemma found_found_at w a s s' f l : same_but_location s s' -> good_location w f l a s' = Ok true -> found w a s (found_at s' f l).
Proof.
  intros S G. split; [apply (same_trans _ s'); [exact S|reflexivity]|]. intros _. apply good_location_spec in G as (content & text & E1 & E2 & E3).
  exists f, l, content, text. auto 8.
Qed.
Lemma found_grepped w a s s' f l : same_but_location s s' -> good_location w f l a s' = Ok true ->
  found w a s (set_grepped (found_at s' f l) true).
Proof.
  intros S G. split; [apply (same_trans _ s'); [exact S|reflexivity]|]. intros _. apply good_location_spec in G as (content & text & E1 & E2 & E3).
  exists f, l, content, text. auto 8.
Qed.

Lemma good_location_same w f l a s s' : same_but_location s s' -> good_location w f l a s' = good_location w f l a s.
Proof. intros H. destruct (same_names _ _ H) as (E1 & E2 & _). unfold good_location. now rewrite E1, E2. Qed.

Lemma step1_found w a kdir rdir kres s l r : sc_good s = false ->
  step1 w a kdir rdir kres s l = Ok r -> found w a s (fst (fst r)).
Proof.
  intros F H. unfold step1 in H. apply bind_Ok in H as (file & R & H).
  assert (forall s', same_but_location s s' -> sc_good s' = false -> found w a s s') as B by (intros s' H1 H2; split; [exact H1|congruence]).
  unfold usable in H. cbn [fst snd] in H. destruct file as [f|]; [|injection H as <-; apply B; reflexivity].
  destruct (snd l) as [n|]; [|injection H as <-; apply B; reflexivity]. destruct (w_file w f); [|injection H as <-; apply B; reflexivity].
  apply bind_Ok in H as (line & L & H). destruct (sc_esoteric _); [injection H as <-; apply B; reflexivity|].
  apply bind_Ok in H as (g & G & H). destruct g; injection H as <-; [|apply B; reflexivity]. cbn [fst].
  rewrite (good_location_same w f line a s) in G by reflexivity.
  split; [reflexivity|]. intros _. apply good_location_spec in G as (content & text & E1 & E2 & E3).
  exists f, line, content, text. auto 8.
Qed.
Lemma step1_all_found w a kdir rdir kres scs : forall locs r, Forall (fun s => sc_good s = false) scs ->
  step1_all w a kdir rdir kres scs locs = Ok r -> Forall2 (found w a) scs (map (fun x => fst (fst x)) r).
Proof.
  induction scs as [|s scs IH]; intros locs r F H; [destruct locs; cbn in H; injection H as <-; constructor|].
  inversion F; subst. destruct locs as [|l locs]; cbn [step1_all] in H.
  - injection H as <-. assert (forall l, Forall (fun s => sc_good s = false) l ->
      Forall2 (found w a) l (map (fun x : syscall * todo * bool => fst (fst x)) (map (fun s => (s, Done, false)) l))) as G.
    { induction 1; constructor; auto. split; [apply same_refl|cbn; congruence]. }
    apply (G (s :: scs)). exact F.
  - apply bind_Ok in H as (x & X & H). apply bind_Ok in H as (r' & R & H). injection H as <-. cbn [map]. constructor; [now apply step1_found in X|now apply (IH locs)].
Qed.
Lemma Forall2_nth {A B} (P : A -> B -> Prop) l m i d d' : Forall2 P l m -> (i < List.length m)%nat -> P (nth i l d) (nth i m d').
Proof. intros H. revert i. induction H; intros [|i] L; cbn in *; try lia; auto. apply IHForall2. lia. Qed.
Lemma Forall2_len2 {A B} (P : A -> B -> Prop) l m : Forall2 P l m -> List.length l = List.length m.
Proof. induction 1; cbn; congruence. Qed.

Lemma update_found w a scs0 scs i f (g : syscall -> syscall) : Forall2 (found w a) scs0 scs ->
  (forall s, found w a s (at_ scs i) -> found w a s (g (at_ scs i))) -> Forall2 (found w a) scs0 (update scs i g) /\ f = tt.
Proof.
  destruct f. intros F G. split; [|reflexivity]. revert i G. induction F as [|x y l m Hx H IH]; intros [|i] G; cbn; constructor; auto.
Qed.
Lemma step2_found w a elf kdir rdir scs0 l : forall scs answers r, Forall2 (found w a) scs0 scs ->
  step2 w a elf kdir rdir scs l answers = Ok r -> Forall2 (found w a) scs0 (fst (fst r)).
Proof.
  induction l as [|i l IH]; intros scs answers r F H; cbn [step2] in H; [now injection H as <-|].
  destruct answers as [|d answers]; [now injection H as <-|].
  apply bind_Ok in H as (x & X & H). apply bind_Ok in H as (file & R & H).
  assert (forall r', fst (fst (let '(scs, retry, grep) := r' in if 2 <? sym_size (sc_symbol (at_ scs i)) then (scs, i :: retry, grep) else (scs, retry, i :: grep)))
    = fst (fst r')) as N by (intros ((? & ?) & ?); destruct (_ <? _); reflexivity).
  destruct (usable w (file, snd x)) as [(f & n)|].
  - apply bind_Ok in H as (line & L & H). apply bind_Ok in H as (g & G & H). destruct g.
    + apply IH in H; [exact H|]. apply (update_found w a scs0 scs i tt); [exact F|]. intros s (S & _). now apply found_found_at.
    + apply bind_Ok in H as (r' & H & E). injection E as <-. rewrite N. now apply IH in H.
  - apply bind_Ok in H as (r' & H & E). injection E as <-. rewrite N. now apply IH in H.
Qed.
Lemma scan_good w a elf kdir rdir s answers : forall b c f line x y,
  scan w a elf kdir rdir s answers b c = Ok (Some (f, line), x, y) -> good_location w f line a s = Ok true.
Proof.
  induction answers as [|d answers IH]; intros b c f line x y H; cbn [scan] in H; [discriminate|].
  apply bind_Ok in H as (l & X & H). apply bind_Ok in H as (file & R & H). destruct (usable w (file, snd l)) as [(f' & n)|]; [|now apply IH in H].
  apply bind_Ok in H as (line' & L & H). apply bind_Ok in H as (g & G & H). destruct g; [|now apply IH in H]. injection H as -> -> _ _. exact G.
Qed.
Lemma step3_found w a elf kdir rdir scs0 l : forall scs r, Forall2 (found w a) scs0 scs ->
  step3 w a elf kdir rdir scs l = Ok r -> Forall2 (found w a) scs0 (fst r).
Proof.
  induction l as [|i l IH]; intros scs r F H; cbn [step3] in H; [now injection H as <-|].
  apply bind_Ok in H as (answers & A & H). apply bind_Ok in H as (((fo & invalid) & has) & X & H).
  destruct fo as [(f & line)|].
  - apply IH in H; [exact H|]. apply (update_found w a scs0 scs i tt); [exact F|]. intros s (S & _). apply found_found_at; [exact S|]. now apply scan_good in X.
  - destruct (negb invalid && negb has); [discriminate|]. apply bind_Ok in H as (r' & H & E). injection E as <-. now apply IH in H.
Qed.
Lemma step4_found w a scs0 l : forall scs r, Forall2 (found w a) scs0 scs ->
  step4 w a scs l = Ok r -> Forall2 (found w a) scs0 r.
Proof.
  induction l as [|(i & [(f & line)|]) l IH]; intros scs r F H; cbn [step4] in H; [now injection H as <-| |now apply (IH scs)].
  apply bind_Ok in H as (g & G & H). apply IH in H; [exact H|]. destruct g; [|exact F].
  apply (update_found w a scs0 scs i tt); [exact F|]. intros s (S & _). now apply found_grepped.
Qed.
Lemma no_sources_found w a scs locs : Forall (fun s => sc_good s = false) scs -> Forall2 (fun s s' => same_but_location s s' /\ sc_good s' = false) scs
  (map (fun x : syscall * loc => set_good (set_line (set_file (fst x) (fst (snd x))) (snd (snd x))) false) (combine scs locs) ++ skipn (List.length locs) scs)
  /\ w = w :> world /\ a = a :> arch.
Proof.
  intros F. split; [|auto]. revert locs. induction F as [|s scs H F IH]; intros locs; [destruct locs; constructor|].
  destruct locs as [|l locs]; cbn.
  - constructor; [split; [apply same_refl|exact H]|]. specialize (IH []). cbn in IH. destruct scs; [constructor|exact IH].
  - constructor; [split; reflexivity|apply IH].
Qed.

Lemma search_found w a elf kdir rdir kres scs r : Forall (fun s => sc_good s = false) scs ->
  search_locations w a elf kdir rdir kres scs = Ok r -> Forall2 (found w a) scs (fst r).
Proof.
  intros F H. unfold search_locations in H. apply bind_Ok in H as (answers & A & H). apply bind_Ok in H as (locs & L & H). destruct kdir as [kdir|].
  - apply bind_Ok in H as (r1 & R1 & H). apply step1_all_found in R1; [|exact F].
    destruct (negb _ && _); [injection H as <-; exact R1|]. apply bind_Ok in H as (((scs2 & retry) & grep2) & R2 & H).
    assert (Forall2 (found w a) scs scs2) as F2.
    { destruct (_ =? _); [injection R2 as <- _ _; exact R1|]. apply bind_Ok in R2 as (ans2 & A2 & R2). now apply (step2_found w a elf kdir rdir scs) in R2. }
    apply bind_Ok in H as ((scs3 & grep3) & R3 & H). apply (step3_found w a elf kdir rdir scs) in R3; [|exact F2]. 
    destruct (existsb _ _); injection H as <-; exact R3.
  - injection H as <-. cbn [fst]. destruct (no_sources_found w a scs locs F) as (N & _).
    eapply Forall2_weaken; [|exact N]. intros s s' (H1 & H2). split; [exact H1|congruence].
Qed.
Lemma extract_found w have a elf kdir rdir kres scs r : Forall (fun s => sc_good s = false) scs ->
  extract_syscall_locations w have a elf kdir rdir kres scs = Ok r -> Forall2 (found w a) scs r.
Proof.
  intros F H. unfold extract_syscall_locations in H. destruct have; cbn [negb] in H.
  - apply bind_Ok in H as ((scs1 & st) & S & H). apply search_found in S; [|exact F]. cbn [fst snd] in *.
    destruct kdir as [kdir|]; [|now injection H as <-]. destruct st; try (now injection H as <-).
    apply bind_Ok in H as (fo & G & H). now apply (step4_found w a scs) in H.
  - injection H as <-. induction F; constructor; auto. split; [apply same_refl|congruence].
Qed.
