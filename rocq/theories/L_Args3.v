(** Lemmas about the command line (C100): options and their values. *)
From Coq Require Import List Bool Ascii String ZArith Lia.
From Verif Require Import PyBase PyFacts M_Main M_Args S_Elf S_Signature S_Args L_Args L_Args2.
Import ListNotations.
Open Scope Z_scope.
Open Scope list_scope.

(** * Letters *)
Inductive ltail := LDone | LNeeds (o : opt) | LExtra.
Inductive letters : str -> list event -> ltail -> Prop :=
| lt_flag c o : letter o c -> flag o -> letters [c] [Switch o] LDone
| lt_next c o : letter o c -> valued o -> letters [c] [] (LNeeds o)
| lt_attached c o t v : letter o c -> valued o -> attached t v -> letters (c :: t) [Set_ o v] LDone
| lt_more c o e evs k : letter o c -> flag o -> letters e evs k -> letters (c :: e) (Switch o :: evs) k
| lt_extra c o d t : letter o c -> flag o -> (forall o', ~ letter o' d) -> d <> "="%char -> d <> "-"%char -> letters (c :: d :: t) [Switch o] LExtra.
Lemma letters_head s evs k : letters s evs k -> exists c e o, s = c :: e /\ letter o c.
Proof. intros [c o L _|c o L _|c o t v L _ _|c o e evs' k' L _ _|c o d t L _ _ _ _]; eauto. Qed.
Lemma letters_done s evs : letters s evs LDone -> spells [$"-" ++ s] evs.
Proof.
  intros H. remember LDone as k eqn:K. assert (exists cs os, cluster cs os /\ ((s = cs /\ cs <> [] /\ evs = map Switch os) \/
    exists c o t v, s = cs ++ c :: t /\ evs = map Switch os ++ [Set_ o v] /\ letter o c /\ valued o /\ attached t v)) as X.
  { induction H as [c o L F|c o L V|c o t v L V A|c o e evs k L F H IH|c o d t L F]; try discriminate K.
    - exists [c], [o]. split; [constructor; [now split|constructor]|]. left. split; [reflexivity|]. split; [discriminate|reflexivity].
    - exists [], []. split; [constructor|]. right. exists c, o, t, v. auto.
    - destruct (IH K) as (cs & os & C & [(-> & N & ->)|(c' & o' & t & v & -> & -> & R)]).
      + exists (c :: cs), (o :: os). split; [constructor; [now split|exact C]|]. left. split; [reflexivity|]. split; [discriminate|reflexivity].
      + exists (c :: cs), (o :: os). split; [constructor; [now split|exact C]|]. right. exists c', o', t, v. auto. }
  destruct X as (cs & os & C & [(-> & N & ->)|(c & o & t & v & -> & -> & L & V & A)]); [now apply sp_flags|now apply sp_attached].
Qed.
Lemma letters_needs s evs o v : letters s evs (LNeeds o) -> argument v -> spells [$"-" ++ s; v] (evs ++ [Set_ o v]).
Proof.
  intros H A. remember (LNeeds o) as k eqn:K. assert (exists cs os c, cluster cs os /\ s = cs ++ [c] /\ evs = map Switch os /\ letter o c /\ valued o) as (cs & os & c & C & -> & -> & L & V).
  { induction H as [c q L F|c q L V|c q t x L V|c q e evs k L F H IH|c q d t L F]; try discriminate K.
    - injection K as ->. exists [], [], c. split; [constructor|]. auto.
    - destruct (IH K) as (cs & os & c' & C & -> & -> & R). exists (c :: cs), (q :: os), c'. split; [constructor; [now split|exact C]|]. auto. }
  now apply sp_next.
Qed.
Lemma letters_extra s evs : letters s evs LExtra -> loose_word [$"-" ++ s] evs.
Proof.
  intros H. remember LExtra as k eqn:K. assert (exists cs os c t, cs <> [] /\ cluster cs os /\ s = cs ++ c :: t /\ evs = map Switch os /\ (forall o, ~ letter o c) /\ c <> "="%char /\ c <> "-"%char)
    as (cs & os & c & t & N & C & -> & -> & L & E & D).
  { induction H as [c q L F|c q L V|c q t x L V|c q e evs k L F H IH|c q d t L F Ld E D]; try discriminate K.
    - destruct (IH K) as (cs & os & c' & t & N & C & -> & -> & R). exists (c :: cs), (q :: os), c', t. split; [discriminate|]. split; [constructor; [now split|exact C]|]. auto.
    - exists [c], [q], d, t. split; [discriminate|]. split; [constructor; [now split|constructor]|]. auto 10. }
  now apply lw_partly.
Qed.
Lemma cluster_letters cs os s evs k : cluster cs os -> letters s evs k -> letters (cs ++ s) (map Switch os ++ evs) k.
Proof. intros C H. induction C as [|c o cs os (L & F) C IH]; [exact H|]. cbn [app map]. now apply lt_more. Qed.
Lemma flags_letters cs os : cluster cs os -> cs <> [] -> letters cs (map Switch os) LDone.
Proof.
  intros C N. destruct (exists_last N) as (cs1 & c & ->). apply Forall2_app_inv_l in C as (os1 & os2 & C1 & C2 & ->). inversion C2 as [|? o ? l (L & F) C3]; subst. inversion C3; subst.
  rewrite map_app. apply cluster_letters; [exact C1|]. now apply lt_flag.
Qed.
Lemma extra_letters cs os c t : cluster cs os -> cs <> [] -> (forall o, ~ letter o c) -> c <> "="%char -> c <> "-"%char -> letters (cs ++ c :: t) (map Switch os) LExtra.
Proof.
  intros C N L E D. destruct (exists_last N) as (cs1 & c1 & ->). apply Forall2_app_inv_l in C as (os1 & os2 & C1 & C2 & ->). inversion C2 as [|? o ? l (L1 & F) C3]; subst. inversion C3; subst.
  rewrite map_app, <- app_assoc. apply cluster_letters; [exact C1|]. now apply lt_extra.
Qed.

(** * Consuming them *)
Definition acts_of (evs : list event) : list (opt * str) := map (fun x => match x with Switch o => (o, []) | Set_ o v => (o, v) end) evs.
Definition next_letter (o : opt) (e : str) (rest : list word) : result (list (opt * str) * list str * list word) :=
  match e with
  | [] => consume_plain o rest
  | d :: e' => if Ascii.eqb d "="%char then consume_explicit o false true e' rest else consume_explicit o false false e rest
  end.
Lemma is_dash_false c : c <> "-"%char -> is_dash c = false.
Proof. intros N. unfold is_dash. destruct (Ascii.eqb_spec c dash) as [->|_]; [now elim N|reflexivity]. Qed.
Lemma consume_letter w o c r rest : letter o c -> consume_optional w (letter_tuple o c r) rest = next_letter o r rest.
Proof.
  intros L. apply letter_ok in L as [L _]. unfold letter_tuple, next_letter. destruct r as [|d v]; [reflexivity|].
  destruct (Ascii.eqb d "="); cbn [consume_optional]; now rewrite (is_dash_false c L).
Qed.
Lemma consume_flag o c e rest : stores o = false -> consume_explicit o false false (c :: e) rest =
  if is_dash c then inl SError
  else match dget str_eqb [dash; c] option_string_actions with
       | None => inr ([(o, [])], [dash :: c :: e], rest)
       | Some o' => x <~ next_letter o' e rest ;; let '(acts, extras, rest') := x in inr ((o, []) :: acts, extras, rest')
       end.
Proof.
  intros S. cbn [consume_explicit]. rewrite S. cbn [orb]. destruct (is_dash c) eqn:D; [reflexivity|]. destruct (dget _ _ _) as [o'|]; [|reflexivity]. f_equal.
Qed.
Lemma consume_stores o long sep e rest : stores o = true -> consume_explicit o long sep e rest = inr ([(o, e)], [], rest).
Proof. intros S. destruct e; cbn [consume_explicit]; now rewrite S. Qed.
Lemma attached_stores o t v rest : stores o = true -> attached t v -> next_letter o t rest = inr ([(o, v)], [], rest).
Proof.
  intros S [->|(-> & N & E)]; [cbn [next_letter app list_ascii_of_string]; rewrite Ascii.eqb_refl; now rewrite consume_stores|].
  unfold next_letter. destruct v as [|d v]; [congruence|]. destruct (Ascii.eqb_spec d "="%char) as [->|_]; [now elim (E v)|now rewrite consume_stores].
Qed.
Lemma more_letters o c e rest : stores o = false -> forall o', letter o' c -> next_letter o (c :: e) rest =
  (x <~ next_letter o' e rest ;; let '(acts, extras, rest') := x in inr ((o, []) :: acts, extras, rest')).
Proof.
  intros S o' L. pose proof (letter_ok _ _ L) as [D E]. change (next_letter o (c :: e) rest) with (if Ascii.eqb c "="%char then consume_explicit o false true e rest else consume_explicit o false false (c :: e) rest).
  destruct (Ascii.eqb_spec c "="%char) as [->|_]; [now elim E|]. rewrite consume_flag by exact S. rewrite is_dash_false by exact D. apply letter_lookup in L. now rewrite L.
Qed.
Lemma nl_complete s evs k : letters s evs k -> forall c e o rest, s = c :: e -> letter o c ->
  match k with
  | LDone => next_letter o e rest = inr (acts_of evs, [], rest)
  | LNeeds q => forall v, next_letter o e ((v, MArg) :: rest) = inr (acts_of (evs ++ [Set_ q v]), [], rest)
  | LExtra => exists x, next_letter o e rest = inr (acts_of evs, [x], rest)
  end.
Proof.
  intros H. induction H as [c q L F|c q L V|c q t x L V A|c q s evs k L F H IH|c q d t L F Ld E D]; intros c0 e0 o rest Es Lo; injection Es as <- <-; pose proof (letter_fun _ _ _ L Lo) as ->.
  - apply flag_stores in F. unfold next_letter, consume_plain. now rewrite F.
  - apply valued_stores in V. intros v. unfold next_letter, consume_plain. now rewrite V.
  - apply valued_stores in V. now apply attached_stores.
  - apply flag_stores in F. destruct (letters_head _ _ _ H) as (d & e & o' & -> & L'). specialize (IH d e o' rest eq_refl L'). pose proof (fun r => more_letters o d e r F o' L') as M. destruct k.
    + rewrite M, IH. reflexivity.
    + intros v. rewrite M, IH. reflexivity.
    + destruct IH as (x & IH). exists x. rewrite M, IH. reflexivity.
  - apply flag_stores in F. exists (dash :: d :: t). change (next_letter o (d :: t) rest) with (if Ascii.eqb d "="%char then consume_explicit o false true t rest else consume_explicit o false false (d :: t) rest).
    destruct (Ascii.eqb_spec d "="%char) as [->|_]; [now elim E|]. rewrite consume_flag by exact F. rewrite is_dash_false by exact D.
    destruct (dget _ _ _) as [o'|] eqn:X; [apply letter_lookup in X; now elim (Ld o')|reflexivity].
Qed.
Definition after (k : ltail) (evs : list event) (rest : list word) (acts : list (opt * str)) (ex : list str) (rest' : list word) : Prop :=
  match k with
  | LDone => acts = acts_of evs /\ ex = [] /\ rest' = rest
  | LNeeds o => exists v, rest = (v, MArg) :: rest' /\ acts = acts_of (evs ++ [Set_ o v]) /\ ex = []
  | LExtra => acts = acts_of evs /\ ex <> [] /\ rest' = rest
  end.
Lemma nl_sound n : forall e, (List.length e <= n)%nat -> forall o c rest, letter o c ->
  match next_letter o e rest with
  | inr (acts, ex, rest') => exists evs k, letters (c :: e) evs k /\ after k evs rest acts ex rest'
  | inl s => s = SError
  end.
Proof.
  induction n as [|n IH]; intros e Ln o c rest L; destruct (stores o) eqn:S.
  1,3: pose proof (proj2 (valued_stores o) S) as V; destruct e as [|d e];
    [unfold next_letter, consume_plain; rewrite S; destruct rest as [|(v & []) rest]; try reflexivity; exists [], (LNeeds o); split; [now apply lt_next|exists v; auto]|].
  1,2: assert (exists v, attached (d :: e) v) as (v & A) by
    (destruct (ascii_dec d "="%char) as [->|X]; [exists e; now left|exists (d :: e); right; split; [reflexivity|split; [discriminate|intros x Y; injection Y as Y _; now apply X]]]);
    rewrite (attached_stores o (d :: e) v) by assumption; exists [Set_ o v], LDone; split; [now apply lt_attached|repeat split].
  1,2: pose proof (proj2 (flag_stores o) S) as F; destruct e as [|d e]; [unfold next_letter, consume_plain; rewrite S; exists [Switch o], LDone; split; [now apply lt_flag|repeat split]|].
  - cbn in Ln. lia.
  - change (next_letter o (d :: e) rest) with (if Ascii.eqb d "="%char then consume_explicit o false true e rest else consume_explicit o false false (d :: e) rest).
    destruct (Ascii.eqb_spec d "="%char) as [->|X]; [destruct e; cbn [consume_explicit]; rewrite S; reflexivity|]. rewrite consume_flag by exact S.
    destruct (Ascii.eqb_spec d dash) as [->|D]; [reflexivity|]. rewrite is_dash_false by exact D. destruct (dget _ _ _) as [o'|] eqn:Lk.
    + apply letter_lookup in Lk. specialize (IH e ltac:(cbn in Ln; lia) o' d rest Lk). destruct (next_letter o' e rest) as [s|((acts & ex) & rest')]; [exact IH|]. cbn [rbind].
      destruct IH as (evs & k & H & A). exists (Switch o :: evs), k. split; [now apply lt_more|]. destruct k; cbn [after acts_of map] in *.
      * destruct A as (-> & -> & ->). repeat split.
      * destruct A as (v & -> & -> & ->). exists v. repeat split.
      * destruct A as (-> & Ne & ->). repeat split. exact Ne.
    + exists [Switch o], LExtra. split; [apply lt_extra; try assumption; intros o' L'; apply letter_lookup in L'; congruence|]. cbn. repeat split. discriminate.
Qed.

(** * Names *)
Lemma consume_name w o t e x rest : cut t e -> consume_optional w (name_tuple e ($"--" ++ x, o)) rest =
  match e with
  | None => consume_plain o rest
  | Some v => if stores o then inr ([(o, v)], [], rest) else inl SError
  end.
Proof.
  intros C. unfold name_tuple, consume_optional. cbn [fst snd]. destruct e as [v|]; [|reflexivity]. cbn. destruct (stores o) eqn:S; [now rewrite consume_stores|].
  destruct v; cbn [consume_explicit]; now rewrite S.
Qed.
