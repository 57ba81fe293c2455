(** Lemmas about the command line (C100): the whole line. *)
From Coq Require Import List Bool Ascii String ZArith Lia.
From Verif Require Import PyBase PyFacts M_Main M_Args S_Elf S_Signature S_Args L_Args L_Args2 L_Args3 L_Args4.
Import ListNotations.
Open Scope Z_scope.
Open Scope list_scope.

(** * Marks *)
Lemma classify_cons w ws : w <> $"--" -> classify (w :: ws) = (t <~ parse_optional w ;; l <~ classify ws ;; inr ((w, match t with Some t => MOpt t | None => MArg end) :: l)).
Proof. intros N. cbn [classify]. destruct (str_eqb w $"--") eqn:E; [now apply str_eqb_eq in E|reflexivity]. Qed.
Definition all_args (ws : list str) : list word := map (fun x => (x, MArg)) ws.
Lemma classify_dashes ws : classify ($"--" :: ws) = inr (($"--", MDashes) :: all_args ws).
Proof. reflexivity. Qed.
Lemma classify_clear ws : clear ws -> exists l, classify ws = inr l.
Proof.
  intros C. induction C as [|ws|w ws A C (l & IH)]; [now exists []|eexists; apply classify_dashes|]. destruct (list_eq_dec ascii_dec w $"--") as [->|N]; [eexists; apply classify_dashes|].
  rewrite classify_cons by exact N. pose proof (po_kind w N) as K. destruct (parse_optional w) as [s|t] eqn:E; [inversion K; subst; contradiction|]. cbn [rbind]. rewrite IH. eexists. reflexivity.
Qed.
Lemma clear_classify ws : match classify ws with inr _ => clear ws | inl s => s = SError /\ ~ clear ws end.
Proof.
  induction ws as [|w ws IH]; [constructor|]. destruct (list_eq_dec ascii_dec w $"--") as [->|N]; [constructor|]. rewrite classify_cons by exact N.
  pose proof (po_kind w N) as K. destruct (parse_optional w) as [s|t] eqn:E; cbn [rbind].
  - inversion K; subst. split; [reflexivity|]. intros C. inversion C; subst; [now apply N|contradiction].
  - destruct (classify ws) as [s|l]; cbn [rbind].
    + destruct IH as (-> & IH). split; [reflexivity|]. intros C. inversion C; subst; [now apply N|contradiction].
    + apply clear_cons; [|exact IH]. intros A. apply po_ambiguous in A. congruence.
Qed.
Lemma classify_inv w ws l : classify (w :: ws) = inr l -> w <> $"--" -> exists t lr, parse_optional w = inr t /\ classify ws = inr lr /\ l = (w, match t with Some t => MOpt t | None => MArg end) :: lr.
Proof.
  intros H N. rewrite classify_cons in H by exact N. destruct (parse_optional w) as [s|t]; [discriminate|]. cbn [rbind] in H. destruct (classify ws) as [s|lr]; [discriminate|]. cbn [rbind] in H. injection H as <-. now exists t, lr.
Qed.
Lemma no_options ws : existsb is_option (all_args ws) = false.
Proof. induction ws; auto. Qed.

(** * One option *)
Lemma argument_step w ws l : argument w -> classify (w :: ws) = inr l -> exists lr, classify ws = inr lr /\ l = (w, MArg) :: lr.
Proof.
  intros A H. apply classify_inv in H as (t & lr & P & C & ->); [|now apply argument_not_dashes]. rewrite (po_argument w A) in P. injection P as <-. now exists lr.
Qed.
Lemma letter_not_dashes o c r : letter o c -> "-"%char :: c :: r <> $"--".
Proof. intros L E. apply letter_ok in L as [L _]. injection E as E _. now apply L. Qed.
Lemma name_not_dashes p o t : abbreviates p o -> $"--" ++ p ++ t <> $"--".
Proof. intros A E. apply abbreviates_ne in A. destruct p; [now apply A|discriminate E]. Qed.
Lemma letters_step s evs k ws l : letters s evs k -> classify (($"-" ++ s) :: ws) = inr l ->
  exists c e o lr, s = c :: e /\ letter o c /\ classify ws = inr lr /\ l = ($"-" ++ s, MOpt (letter_tuple o c e)) :: lr.
Proof.
  intros H C. destruct (letters_head _ _ _ H) as (c & e & o & -> & L). apply classify_inv in C as (t & lr & P & C & ->); [|now apply (letter_not_dashes o)].
  cbn [app list_ascii_of_string] in P. rewrite (po_letter o c e L) in P. injection P as <-. exists c, e, o, lr. auto.
Qed.
Lemma spells_step ws evs rest l : spells ws evs -> classify (ws ++ rest) = inr l ->
  exists lr w t lw, classify rest = inr lr /\ l = (w, MOpt t) :: lw /\ consume_optional w t lw = inr (acts_of evs, [], lr) /\ (List.length lr <= List.length lw)%nat.
Proof.
  intros H C. assert (forall s evs, letters s evs LDone -> classify ([$"-" ++ s] ++ rest) = inr l ->
    exists lr w t lw, classify rest = inr lr /\ l = (w, MOpt t) :: lw /\ consume_optional w t lw = inr (acts_of evs, [], lr) /\ (List.length lr <= List.length lw)%nat) as D.
  { intros s ev Le X. destruct (letters_step _ _ _ _ _ Le X) as (c & e & o & lr & -> & L & Cr & ->). exists lr, ($"-" ++ c :: e), (letter_tuple o c e), lr.
    split; [exact Cr|]. split; [reflexivity|]. split; [|apply Nat.le_refl]. rewrite consume_letter by exact L. exact (nl_complete _ _ _ Le c e o lr eq_refl L). }
  assert (forall s evs q v, letters s evs (LNeeds q) -> argument v -> classify ([$"-" ++ s; v] ++ rest) = inr l ->
    exists lr w t lw, classify rest = inr lr /\ l = (w, MOpt t) :: lw /\ consume_optional w t lw = inr (acts_of (evs ++ [Set_ q v]), [], lr) /\ (List.length lr <= List.length lw)%nat) as Nx.
  { intros s ev q v Le A X. destruct (letters_step _ _ _ _ _ Le X) as (c & e & o & l1 & -> & L & Cr & ->). destruct (argument_step _ _ _ A Cr) as (lr & Cr' & ->).
    exists lr, ($"-" ++ c :: e), (letter_tuple o c e), ((v, MArg) :: lr). split; [exact Cr'|]. split; [reflexivity|]. split; [|apply Nat.le_succ_diag_r]. rewrite consume_letter by exact L.
    exact (nl_complete _ _ _ Le c e o lr eq_refl L v). }
  destruct H as [cs os N Cl|cs os c o t v Cl L V A|cs os c o v Cl L V A|p o Ab F|p o v Ab V|p o v Ab V A].
  - exact (D cs _ (flags_letters _ _ Cl N) C).
  - refine (D (cs ++ c :: t) _ _ C). apply cluster_letters; [exact Cl|now apply lt_attached].
  - replace (map Switch os) with (map Switch os ++ []) by apply app_nil_r. apply (Nx (cs ++ [c]) (map Switch os ++ []) o v); [|exact A|exact C]. apply cluster_letters; [exact Cl|now apply lt_next].
  - cbn [app] in C. replace p with (p ++ []) in C by apply app_nil_r. destruct (po_name p o [] None Ab (or_introl (conj eq_refl eq_refl))) as (x & P).
    apply classify_inv in C as (t & lr & P' & C & ->); [|now apply (name_not_dashes p o [])]. change (["-"%char; "-"%char] ++ p ++ []) with ($"--" ++ p ++ []) in *. rewrite P in P'. injection P' as <-.
    eexists lr, _, _, lr. split; [exact C|]. split; [reflexivity|]. split; [|apply Nat.le_refl]. etransitivity; [exact (consume_name _ o [] None x _ (or_introl (conj eq_refl eq_refl)))|]. apply flag_stores in F. unfold consume_plain. now rewrite F.
  - cbn [app] in C. assert (cut ($"=" ++ v) (Some v)) as Cu by (right; now exists v). destruct (po_name p o ($"=" ++ v) (Some v) Ab Cu) as (x & P).
    apply classify_inv in C as (t & lr & P' & C & ->); [|now apply (name_not_dashes p o ($"=" ++ v))]. rewrite P in P'. injection P' as <-.
    eexists lr, _, _, lr. split; [exact C|]. split; [reflexivity|]. split; [|apply Nat.le_refl]. etransitivity; [exact (consume_name _ o ($"=" ++ v) (Some v) x _ Cu)|]. apply valued_stores in V. now rewrite V.
  - cbn [app] in C. replace p with (p ++ []) in C by apply app_nil_r. destruct (po_name p o [] None Ab (or_introl (conj eq_refl eq_refl))) as (x & P).
    apply classify_inv in C as (t & l1 & P' & C & ->); [|now apply (name_not_dashes p o [])]. rewrite P in P'. injection P' as <-. destruct (argument_step _ _ _ A C) as (lr & Cr & ->).
    eexists lr, _, _, ((v, MArg) :: lr). split; [exact Cr|]. split; [reflexivity|]. split; [|apply Nat.le_succ_diag_r]. etransitivity; [exact (consume_name _ o [] None x _ (or_introl (conj eq_refl eq_refl)))|]. apply valued_stores in V. unfold consume_plain. now rewrite V.
Qed.
(** Parts of words, unknown options *)
Lemma extra_step ws evs rest l : loose_word ws evs -> classify (ws ++ rest) = inr l -> spells ws evs \/ (exists w, argument w /\ ws = [w] /\ evs = []) \/
  exists lr w t lw x, classify rest = inr lr /\ l = (w, MOpt t) :: lw /\ consume_optional w t lw = inr (acts_of evs, [x], lr) /\ (List.length lr <= List.length lw)%nat.
Proof.
  intros [ws' evs' S|cs os c t N Cl L E D|w U|w A] C; [now left| | |right; left; now exists w].
  - right. right. pose proof (extra_letters cs os c t Cl N L E D) as Le. destruct (letters_step _ _ _ _ _ Le C) as (c0 & e & o & lr & Es & L0 & Cr & ->).
    destruct (nl_complete _ _ _ Le c0 e o lr Es L0) as (x & X). eexists lr, _, _, lr, x. split; [exact Cr|]. split; [reflexivity|]. split; [|apply Nat.le_refl]. now rewrite consume_letter.
  - right. right. pose proof (po_unknown w U) as P. assert (w <> $"--") as Nd by (intros ->; vm_compute in P; discriminate). apply classify_inv in C as (t & lr & P' & C & ->); [|exact Nd].
    rewrite P in P'. injection P' as <-. exists lr, w, (None, w, None, None), lr, w. split; [exact C|]. split; [reflexivity|]. split; [reflexivity|apply Nat.le_refl].
Qed.
Lemma option_sound ws w t lw : classify ws = inr ((w, MOpt t) :: lw) ->
  match consume_optional w t lw with
  | inr (acts, ex, lr) => exists ws1 ws2 evs, ws = ws1 ++ ws2 /\ classify ws2 = inr lr /\ acts = acts_of evs /\ loose_word ws1 evs /\ (ex = [] -> spells ws1 evs) /\ (List.length lr <= List.length lw)%nat
  | inl s => s = SError
  end.
Proof.
  destruct ws as [|w0 ws]; [discriminate|]. intros C. destruct (list_eq_dec ascii_dec w0 $"--") as [->|N]; [rewrite classify_dashes in C; injection C as _ C _; discriminate|].
  apply classify_inv in C as (t0 & lr & P & C & E); [|exact N]. injection E as -> E <-. destruct t0 as [t0|]; [injection E as <-|discriminate]. pose proof (po_kind w0 N) as K. rewrite P in K.
  assert (forall v rest', lw = (v, MArg) :: rest' -> exists ws2, ws = v :: ws2 /\ argument v /\ classify ws2 = inr rest') as Arg.
  { intros v rest' ->. destruct ws as [|v0 ws2]; [discriminate|]. destruct (list_eq_dec ascii_dec v0 $"--") as [->|Nv]; [rewrite classify_dashes in C; injection C as _ C _; discriminate|].
    apply classify_inv in C as (tv & lr & Pv & Cv & E); [|exact Nv]. injection E as -> Et ->. exists ws2. split; [reflexivity|]. split; [|exact Cv].
    destruct tv; [discriminate|]. pose proof (po_kind v0 Nv) as Kv. rewrite Pv in Kv. now inversion Kv. }
  inversion K as [|o c r L|p o tt e x Ab Cu|w' U|]; subst.
  - rewrite consume_letter by exact L. pose proof (nl_sound (List.length r) r (Nat.le_refl _) o c lw L) as S. destruct (next_letter o r lw) as [s|((acts & ex) & lr)]; [exact S|].
    destruct S as (evs & k & Le & A). destruct k as [|q|]; cbn [after] in A.
    + destruct A as (-> & -> & ->). exists [$"-" ++ c :: r], ws, evs. split; [reflexivity|]. split; [exact C|]. split; [reflexivity|]. pose proof (letters_done _ _ Le) as Sp. split; [now apply lw_spells|]. split; [auto|apply Nat.le_refl].
    + destruct A as (v & E & -> & ->). destruct (Arg _ _ E) as (ws2 & -> & Av & C2). exists [$"-" ++ c :: r; v], ws2, (evs ++ [Set_ q v]). split; [reflexivity|]. split; [exact C2|]. split; [reflexivity|].
      pose proof (letters_needs _ _ _ _ Le Av) as Sp. split; [now apply lw_spells|]. split; [auto|]. subst lw. apply Nat.le_succ_diag_r.
    + destruct A as (-> & Ne & ->). exists [$"-" ++ c :: r], ws, evs. split; [reflexivity|]. split; [exact C|]. split; [reflexivity|]. split; [now apply letters_extra|]. split; [contradiction|apply Nat.le_refl].
  - rewrite (consume_name _ o tt e x lw Cu). destruct Cu as [(-> & ->)|(v & -> & ->)].
    + unfold consume_plain. destruct (stores o) eqn:S.
      * destruct lw as [|(v & []) lw']; try reflexivity. destruct (Arg _ _ eq_refl) as (ws2 & -> & Av & C2). exists [$"--" ++ p; v], ws2, [Set_ o v]. split; [rewrite app_nil_r; reflexivity|]. split; [exact C2|]. split; [reflexivity|].
        assert (spells [$"--" ++ p; v] [Set_ o v]) as Sp by (apply sp_name_next; [exact Ab|now apply valued_stores|exact Av]). split; [now apply lw_spells|]. split; [auto|apply Nat.le_succ_diag_r].
      * exists [$"--" ++ p], ws, [Switch o]. split; [rewrite app_nil_r; reflexivity|]. split; [exact C|]. split; [reflexivity|].
        assert (spells [$"--" ++ p] [Switch o]) as Sp by (apply sp_name; [exact Ab|now apply flag_stores]). split; [now apply lw_spells|]. split; [auto|apply Nat.le_refl].
    + destruct (stores o) eqn:S; [|reflexivity]. exists [$"--" ++ p ++ $"=" ++ v], ws, [Set_ o v]. split; [reflexivity|]. split; [exact C|]. split; [reflexivity|].
      assert (spells [$"--" ++ p ++ $"=" ++ v] [Set_ o v]) as Sp by (apply sp_name_equals; [exact Ab|now apply valued_stores]). split; [now apply lw_spells|]. split; [auto|apply Nat.le_refl].
  - cbn [consume_optional]. exists [w0], ws, []. split; [reflexivity|]. split; [exact C|]. split; [reflexivity|]. split; [now apply lw_unknown|]. split; [discriminate|apply Nat.le_refl].
Qed.
