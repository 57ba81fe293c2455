(** Lemmas about the command line (C100): what is accepted, and when help or version are shown. *)
From Coq Require Import List Bool Ascii String ZArith Lia.
From Verif Require Import PyBase PyFacts M_Main M_Args S_Elf S_Signature S_Args L_Args L_Args2 L_Args3 L_Args4 L_Args5 L_Args6.
Import ListNotations.
Open Scope Z_scope.
Open Scope list_scope.

Lemma gline_cons p ws evs ws' evs' w : spells ws evs -> gline p ws' evs' w -> gline p (ws ++ ws') (evs ++ evs') w.
Proof.
  intros S. destruct p; cbn; [|now apply ops_cons]. intros L. destruct L as [ws1 e1 O|ws1 e1 w ws2 e2 O A O2|ws1 e1 O|ws1 e1 w O|ws1 e1 w O A]; rewrite ?app_assoc.
  - apply line_options. now apply ops_cons.
  - apply line_word; [now apply ops_cons|exact A|exact O2].
  - apply line_dashes. now apply ops_cons.
  - apply line_dashes_word. now apply ops_cons.
  - apply line_word_dashes; [now apply ops_cons|exact A].
Qed.
Lemma no_dashes_before ws l : classify ws = inr l -> existsb is_option l = true -> skip_dashes l = O.
Proof.
  intros C E. destruct ws as [|w ws]; [now injection C as <-|]. destruct (list_eq_dec ascii_dec w $"--") as [->|N].
  - rewrite classify_dashes in C. injection C as <-. cbn [existsb is_option snd orb] in E. rewrite no_options in E. discriminate.
  - apply classify_inv in C as (t & lr & _ & _ & ->); [|exact N]. destruct t; reflexivity.
Qed.
Definition reached (s : stop) (ws : list str) : Prop :=
  exists o ws1 rest evs evs', halt o s /\ ws = ws1 ++ rest /\ loose ws1 (evs ++ Switch o :: evs') /\ harmless evs.
Lemma reached_cons s ws evs ws' : loose_word ws evs -> harmless evs -> reached s ws' -> reached s (ws ++ ws').
Proof.
  intros L H (o & w1 & r & a & b & Ha & -> & Lo & Hs). exists o, (ws ++ w1), r, (evs ++ a), b. split; [exact Ha|]. split; [now rewrite app_assoc|]. rewrite <- app_assoc. split; [now apply ls_cons|]. now apply harmless_app.
Qed.

(** * Whatever is accepted *)
Ltac turn R := match goal with |- context [consume_loop ?a ?b ?c ?d ?e] => rewrite (R : consume_loop a b c d e = _) end.
Lemma loop_sound n : forall fuel ws l p g ex, classify ws = inr l -> (List.length l <= n)%nat -> (List.length l <= fuel)%nat ->
  match (x <~ consume_loop fuel p g ex l ;; close x) with
  | inr g' => ex = [] /\ exists evs w, gline p ws evs w /\ harmless evs /\ Forall proper evs /\ g' = if p then set_vmlinux w (run evs g) else run evs g
  | inl s => s = SError \/ reached s ws
  end.
Proof.
  induction n as [|n IH]; intros fuel ws l p g ex C Ln Lf.
  all: destruct (existsb is_option l) eqn:E; [|rewrite loop_done by exact E; cbn [rbind]; pose proof (close_sound ws l p g ex C E) as X; destruct (close (p, g, ex, l)) as [s|g'];
    [left; exact X|destruct X as (-> & w & G & ->); split; [reflexivity|]; exists [], w; split; [exact G|]; split; [apply harmless_nil|]; split; [constructor|reflexivity]]].
  - destruct l; [discriminate E|cbn in Ln; lia].
  - destruct l as [|(w & m) l]; [discriminate E|]. destruct fuel as [|fuel]; [cbn in Lf; lia|]. cbn [List.length] in Ln, Lf. apply le_S_n in Ln. apply le_S_n in Lf. destruct m as [t| |].
    + rewrite loop_option. pose proof (option_sound ws w t l C) as O. destruct (consume_optional w t l) as [s|((acts & e) & lr)]; cbn [rbind]; [now left|].
      destruct O as (ws1 & ws2 & evs & -> & C2 & -> & Lo & Sp & Le). pose proof (take_sound evs (loose_proper _ _ Lo) g) as T.
      destruct (take_actions (acts_of evs) g) as [s|g2]; cbn [rbind].
      * destruct T as [T|(o & a & b & Ha & -> & Hs)]; [now left|right]. exists o, ws1, ws2, a, b. split; [exact Ha|]. split; [reflexivity|]. split; [|exact Hs]. rewrite <- (app_nil_r ws1), <- (app_nil_r (a ++ _)). apply ls_cons; [exact Lo|constructor].
      * destruct T as (Hs & ->). specialize (IH fuel ws2 lr p (run evs g) (ex ++ e) C2 (Nat.le_trans _ _ _ Le Ln) (Nat.le_trans _ _ _ Le Lf)).
        destruct (x <~ consume_loop fuel p (run evs g) (ex ++ e) lr ;; close x) as [s|g'].
        -- destruct IH as [IH|IH]; [now left|right]. now apply (reached_cons s ws1 evs ws2).
        -- destruct IH as (X & evs2 & v & G & H2 & P2 & ->). apply app_eq_nil in X as [-> ->]. split; [reflexivity|]. exists (evs ++ evs2), v. specialize (Sp eq_refl).
           split; [now apply gline_cons|]. split; [now apply harmless_app|]. split; [apply Forall_app; split; [now apply loose_proper in Lo|exact P2]|]. now rewrite run_app.
    + destruct ws as [|w0 ws]; [discriminate|]. destruct (list_eq_dec ascii_dec w0 $"--") as [->|N]; [rewrite classify_dashes in C; injection C as _ C _; discriminate|].
      apply classify_inv in C as (t & lr & P & C & X); [|exact N]. injection X as -> X ->. destruct t as [t|]; [discriminate|].
      assert (argument w0) as A by (pose proof (po_kind w0 N) as K; rewrite P in K; now inversion K). cbn [existsb is_option snd orb] in E.
      assert (forall s, reached s ws -> reached s (w0 :: ws)) as Rc by (intros s; apply (reached_cons s [w0] []); [now apply lw_argument|apply harmless_nil]).
      destruct p.
      * turn (loop_word fuel g ex w0 lr E (no_dashes_before _ _ C E) N). specialize (IH fuel ws lr false (set_vmlinux (Some w0) g) ex C Ln Lf).
        match goal with |- match ?m with _ => _ end => change m with (x <~ consume_loop fuel false (set_vmlinux (Some w0) g) ex lr ;; close x) end.
        destruct (x <~ consume_loop fuel false (set_vmlinux (Some w0) g) ex lr ;; close x) as [s|g'].
        -- destruct IH as [IH|IH]; [now left|right]. now apply Rc.
        -- destruct IH as (-> & evs2 & v & G & H2 & P2 & ->). split; [reflexivity|]. exists evs2, (Some w0). split; [apply (line_word [] [] w0 ws evs2); [constructor|exact A|exact G]|].
           split; [exact H2|]. split; [exact P2|]. apply set_run.
      * turn (loop_extra fuel g ex w0 lr E). specialize (IH (S fuel) ws lr false g (ex ++ [w0]) C Ln (Nat.le_trans _ _ _ Lf (Nat.le_succ_diag_r _))).
        match goal with |- match ?m with _ => _ end => change m with (x <~ consume_loop (S fuel) false g (ex ++ [w0]) lr ;; close x) end.
        destruct (x <~ consume_loop (S fuel) false g (ex ++ [w0]) lr ;; close x) as [s|g'].
        -- destruct IH as [IH|IH]; [now left|right]. now apply Rc.
        -- destruct IH as (Y & _). apply app_eq_nil in Y as [_ Y]. discriminate Y.
    + destruct ws as [|w0 ws]; [discriminate|]. destruct (list_eq_dec ascii_dec w0 $"--") as [->|N].
      * rewrite classify_dashes in C. injection C as <- <-. cbn [existsb is_option snd orb] in E. rewrite no_options in E. discriminate.
      * apply classify_inv in C as (t & lr & P & C & X); [|exact N]. injection X as _ X _. destruct t; discriminate.
Qed.

(** * Whatever is meant *)
Lemma argument_clear v : argument v -> ~ ambiguous v.
Proof. intros A B. apply po_ambiguous in B. rewrite (po_argument v A) in B. discriminate. Qed.
Lemma spells_clear ws evs rest : spells ws evs -> clear rest -> clear (ws ++ rest).
Proof.
  intros S C. assert (forall s evs k, letters s evs k -> ~ ambiguous ($"-" ++ s)) as Kl.
  { intros s ev k L. destruct (letters_head _ _ _ L) as (c & e & o & -> & Lo). intros B. apply po_ambiguous in B. cbn [app list_ascii_of_string] in B. rewrite (po_letter o c e Lo) in B. discriminate. }
  assert (forall p o t e, abbreviates p o -> cut t e -> ~ ambiguous ($"--" ++ p ++ t)) as Kn.
  { intros p o t e A Cu B. apply po_ambiguous in B. destruct (po_name p o t e A Cu) as (x & P). rewrite P in B. discriminate. }
  destruct S as [cs os N Cl|cs os c o t v Cl L V A|cs os c o v Cl L V A|p o Ab F|p o v Ab V|p o v Ab V A].
  - apply clear_cons; [|exact C]. exact (Kl _ _ _ (flags_letters _ _ Cl N)).
  - apply clear_cons; [|exact C]. refine (Kl (cs ++ c :: t) (map Switch os ++ [Set_ o v]) LDone _). apply cluster_letters; [exact Cl|now apply lt_attached].
  - apply clear_cons; [|apply clear_cons; [now apply argument_clear|exact C]]. refine (Kl (cs ++ [c]) (map Switch os ++ []) (LNeeds o) _). apply cluster_letters; [exact Cl|now apply lt_next].
  - apply clear_cons; [|exact C]. rewrite <- (app_nil_r p). exact (Kn p o [] None Ab (or_introl (conj eq_refl eq_refl))).
  - apply clear_cons; [|exact C]. refine (Kn p o ($"=" ++ v) (Some v) Ab _). right. now exists v.
  - apply clear_cons; [|apply clear_cons; [now apply argument_clear|exact C]]. rewrite <- (app_nil_r p). exact (Kn p o [] None Ab (or_introl (conj eq_refl eq_refl))).
Qed.
Lemma options_clear ws evs rest : options ws evs -> clear rest -> clear (ws ++ rest).
Proof. intros O C. induction O as [|ws evs ws' evs' S O IH]; [exact C|]. rewrite <- app_assoc. now apply (spells_clear ws evs). Qed.
Lemma line_clear ws evs w : line ws evs w -> clear ws.
Proof.
  intros [ws1 e1 O|ws1 e1 v ws2 e2 O A O2|ws1 e1 O|ws1 e1 v O|ws1 e1 v O A].
  - rewrite <- (app_nil_r ws1). apply (options_clear _ _ _ O). constructor.
  - apply (options_clear _ _ _ O), clear_cons; [now apply argument_clear|]. rewrite <- (app_nil_r ws2). apply (options_clear _ _ _ O2). constructor.
  - apply (options_clear _ _ _ O). constructor.
  - apply (options_clear _ _ _ O). constructor.
  - apply (options_clear _ _ _ O), clear_cons; [now apply argument_clear|]. constructor.
Qed.
Lemma options_proper ws evs : options ws evs -> Forall proper evs.
Proof. intros O. induction O as [|ws evs ws' evs' S O IH]; [constructor|]. apply Forall_app. split; [now apply spells_proper in S|exact IH]. Qed.
Lemma options_loop ws evs : options ws evs -> harmless evs -> forall rest l, classify (ws ++ rest) = inr l ->
  exists lr, classify rest = inr lr /\ forall fuel p g ex, (List.length l <= fuel)%nat -> exists fuel', (List.length lr <= fuel')%nat /\ consume_loop fuel p g ex l = consume_loop fuel' p (run evs g) ex lr.
Proof.
  intros O. induction O as [|ws evs ws' evs' S O IH]; intros H rest l C.
  - exists l. split; [exact C|]. intros fuel p g ex Le. exists fuel. auto.
  - apply harmless_app in H as [H1 H2]. rewrite <- app_assoc in C. destruct (spells_step ws evs _ l S C) as (l1 & w & t & lw & C1 & -> & X & Le1).
    destruct (IH H2 rest l1 C1) as (lr & Cr & K). exists lr. split; [exact Cr|]. intros fuel p g ex Le. destruct fuel as [|fuel]; [cbn in Le; lia|]. cbn [List.length] in Le. apply le_S_n in Le.
    destruct (K fuel p (run evs g) ex (Nat.le_trans _ _ _ Le1 Le)) as (fuel' & Lf & E). exists fuel'. split; [exact Lf|]. rewrite run_app, <- E.
    rewrite loop_option, X. cbn [rbind]. rewrite (take_harmless evs (spells_proper _ _ S) H1). cbn [rbind]. now rewrite app_nil_r.
Qed.
Lemma options_head ws evs l : options ws evs -> classify ws = inr l -> ws <> [] -> existsb is_option l = true.
Proof.
  intros [|ws' evs' ws2 evs2 S O] C N; [now elim N|]. destruct (spells_step _ _ _ _ S C) as (l1 & w & t & lw & _ & -> & _). reflexivity.
Qed.
Lemma line_complete ws evs w : line ws evs w -> harmless evs -> parse_args ws = inr (set_vmlinux w (run evs namespace0)).
Proof.
  intros L H. destruct (classify_clear ws (line_clear _ _ _ L)) as (l & C). rewrite parse_close, C. cbn [rbind]. destruct L as [ws1 e1 O|ws1 e1 v ws2 e2 O A O2|ws1 e1 O|ws1 e1 v O|ws1 e1 v O A].
  - rewrite <- (app_nil_r ws1) in C. destruct (options_loop _ _ O H _ _ C) as (lr & Cr & K). injection Cr as <-. destruct (K _ true namespace0 [] (Nat.le_refl _)) as (f & _ & ->).
    rewrite loop_done by reflexivity. cbn [rbind]. now rewrite close_nil.
  - apply harmless_app in H as [H1 H2]. destruct (options_loop _ _ O H1 _ _ C) as (lr & Cr & K). destruct (K _ true namespace0 [] (Nat.le_refl _)) as (f & Lf & ->).
    pose proof (argument_not_dashes v A) as N. destruct (argument_step _ _ _ A Cr) as (l2 & C2 & ->). destruct ws2 as [|x ws2].
    + injection C2 as <-. assert (e2 = []) as ->. { inversion O2 as [|a b c d Sp _ X]; [reflexivity|]. destruct Sp; discriminate X. }
      rewrite loop_done by reflexivity. cbn [rbind]. rewrite app_nil_r. now rewrite close_word_end.
    + pose proof (options_head _ _ _ O2 C2 ltac:(discriminate)) as E. destruct f as [|f]; [cbn in Lf; lia|]. cbn [List.length] in Lf. apply le_S_n in Lf. turn (loop_word f (run e1 namespace0) [] v l2 E (no_dashes_before _ _ C2 E) N).
      rewrite <- (app_nil_r (x :: ws2)) in C2. destruct (options_loop _ _ O2 H2 _ _ C2) as (lr & Cr' & K2). injection Cr' as <-. destruct (K2 f false (set_vmlinux (Some v) (run e1 namespace0)) [] Lf) as (f' & _ & Q). turn Q.
      rewrite loop_done by reflexivity. cbn [rbind]. rewrite close_taken. cbn [app map]. now rewrite run_app, set_run.
  - destruct (options_loop _ _ O H _ _ C) as (lr & Cr & K). rewrite classify_dashes in Cr. injection Cr as <-. destruct (K _ true namespace0 [] (Nat.le_refl _)) as (f & _ & ->).
    rewrite loop_done by reflexivity. cbn [rbind]. rewrite (close_dashes _ _ []). reflexivity.
  - destruct (options_loop _ _ O H _ _ C) as (lr & Cr & K). rewrite classify_dashes in Cr. injection Cr as <-. destruct (K _ true namespace0 [] (Nat.le_refl _)) as (f & _ & ->).
    rewrite loop_done by reflexivity. cbn [rbind]. exact (close_dashes _ _ [v]).
  - destruct (options_loop _ _ O H _ _ C) as (lr & Cr & K). destruct (argument_step _ _ _ A Cr) as (l2 & C2 & ->). rewrite classify_dashes in C2. injection C2 as <-. destruct (K _ true namespace0 [] (Nat.le_refl _)) as (f & _ & ->).
    rewrite loop_done by reflexivity. cbn [rbind]. exact (close_word_dashes _ _ v [] (argument_not_dashes v A)).
Qed.
Lemma line_proper ws evs w : line ws evs w -> Forall proper evs.
Proof. intros [ws1 e1 O|ws1 e1 v ws2 e2 O A O2|ws1 e1 O|ws1 e1 v O|ws1 e1 v O A]; try (now apply options_proper in O). apply Forall_app. split; [now apply options_proper in O|now apply options_proper in O2]. Qed.
Lemma parse_sound argv : match parse_args argv with
  | inr g => exists evs w, line argv evs w /\ harmless evs /\ g = set_vmlinux w (run evs namespace0)
  | inl s => s = SError \/ clear argv /\ reached s argv
  end.
Proof.
  rewrite parse_close. pose proof (clear_classify argv) as Cl. destruct (classify argv) as [s|l] eqn:C; cbn [rbind]; [left; apply Cl|].
  pose proof (loop_sound (List.length l) (List.length l) argv l true namespace0 [] C (Nat.le_refl _) (Nat.le_refl _)) as X. destruct (x <~ consume_loop (List.length l) true namespace0 [] l ;; close x) as [s|g].
  - destruct X as [X|X]; [now left|right; now split].
  - destruct X as (_ & evs & w & G & H & _ & ->). now exists evs, w.
Qed.
Lemma accepts argv g : parse_args argv = inr g <-> asks argv g.
Proof.
  split.
  - intros E. pose proof (parse_sound argv) as X. rewrite E in X. destruct X as (evs & w & L & H & ->). exists evs, w. split; [exact L|]. split; [exact H|].
    apply means_word. apply run_means; [now apply line_proper in L|exact H].
  - intros (evs & w & L & H & M). rewrite (line_complete _ _ _ L H). f_equal. apply (means_fun evs w); [|exact M]. apply means_word. apply run_means; [now apply line_proper in L|exact H].
Qed.

(** * Help and version *)
Lemma loose_option ws evs : loose ws evs -> evs <> [] -> forall rest l, classify (ws ++ rest) = inr l -> existsb is_option l = true.
Proof.
  intros L. induction L as [|ws evs ws' evs' Lw L IH]; intros N rest l C; [now elim N|]. rewrite <- app_assoc in C.
  destruct (extra_step _ _ _ _ Lw C) as [S|[(w & A & -> & ->)|(lr & w & t & lw & x & _ & -> & _)]]; [|..|reflexivity].
  - destruct (spells_step _ _ _ _ S C) as (l1 & w & t & lw & _ & -> & _). reflexivity.
  - destruct (argument_step _ _ _ A C) as (lr & Cr & ->). cbn [existsb is_option snd orb]. now apply (IH N rest).
Qed.
Lemma loose_loop ws evs0 : loose ws evs0 -> forall evs o evs' s, evs0 = evs ++ Switch o :: evs' -> harmless evs -> halt o s ->
  forall rest l, classify (ws ++ rest) = inr l -> forall fuel p g ex, (List.length l <= fuel)%nat -> consume_loop fuel p g ex l = inl s.
Proof.
  intros L. induction L as [|ws e1 ws' e2 Lw L IH]; intros evs o evs' s E H Ha rest l C fuel p g ex Le; [now destruct evs|]. rewrite <- app_assoc in C.
  assert (forall w t lw lr x, classify (ws' ++ rest) = inr lr -> l = (w, MOpt t) :: lw -> consume_optional w t lw = inr (acts_of e1, x, lr) -> (List.length lr <= List.length lw)%nat -> consume_loop fuel p g ex l = inl s) as K.
  { intros w t lw lr x C1 -> X Le1. destruct fuel as [|fuel]; [cbn in Le; lia|]. cbn [List.length] in Le. apply le_S_n in Le. rewrite loop_option, X. cbn [rbind].
    pose proof (loose_proper _ _ Lw) as P. apply app_eq_app in E as (m & [(-> & E)|(-> & E)]).
    - destruct m as [|y m].
      + cbn [app] in E. rewrite app_nil_r in *. rewrite take_harmless; [|exact P|exact H]. cbn [rbind]. apply (IH [] o evs' s (eq_sym E) harmless_nil Ha rest lr C1). exact (Nat.le_trans _ _ _ Le1 Le).
      + cbn [app] in E. injection E as <- _. apply Forall_app in P as [P _]. now rewrite (take_halt o s evs m Ha P H).
    - apply harmless_app in H as [H1 H2]. rewrite take_harmless; [|exact P|exact H1]. cbn [rbind]. apply (IH m o evs' s E H2 Ha rest lr C1). exact (Nat.le_trans _ _ _ Le1 Le). }
  destruct (extra_step _ _ _ _ Lw C) as [S|[(w & A & -> & ->)|(lr & w & t & lw & x & C1 & El & X & Le1)]].
  - destruct (spells_step _ _ _ _ S C) as (l1 & w & t & lw & C1 & El & X & Le1). exact (K w t lw l1 [] C1 El X Le1).
  - clear K. destruct (argument_step _ _ _ A C) as (lr & Cr & ->). cbn [app] in E. assert (e2 <> []) as N by (rewrite E; now destruct evs). pose proof (loose_option ws' e2 L N rest lr Cr) as Eo.
    destruct fuel as [|fuel]; [cbn in Le; lia|]. cbn [List.length] in Le. apply le_S_n in Le. destruct p.
    + turn (loop_word fuel g ex w lr Eo (no_dashes_before _ _ Cr Eo) (argument_not_dashes w A)). exact (IH evs o evs' s E H Ha rest lr Cr fuel false _ _ Le).
    + turn (loop_extra fuel g ex w lr Eo). exact (IH evs o evs' s E H Ha rest lr Cr (S fuel) false _ _ (Nat.le_trans _ _ _ Le (Nat.le_succ_diag_r _))).
  - exact (K w t lw lr [x] C1 El X Le1).
Qed.
Lemma shows_stop o s argv : halt o s -> (parse_args argv = inl s <-> shows o argv).
Proof.
  intros Ha. split.
  - intros E. pose proof (parse_sound argv) as X. rewrite E in X. destruct X as [X|(C & o' & ws & r & evs & evs' & Ha' & -> & L & H)]; [destruct Ha as [(_ & ->)|(_ & ->)]; discriminate|].
    split; [exact C|]. assert (o' = o) as ->. { destruct Ha as [(-> & ->)|(-> & ->)], Ha' as [(-> & Y)|(-> & Y)]; try reflexivity; discriminate. } now exists ws, r, evs, evs'.
  - intros (C & ws & r & evs & evs' & -> & L & H). destruct (classify_clear _ C) as (l & El). rewrite parse_close, El. cbn [rbind].
    now rewrite (loose_loop ws _ L evs o evs' s eq_refl H Ha r l El _ true namespace0 [] (Nat.le_refl _)).
Qed.
Lemma never_list argv : parse_args argv <> inl SList.
Proof.
  intros E. pose proof (parse_sound argv) as X. rewrite E in X. destruct X as [X|(C & o' & ws & r & evs & evs' & [(_ & Y)|(_ & Y)] & _)]; discriminate.
Qed.
