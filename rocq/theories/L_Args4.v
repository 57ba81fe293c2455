(** Lemmas about the command line (C100): the meaning of options. *)
From Coq Require Import List Bool Ascii String ZArith Lia.
From Verif Require Import PyBase PyFacts M_Main M_Args S_Elf S_Signature S_Args L_Args L_Args2 L_Args3.
Import ListNotations.
Open Scope Z_scope.
Open Scope list_scope.

Definition proper (x : event) : Prop := match x with Switch o => flag o | Set_ o _ => valued o end.
Lemma cluster_proper cs os : cluster cs os -> Forall proper (map Switch os).
Proof. intros C. induction C as [|c o cs os (L & F) C IH]; constructor; auto. Qed.
Lemma spells_proper ws evs : spells ws evs -> Forall proper evs.
Proof.
  intros H; destruct H as [cs os _ C|cs os c o t v C _ V _|cs os c o v C _ V _|p o _ F|p o v _ V|p o v _ V _];
    try (apply Forall_app; split; [eapply cluster_proper; eassumption|]); try (now eapply cluster_proper; eassumption); repeat constructor; assumption.
Qed.
Lemma loose_proper ws evs : loose_word ws evs -> Forall proper evs.
Proof.
  intros [ws' evs' S|cs os c t _ C _ _ _|w _|w _]; [now apply spells_proper in S|now apply cluster_proper in C|constructor|constructor].
Qed.
Definition act1 (x : event) (g : args) : result args := match x with Switch o => take_action o [] g | Set_ o v => take_action o v g end.
Definition run1 (g : args) (x : event) : args := match act1 x g with inr g' => g' | inl _ => g end.
Definition run (evs : list event) (g : args) : args := fold_left run1 evs g.
Definition format_ok (v : str) : Prop := v = $"text" \/ v = $"json" \/ v = $"html".
Lemma format_ok_iff v : existsb (str_eqb v) [$"text"; $"json"; $"html"] = true <-> format_ok v.
Proof.
  rewrite existsb_exists. unfold format_ok. split.
  - intros (x & I & E). apply str_eqb_eq in E as ->. cbn [In] in I. intuition congruence.
  - intros H. exists v. split; [cbn [In]; intuition congruence|now apply str_eqb_eq].
Qed.
Lemma act1_cases x g : proper x ->
  (harmless [x] /\ act1 x g = inr (run1 g x)) \/ (x = Switch OHelp /\ act1 x g = inl SHelp) \/ (x = Switch OVersion /\ act1 x g = inl SVersion) \/
  (exists v, x = Set_ OFormat v /\ ~ format_ok v /\ act1 x g = inl SError).
Proof.
  unfold run1. destruct g as [? ? ? ? ? ? ? ? ? ? ? ? ? ? ?]. intros P. destruct x as [o|o v].
  - apply flag_stores in P. destruct o; try discriminate P; [right; left; auto|..|right; right; left; auto]; left;
      (split; [split; [intros [H|[]]; discriminate H|split; [intros [H|[]]; discriminate H|intros v [H|[]]; discriminate H]]|reflexivity]).
  - apply valued_stores in P. destruct (existsb (str_eqb v) [$"text"; $"json"; $"html"]) eqn:F.
    + left. split; [split; [intros [H|[]]; discriminate H|split; [intros [H|[]]; discriminate H|]]|].
      * intros u [H|[]]. injection H as _ ->. now apply format_ok_iff.
      * destruct o; try discriminate P; cbn [act1 take_action]; try reflexivity. now rewrite F.
    + destruct o; try discriminate P; try (left; split; [split; [intros [H|[]]; discriminate H|split; [intros [H|[]]; discriminate H|intros u [H|[]]; discriminate H]]|reflexivity]).
      right. right. right. exists v. split; [reflexivity|]. split; [intros H; apply format_ok_iff in H; congruence|]. cbn [act1 take_action]. now rewrite F.
Qed.
Lemma harmless_cons x evs : harmless (x :: evs) <-> harmless [x] /\ harmless evs.
Proof.
  unfold harmless. split.
  - intros (H1 & H2 & H3). split; (split; [intros I; apply H1|split; [intros I; apply H2|intros v I; apply H3]]); try (destruct I as [<-|[]]; now left); now right.
  - intros ((A1 & A2 & A3) & (B1 & B2 & B3)). split; [intros [I|I]; [apply A1; now left|auto]|]. split; [intros [I|I]; [apply A2; now left|auto]|]. intros v [I|I]; [apply A3; now left|auto].
Qed.
Lemma harmless_nil : harmless [].
Proof. split; [intros []|split; [intros []|intros v []]]. Qed.
Lemma harmless_app a b : harmless (a ++ b) <-> harmless a /\ harmless b.
Proof.
  induction a as [|x a IH]; cbn [app]; [pose proof harmless_nil; tauto|]. rewrite harmless_cons, IH, (harmless_cons x a). tauto.
Qed.
Lemma take_acts x evs g : take_actions (acts_of (x :: evs)) g = (g' <~ act1 x g ;; take_actions (acts_of evs) g').
Proof. destruct x; reflexivity. Qed.
Lemma take_harmless evs : Forall proper evs -> harmless evs -> forall g, take_actions (acts_of evs) g = inr (run evs g).
Proof.
  intros P. induction P as [|x evs P Ps IH]; intros H g; [reflexivity|]. rewrite take_acts. apply harmless_cons in H as [H1 H2].
  destruct (act1_cases x g P) as [(_ & ->)|[(-> & _)|[(-> & _)|(v & -> & F & _)]]].
  - cbn [rbind]. now apply IH.
  - destruct H1 as (H1 & _). elim H1. now left.
  - destruct H1 as (_ & H1 & _). elim H1. now left.
  - destruct H1 as (_ & _ & H1). elim F. apply H1. now left.
Qed.
Definition halt (o : opt) (s : stop) : Prop := o = OHelp /\ s = SHelp \/ o = OVersion /\ s = SVersion.
Lemma take_halt o s a b : halt o s -> Forall proper a -> harmless a -> forall g, take_actions (acts_of (a ++ Switch o :: b)) g = inl s.
Proof.
  intros Ha P. induction P as [|x evs P Ps IH]; intros H g; cbn [app]; rewrite take_acts.
  - destruct g. destruct Ha as [(-> & ->)|(-> & ->)]; reflexivity.
  - apply harmless_cons in H as [H1 H2]. destruct (act1_cases x g P) as [(_ & ->)|[(-> & _)|[(-> & _)|(v & -> & F & _)]]].
    + cbn [rbind]. now apply IH.
    + destruct H1 as (H1 & _). elim H1. now left.
    + destruct H1 as (_ & H1 & _). elim H1. now left.
    + destruct H1 as (_ & _ & H1). elim F. apply H1. now left.
Qed.
Lemma take_sound evs : Forall proper evs -> forall g,
  match take_actions (acts_of evs) g with
  | inr g' => harmless evs /\ g' = run evs g
  | inl s => s = SError \/ exists o a b, halt o s /\ evs = a ++ Switch o :: b /\ harmless a
  end.
Proof.
  intros P. induction P as [|x evs P Ps IH]; intros g; [split; [apply harmless_nil|reflexivity]|]. rewrite take_acts.
  destruct (act1_cases x g P) as [(H & ->)|[(-> & ->)|[(-> & ->)|(v & -> & F & ->)]]]; cbn [rbind].
  - specialize (IH (run1 g x)). destruct (take_actions (acts_of evs) (run1 g x)) as [s|g'].
    + destruct IH as [->|(o & a & b & Ha & -> & Hm)]; [now left|]. right. exists o, (x :: a), b. split; [exact Ha|]. split; [reflexivity|]. apply harmless_cons. now split.
    + destruct IH as (H2 & ->). split; [|reflexivity]. apply harmless_cons. now split.
  - right. exists OHelp, [], evs. split; [now left|]. split; [reflexivity|apply harmless_nil].
  - right. exists OVersion, [], evs. split; [now right|]. split; [reflexivity|apply harmless_nil].
  - now left.
Qed.
Lemma run_app a b g : run (a ++ b) g = run b (run a g).
Proof. unfold run. apply fold_left_app. Qed.

(** * The settings *)
Lemma last_snoc_same o v evs : last_value o (evs ++ [Set_ o v]) (Some v).
Proof. exists evs, []. split; [reflexivity|]. intros x []. Qed.
Lemma last_snoc_other o x evs r : (forall v, x <> Set_ o v) -> last_value o evs r -> last_value o (evs ++ [x]) r.
Proof.
  intros N. destruct r as [v|]; cbn.
  - intros (a & b & -> & H). exists a, (b ++ [x]). split; [now rewrite <- app_assoc|]. intros y I. apply in_app_or in I as [I|[I|[]]]; [now apply (H y)|now apply (N y)].
  - intros H y I. apply in_app_or in I as [I|[I|[]]]; [now apply (H y)|now apply (N y)].
Qed.
Lemma switched_snoc_same o evs : switched o (evs ++ [Switch o]) true.
Proof. split; [intros _; apply in_or_app; right; now left|auto]. Qed.
Lemma switched_snoc_other o x evs b : x <> Switch o -> switched o evs b -> switched o (evs ++ [x]) b.
Proof. intros N (H1 & H2). split; [intros E; apply in_or_app; left; auto|]. intros I. apply in_app_or in I as [I|[I|[]]]; [auto|congruence]. Qed.
Lemma times_snoc o x evs n : times o evs n -> (x = Switch o -> times o (evs ++ [x]) (n + 1)) /\ (x <> Switch o -> times o (evs ++ [x]) n).
Proof.
  intros H. induction H as [|evs n H (I1 & I2)|y evs n H (I1 & I2) N]; cbn [app].
  - split; [intros ->; apply (times_same o [] 0), times_nil|intros N; apply times_other; [apply times_nil|exact N]].
  - split; [intros E; apply times_same; auto|intros E; apply times_same; auto].
  - split; intros E; apply times_other; auto.
Qed.
Lemma run_means evs : Forall proper evs -> harmless evs -> means evs None (run evs namespace0).
Proof.
  induction evs as [|x evs IH] using rev_ind; intros P H.
  - constructor; try (cbn; auto; fail); try (cbn; intros v []; fail); try (split; [discriminate|intros []]); try apply times_nil.
  - rewrite run_app. apply Forall_app in P as [P Px]. inversion Px as [|? ? Px' _]; subst. apply harmless_app in H as [H Hx]. specialize (IH P H).
    change (run [x] (run evs namespace0)) with (run1 (run evs namespace0) x). set (g := run evs namespace0) in *. clearbody g.
    destruct IH as [M1 M2 M3 M4 M5 M6 M7 M8 M9 M10 M11 M12 M13 M14 M15].
    destruct g as [vm kd ar bu co cl cr ou fo ab re ch di qu ve]. cbn in *.
    assert (forall o, (forall v, x <> Set_ o v) -> forall r, last_value o evs r -> last_value o (evs ++ [x]) r) as La by (intros; now apply last_snoc_other).
    assert (forall o b, x <> Switch o -> switched o evs b -> switched o (evs ++ [x]) b) as Sw by (intros; now apply switched_snoc_other).
    assert (forall o n, x <> Switch o -> times o evs n -> times o (evs ++ [x]) n) as Ti by (intros o n N T; now apply times_snoc).
    assert ((forall v, x <> Set_ OFormat v) -> last_value OFormat (evs ++ [x]) (Some fo) \/ last_value OFormat (evs ++ [x]) None /\ fo = $"text") as Fo.
    { intros N. destruct M9 as [M9|(M9 & E)]; [left; now apply La|right; split; [now apply La|exact E]]. }
    destruct x as [o|o v].
    + apply flag_stores in Px'. destruct o; try discriminate Px'; try (exfalso; destruct Hx as (H1 & H2 & _); (elim H1; now left) || (elim H2; now left));
        (constructor; cbn [run1 act1 take_action g_vmlinux g_kdir g_arch g_build g_config g_clean g_cross g_out g_format g_absolute g_remap g_checkout g_disable_opt g_quiet g_verbose];
          try assumption; try (apply La; [discriminate|assumption]); try (apply Sw; [discriminate|assumption]); try (apply Ti; [discriminate|assumption]); try (apply Fo; discriminate); try apply switched_snoc_same; try (refine (proj1 (times_snoc _ _ _ _ _) eq_refl); assumption)).
    + apply valued_stores in Px'. assert (o = OFormat -> existsb (str_eqb v) [$"text"; $"json"; $"html"] = true) as Fv.
      { intros ->. apply format_ok_iff. destruct Hx as (_ & _ & Hx). apply Hx. now left. }
      destruct o; try discriminate Px'; try (specialize (Fv eq_refl); unfold run1; cbn [act1 take_action]; rewrite Fv); 
        (constructor; cbn [run1 act1 take_action g_vmlinux g_kdir g_arch g_build g_config g_clean g_cross g_out g_format g_absolute g_remap g_checkout g_disable_opt g_quiet g_verbose];
          try assumption; try (apply La; [discriminate|assumption]); try (apply Sw; [discriminate|assumption]); try (apply Ti; [discriminate|assumption]); try (apply Fo; discriminate); try apply last_snoc_same; try (left; apply last_snoc_same)).
Qed.
Lemma last_fun o evs r r' : last_value o evs r -> last_value o evs r' -> r = r'.
Proof.
  destruct r as [v|], r' as [v'|]; cbn; [|..|reflexivity].
  - intros (a & b & -> & H) (a' & b' & E & H'). f_equal. revert a' E. induction a as [|x a IH]; intros [|x' a'] E; cbn in E.
    + now injection E.
    + injection E as _ E. elim (H v'). rewrite E. apply in_or_app. right. now left.
    + injection E as _ E. elim (H' v). rewrite <- E. apply in_or_app. right. now left.
    + injection E as _ E. now apply (IH a').
  - intros (a & b & -> & H) N. elim (N v). apply in_or_app. right. now left.
  - intros N (a & b & -> & H). elim (N v'). apply in_or_app. right. now left.
Qed.
Lemma switched_fun o evs b b' : switched o evs b -> switched o evs b' -> b = b'.
Proof. unfold switched. intros (H1 & H2) (H3 & H4). destruct b, b'; try reflexivity; [specialize (H4 (H1 eq_refl))|specialize (H2 (H3 eq_refl))]; congruence. Qed.
Lemma times_fun o evs n : times o evs n -> forall n', times o evs n' -> n = n'.
Proof.
  intros H. induction H as [|evs n H IH|x evs n H IH N]; intros n' H'; inversion H'; subst; try congruence.
  - f_equal. auto.
  - auto.
Qed.
Lemma means_fun evs w g g' : means evs w g -> means evs w g' -> g = g'.
Proof.
  intros [M1 M2 M3 M4 M5 M6 M7 M8 M9 M10 M11 M12 M13 M14 M15] [N1 N2 N3 N4 N5 N6 N7 N8 N9 N10 N11 N12 N13 N14 N15].
  destruct g, g'. cbn [M_Main.g_vmlinux M_Main.g_kdir M_Main.g_arch M_Main.g_build M_Main.g_config M_Main.g_clean M_Main.g_cross M_Main.g_out M_Main.g_format M_Main.g_absolute M_Main.g_remap M_Main.g_checkout M_Main.g_disable_opt M_Main.g_quiet M_Main.g_verbose] in *.
  rewrite (last_fun _ _ _ _ M2 N2), (last_fun _ _ _ _ M3 N3), (switched_fun _ _ _ _ M4 N4), (switched_fun _ _ _ _ M5 N5), (switched_fun _ _ _ _ M6 N6), (last_fun _ _ _ _ M7 N7), (last_fun _ _ _ _ M8 N8),
    (switched_fun _ _ _ _ M10 N10), (last_fun _ _ _ _ M11 N11), (last_fun _ _ _ _ M12 N12), (switched_fun _ _ _ _ M13 N13), (times_fun _ _ _ M14 _ N14), (times_fun _ _ _ M15 _ N15).
  assert (g_format = g_format0) as ->; [|congruence].
  destruct M9 as [M9|(M9 & ->)], N9 as [N9|(N9 & ->)]; [pose proof (last_fun _ _ _ _ M9 N9); congruence| | |reflexivity]; pose proof (last_fun _ _ _ _ M9 N9); discriminate.
Qed.
Lemma means_word evs w g : means evs None g <-> means evs w (set_vmlinux w g) /\ g_vmlinux g = None.
Proof.
  destruct g. cbn. split.
  - intros [M1 M2 M3 M4 M5 M6 M7 M8 M9 M10 M11 M12 M13 M14 M15]. cbn in *. split; [constructor; cbn; auto|exact M1].
  - intros ([M1 M2 M3 M4 M5 M6 M7 M8 M9 M10 M11 M12 M13 M14 M15] & E). cbn in *. constructor; cbn; auto.
Qed.
