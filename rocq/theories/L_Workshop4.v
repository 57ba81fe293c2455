(** Lemmas about preparing sources (C108): every command of each step. *)
From Coq Require Import List Bool Ascii String ZArith Lia.
From Verif Require Import PyBase PyFacts M_Utils M_Elf M_Syscall M_Arch M_Kernel M_Kconfig M_Build M_Config M_Command M_Search M_Main M_Program M_Workshop
  S_Utils S_Output S_Arch S_Config S_Main L_Utils L_Config L_Config2 L_Config4 L_Arch L_Arch3 L_Main S_Workshop L_Workshop L_Workshop2 L_Workshop3.
From Verif Require S_Build L_Build.
Import ListNotations.
Open Scope Z_scope.
Open Scope list_scope.

(** ** Commands that end the program *)

Lemma ensure_Exit s c cwd b b' n : snd (M_Command.ensure_command s c cwd b b') = Exit n -> n <> 0.
Proof.
  unfold M_Command.ensure_command. destruct (negb (_ || _)); [discriminate|]. unfold do_popen. destruct (popen_ s c cwd) as [st out err| |].
  - destruct (st =? 0); cbn [negb snd]; [discriminate|intros [= <-]; discriminate].
  - destruct cwd as [d|]; [|discriminate]. destruct (sys_entry s d); cbn [snd]; [intros [= <-]; discriminate| |];
      (destruct (match c with Shell l => split_ws l | Argv a => a end); cbn [snd]; [discriminate|intros [= <-]; discriminate]).
  - cbn [snd]. intros [= <-]. discriminate.
Qed.

(** ** The steps of M_Config *)

(** As [careful], and with a status that is not 0 *)
Definition prudent {A} (ev : M_Config.env) (P : event -> Prop) (x : io A) : Prop :=
  forall h, exists l r, x h = (h ++ l, r) /\ Forall P l /\
    (forall l1 c l2, l = l1 ++ Ran c :: l2 ->
      (exists out, e_run ev (h ++ l1) c = Some (0, out)) \/ (l2 = [] /\ exists n, r = Exit n)) /\
    forall n, r = Exit n -> n <> 0.

Section Prudent.
  Context (ev : M_Config.env) (P : event -> Prop).
  Lemma prudent_ret {A} (r : outcome A) : (forall n, r = Exit n -> n <> 0) -> prudent ev P (io_ret r).
  Proof. intros N h. exists [], r. rewrite app_nil_r. split; [reflexivity|]. split; [constructor|]. split; [|exact N]. intros [|? ?] ? ? E; discriminate. Qed.
  Lemma prudent_emit e : P e -> (forall c, e <> Ran c) -> prudent ev P (io_emit e).
  Proof.
    intros H N h. exists [e], (Ok tt). split; [reflexivity|]. split; [now repeat constructor|]. split; [|discriminate]. intros [|y l1] c l2 E.
    - injection E as E _. destruct (N _ E).
    - injection E as _ E. destruct l1; discriminate.
  Qed.
  Lemma prudent_ensure argv cwd stdin : P (Ran (Command argv cwd None)) -> prudent ev P (ensure ev argv cwd stdin).
  Proof.
    intros H h. unfold ensure, received. cbn iota. eexists [_], _. split; [reflexivity|]. split; [now repeat constructor|]. split.
    - intros [|y l1] c l2 E.
      + injection E as <- <-. rewrite app_nil_r. unfold M_Utils.ensure_command. destruct (e_run ev h _) as [[rc out]|]; [|right; eauto].
        destruct (rc =? 0) eqn:R; [|right; eauto]. left. apply Z.eqb_eq in R as ->. eauto.
      + injection E as _ E. destruct l1; discriminate.
    - unfold M_Utils.ensure_command. intros n E. destruct (e_run ev h _) as [[rc out]|]; [|injection E as <-; discriminate].
      destruct (rc =? 0); [discriminate E|injection E as <-; discriminate].
  Qed.
  Lemma prudent_bind {A B} (x : io A) (f : A -> io B) : prudent ev P x -> (forall a, prudent ev P (f a)) -> prudent ev P (io_bind x f).
  Proof.
    intros X F h. destruct (X h) as (m & r & E & H & S & Z). unfold io_bind. rewrite E.
    destruct r as [a|e|n|].
    - destruct (F a (h ++ m)) as (m' & r & E' & H' & S' & Z'). exists (m ++ m'), r. rewrite E', <- app_assoc. split; [reflexivity|].
      split; [now apply Forall_app|]. split; [|exact Z']. intros l1 c l2 D. apply app_split in D as [(d & -> & ->)|(d & -> & ->)].
      + destruct (S _ _ _ eq_refl) as [R|[_ [n [=]]]]. now left.
      + rewrite app_assoc. exact (S' _ _ _ eq_refl).
    - eexists m, _. split; [reflexivity|]. split; [exact H|]. split; [|discriminate]. intros l1 c l2 D. destruct (S _ _ _ D) as [R|[-> [n [=]]]]. now left.
    - eexists m, _. split; [reflexivity|]. split; [exact H|]. split; [|intros n' [= <-]; exact (Z n eq_refl)]. intros l1 c l2 D. destruct (S _ _ _ D) as [R|[-> _]]; eauto.
    - eexists m, _. split; [reflexivity|]. split; [exact H|]. split; [|discriminate]. intros l1 c l2 D. destruct (S _ _ _ D) as [R|[-> [n [=]]]]. now left.
  Qed.
  Lemma prudent_each {A} (f : A -> io unit) l : (forall a, In a l -> prudent ev P (f a)) -> prudent ev P (io_each f l).
  Proof.
    induction l as [|a l IH]; intros H; [now apply prudent_ret|]. cbn [io_each]. apply prudent_bind; [apply H; now left|].
    intros _. apply IH. intros b I. apply H. now right.
  Qed.
  Lemma prudent_make k target stdin : P (Ran (Command (make_argv k target) (k_kdir k) None)) -> prudent ev P (make ev k target stdin).
  Proof. intros H. apply prudent_bind; [|intros; now apply prudent_ret]. now apply prudent_ensure. Qed.

  Lemma mapM_Exit {A B} (f : A -> outcome B) l n : (forall x, f x <> Exit n) -> mapM f l <> Exit n.
  Proof.
    intros H. induction l as [|x l IH]; [discriminate|]. cbn [mapM]. specialize (H x). destruct (f x) as [y|e|m|]; cbn [bind]; try discriminate; [|congruence].
    destruct (mapM f l) as [ys|e|m|]; cbn [bind]; try discriminate. congruence.
  Qed.
  Lemma option_argv_Exit l n : mapM option_argv l = Exit n -> n <> 0.
  Proof. intros E. exfalso. revert E. apply mapM_Exit. intros x. unfold option_argv. destruct (split_char1 EQ x) as [[? ?]|]; discriminate. Qed.
  Lemma to_set_Exit l n : to_set l = Exit n -> n <> 0.
  Proof.
    unfold to_set. set (m := mapM _ l). assert (forall n, m <> Exit n) as H by (intros n'; apply mapM_Exit; intros x; destruct (split_char1 EQ x); discriminate).
    destruct m as [y|e|c|]; cbn [bind]; try discriminate. now destruct (H c).
  Qed.

  Lemma parse_Exit s n : parse_config_text s = Exit n -> n <> 0.
  Proof.
    unfold parse_config_text. generalize (@nil (str * str)) as d. induction (filter _ _) as [|x l IH]; intros d; [discriminate|]. cbn [foldM]. unfold parse_line at 1.
    destruct (split_char1 EQ x) as [[y z]|]; [|discriminate]. unfold assert_. destruct (startswith y $"CONFIG_"); cbn [bind]; [apply IH|discriminate].
  Qed.

  Context (kd f : path) (PS : forall args, P (Ran (script kd f args))) (PR : forall e, (forall c, e <> Ran c) -> P e).
  Lemma prudent_script args : prudent ev P (run_config_script ev kd f args).
  Proof. apply prudent_ensure, PS. Qed.
  Lemma prudent_edit options : prudent ev P (edit_config ev kd f options).
  Proof.
    unfold edit_config. destruct options as [|o os]; [now apply prudent_ret|]. apply prudent_bind; [apply prudent_ret; intros n; apply option_argv_Exit|]. intros a.
    apply prudent_bind; [apply prudent_script|intros; now apply prudent_ret].
  Qed.
  Lemma prudent_check toset config opt dep : prudent ev P (check_dep ev kd f toset config opt dep).
  Proof.
    unfold check_dep. destruct (split_char1 EQ dep) as [[n w]|]; [|now apply prudent_ret]. apply prudent_bind.
    - unfold dep_value. destruct (match dget str_eqb n toset with Some (c :: s) => Some (c :: s) | _ => dget str_eqb n config end); [now apply prudent_ret|].
      apply prudent_bind; [|intros; now apply prudent_ret]. apply prudent_script.
    - intros a. destruct (opt_str_eqb a (Some w)); [now apply prudent_ret|]. destruct (str_eqb w $"n" && opt_str_eqb a None); [now apply prudent_ret|].
      destruct (str_eqb w $"y" && _ && _); apply prudent_emit; try apply PR; intros c; discriminate.
  Qed.
  Lemma prudent_deps options : prudent ev P (edit_config_check_deps ev kd f options).
  Proof.
    unfold edit_config_check_deps. destruct options as [|o os]; [now apply prudent_ret|]. apply prudent_bind; [apply prudent_ret; intros n; apply to_set_Exit|]. intros toset.
    apply prudent_bind.
    { intros h. exists [], (snd (parse_config ev f h)). rewrite app_nil_r. split; [reflexivity|]. split; [constructor|]. split; [intros [|? ?] ? ? E; discriminate|].
      intros n. unfold parse_config. cbn [snd]. destruct (e_file ev h f); [apply parse_Exit|discriminate]. }
    intros config. apply prudent_bind; [|intros; apply prudent_edit]. apply prudent_each. intros [opt deps] _. apply prudent_each.
    intros dep _. apply prudent_check.
  Qed.
End Prudent.

(** ** In the list of all that is done *)

Section Steps.
  Context (w : workshop) (g : args).

  (** What is done from [D] to [D'] *)
  Definition sound {A} (P : doing -> Prop) (D D' : list doing) (r : outcome A) : Prop :=
    exists L, D' = D ++ L /\ Forall P L /\
      (forall L1 c L2, L = L1 ++ Prep (Ran c) :: L2 -> went_well w (D ++ L1) c \/ attempt g c L2 \/ (L2 = [] /\ exists n, r = Exit n)) /\
      forall n, r = Exit n -> n <> 0.
  Lemma sound_nil {A} P D (r : outcome A) : (forall n, r = Exit n -> n <> 0) -> sound P D D r.
  Proof. intros N. exists []. rewrite app_nil_r. repeat split; [constructor| |exact N]. intros [|? ?] c L2 E; discriminate E. Qed.
  Lemma sound_one {A} (P : doing -> Prop) D x (r : outcome A) : P x -> (forall c, x <> Prep (Ran c)) -> (forall n, r = Exit n -> n <> 0) -> sound P D (D ++ [x]) r.
  Proof.
    intros H N Z. exists [x]. repeat split; [now repeat constructor| |exact Z]. intros [|y L1] c L2 E.
    - injection E as E _. now destruct (N c).
    - injection E as _ E. destruct L1; discriminate E.
  Qed.
  Lemma sound_trans {A B} P D D1 D2 (a : A) (r : outcome B) : sound P D D1 (Ok a) -> sound P D1 D2 r -> sound P D D2 r.
  Proof.
    intros (L & -> & FL & SL & _) (M & -> & FM & SM & Z). exists (L ++ M). split; [now rewrite app_assoc|]. split; [now apply Forall_app|].
    split; [|exact Z]. intros L1 c L2 E. apply app_split in E as [(d & -> & ->)|(d & -> & ->)].
    - destruct (SL _ _ _ eq_refl) as [W|[(B0 & O & V & N)|[_ [n [=]]]]]; [now left|]. right. left. repeat split; auto. destruct d; [now destruct N|discriminate].
    - rewrite app_assoc. exact (SM _ _ _ eq_refl).
  Qed.
  Lemma sound_fail {A B} P D D1 (r : outcome A) (r' : outcome B) : sound P D D1 r -> (forall a, r <> Ok a) ->
    (forall n, r = Exit n <-> r' = Exit n) -> sound P D D1 r'.
  Proof.
    intros (L & -> & FL & SL & Z) N E. exists L. repeat split; auto.
    - intros L1 c L2 EL. destruct (SL _ _ _ EL) as [W|[T|[-> [n X]]]]; [auto|auto|]. right. right. split; [reflexivity|]. exists n. now apply E.
    - intros n X. apply Z. now apply E.
  Qed.
  Lemma sound_imp {A} (P P' : doing -> Prop) D D' (r : outcome A) : (forall x, P x -> P' x) -> sound P D D' r -> sound P' D D' r.
  Proof. intros H (L & -> & F & S). exists L. split; [reflexivity|]. split; [|exact S]. revert F. apply Forall_impl. exact H. Qed.

  Lemma map_prep_split l L1 c L2 : map Prep l = L1 ++ Prep (Ran c) :: L2 -> exists l1 l2, l = l1 ++ Ran c :: l2 /\ L1 = map Prep l1 /\ L2 = map Prep l2.
  Proof.
    revert L1. induction l as [|e l IH]; intros L1 E; [destruct L1; discriminate E|]. destruct L1 as [|x L1].
    - injection E as -> <-. exists [], l. auto.
    - injection E as <- E. apply IH in E as (l1 & l2 & -> & -> & ->). exists (e :: l1), l2. auto.
  Qed.
  Lemma sound_lift {A} (P : doing -> Prop) (x : M_Config.env -> io A) D D' r :
    prudent (env_from w D) (fun e => P (Prep e) /\ forall c, e = Ran c -> c_argv c <> []) (x (env_from w D)) -> lift w x D = (D', r) -> sound P D D' r.
  Proof.
    intros H E. unfold lift in E. destruct (H []) as (l & r' & E' & F & S & Z). cbn [app] in E', S. rewrite E' in E. injection E as <- <-.
    exists (map Prep l). split; [reflexivity|]. split; [apply Forall_map; revert F; apply Forall_impl; now intros e [X _]|]. split; [|exact Z].
    intros L1 c L2 EL. apply map_prep_split in EL as (l1 & l2 & -> & -> & ->). destruct (S _ _ _ eq_refl) as [[out R]|[-> X]]; [left|right; right; auto].
    apply Forall_app in F as [_ F]. inversion F as [|? ? [_ N] _]; subst. cbn [env_from e_run] in R. apply started_well in R; [exact R|exact (N c eq_refl)].
  Qed.

  Context (k : path) (a : arch) (K : path_arg (g_kdir g) = Some k) (CH : chosen g a).
  Lemma made_nonempty v t c : c = Command (make_argv (kern_of w g a v) t) k None -> c_argv c <> [].
  Proof. intros ->. discriminate. Qed.
  Lemma sound_clean D D' r : clean_at w g a D = (D', r) -> sound (proper w g k) D D' r.
  Proof.
    intros E. unfold clean_at, clean in E. revert E. apply (sound_lift (A := unit)). apply prudent_make. rewrite (kern_kdir w g k a K). split.
    - apply (po_distclean w g k a); [exact CH|]. now apply make_makes.
    - intros c [= <-]. discriminate.
  Qed.
  Lemma sound_targets (G : g_config g = true \/ g_build g = true) ts D D' r : (forall t, In t ts -> In t (a_targets a)) ->
    lift w (fun ev => io_each (fun t => make ev (kern_of w g a []) t None) ts) D = (D', r) -> sound (proper w g k) D D' r.
  Proof.
    intros T. apply sound_lift. apply prudent_each. intros t I. apply prudent_make. rewrite (kern_kdir w g k a K). split.
    - apply (po_target w g k a t); [exact G|exact CH|auto|]. now apply make_makes.
    - intros c [= <-]. discriminate.
  Qed.
  Lemma sound_settle (G : g_config g = true \/ g_build g = true) v opts D D' r :
    lift w (fun ev => settle ev (kern_of w g a v) opts) D = (D', r) -> sound (proper w g k) D D' r.
  Proof.
    apply sound_lift. unfold settle. cbv zeta. rewrite (kern_kdir w g k a K).
    assert (forall args, (fun e => proper w g k (Prep e) /\ forall c, e = Ran c -> c_argv c <> []) (Ran (script k (config_file (kern_of w g a v)) args))) as PS.
    { intros args. split; [apply po_script; [exact G|now apply kern_config]|]. intros c [= <-]. discriminate. }
    assert (forall e, (forall c, e <> Ran c) -> (fun e => proper w g k (Prep e) /\ forall c, e = Ran c -> c_argv c <> []) e) as PR.
    { intros e N. split; [now apply po_report|]. intros c ->. now destruct (N c). }
    assert (forall ev, prudent ev (fun e => proper w g k (Prep e) /\ forall c, e = Ran c -> c_argv c <> []) (sync_config ev (kern_of w g a v))) as SY.
    { intros ev. unfold sync_config. destruct (ver_geb _ _); apply prudent_make; rewrite (kern_kdir w g k a K); (split; [|intros c [= <-]; discriminate]);
        (eapply (po_target w g k a); [exact G|exact CH| |now apply make_makes]); auto. }
    repeat (apply prudent_bind; [|intros _]); try apply SY; first [apply prudent_edit; assumption | apply prudent_deps; assumption].
  Qed.
  Lemma sound_configure (G : g_config g = true \/ g_build g = true) D D' r : configure_at w g a D = (D', r) -> sound (proper w g k) D D' r.
  Proof.
    unfold configure_at. destruct (lift w _ D) as [D1 r1] eqn:E1. apply sound_targets in E1; [|exact G|auto].
    destruct r1 as [u|x|n|].
    - destruct (fst (get_version None (Some (version_now w D1 (path_arg (g_kdir g)))) vstate0)) as [v|x|n|] eqn:V.
      + intros E. apply sound_settle in E; [|exact G]. eapply sound_trans; eassumption.
      + intros [= <- <-]. eapply sound_trans; [exact E1|]. now apply sound_nil.
      + intros [= <- <-]. eapply sound_trans; [exact E1|]. apply sound_nil. intros n' [= <-]. revert V. cbn [get_version vstate0 vs_version].
        unfold version_now. destruct (snd (M_Command.ensure_command _ _ _ _ _)) as [[out|]|x|m|] eqn:EC; cbn [bind]; try discriminate.
        * destruct (version_from_str out); discriminate.
        * cbn [fst]. intros [= <-]. now apply ensure_Exit in EC.
      + intros [= <- <-]. eapply sound_trans; [exact E1|]. now apply sound_nil.
    - intros [= <- <-]. eapply sound_fail; [exact E1|discriminate|reflexivity].
    - intros [= <- <-]. eapply sound_fail; [exact E1|discriminate|reflexivity].
    - intros [= <- <-]. eapply sound_fail; [exact E1|discriminate|reflexivity].
  Qed.
End Steps.
