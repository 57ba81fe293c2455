(** Lemmas about preparing sources (C108): the theorems. *)
From Coq Require Import List Bool Ascii String ZArith Lia.
From Verif Require Import PyBase PyFacts M_Utils M_Elf M_Syscall M_Arch M_Kernel M_Kconfig M_Build M_Config M_Command M_Search M_Main M_Program M_Workshop
  S_Utils S_Output S_Arch S_Config S_Main L_Utils L_Config L_Config2 L_Config4 L_Arch L_Arch3 L_Main L_Main2 S_Workshop L_Workshop L_Workshop2 L_Workshop3 L_Workshop4 L_Workshop5 L_Workshop6.
From Verif Require S_Build L_Build.
Import ListNotations.
Open Scope Z_scope.
Open Scope list_scope.

Lemma run_doings w g D r : run_in w g = (D, r) ->
  exists h, ran (M_Program.machine_of (computer_of w g) g) g h r /\ main (M_Program.machine_of (computer_of w g) g) g [] = (h, r) /\ D = doings w g h.
Proof.
  unfold run_in. destruct (main _ g []) as [h r'] eqn:E. intros [= <- <-]. exists h. split; [now apply main_cases|]. auto.
Qed.
Lemma kdir_arg g k : kdir_of g k -> path_arg (g_kdir g) = Some k.
Proof. intros (s & E & N & ->). unfold path_arg. rewrite E. now destruct s. Qed.

(** ** Every command *)

(** Without a source directory nothing is done but messages and the output directory. *)
Definition permitted (w : workshop) (g : args) (x : doing) : Prop :=
  (exists k, kdir_of g k /\ proper w g k x) \/
  (~ present (g_kdir g) /\ ((exists s, x = Main (Said s)) \/ exists o, g_out g = Some o /\ o <> [] /\ x = Main (MadeDir (path_of_str o)))).
Lemma permitted_plain w g y : ~ misuse g ->
  match y with Said _ => True | CheckedOut d ref => (exists k, kdir_of g k /\ d = Some k) /\ g_checkout g = Some ref
             | MadeDir o => path_arg (g_out g) = Some o | _ => False end -> permitted w g (Main y).
Proof.
  intros NM H. destruct (path_arg (g_kdir g)) as [k|] eqn:K.
  - left. exists k. split; [now apply kdir_path|]. destruct y; try contradiction.
    + apply po_said.
    + destruct H as [(k' & KO & ->) GC]. apply kdir_arg in KO. assert (k = k') as <- by congruence. now apply po_checkout.
    + apply path_arg_Some in H as (s & O & N & ->). now apply po_mkdir.
  - right. pose proof (proj1 (path_arg_None _) K) as NP. split; [exact NP|]. destruct y; try contradiction.
    + left. eauto.
    + destruct H as [(k' & KO & _) _]. apply kdir_arg in KO. congruence.
    + right. apply path_arg_Some in H as (s & O & N & ->). eauto.
Qed.
Lemma sound_all {A} w g P D0 D (r : outcome A) (L : list action) : D = D0 ++ map Main L -> Forall (fun y => P (Main y)) L -> (forall n, r = Exit n -> n <> 0) -> sound w g P D0 D r.
Proof.
  intros -> F Z. exists (map Main L). split; [reflexivity|]. split; [now apply Forall_map|]. split; [|exact Z].
  intros L1 c L2 E. exfalso. assert (In (Prep (Ran c)) (map Main L)) as I by (rewrite E; apply in_or_app; right; now left).
  apply in_map_iff in I as (y & X & _). discriminate X.
Qed.
Lemma checkout_plain m g h x : deeds h (explicit_checkout g (path_arg (g_kdir g))) -> Forall (allowed m g) h -> In x h ->
  match x with Said _ => True | CheckedOut d ref => (exists k, kdir_of g k /\ d = Some k) /\ g_checkout g = Some ref
             | MadeDir o => path_arg (g_out g) = Some o | _ => False end.
Proof.
  intros D AL I. rewrite Forall_forall in AL. pose proof (AL x I) as A. destruct x; auto;
    (apply (deeds_In _ _ _ D) in I; [|intros [? X]; discriminate X]); unfold explicit_checkout in I;
      destruct (g_checkout g) as [s|] eqn:CO; try destruct I; destruct (_ || _) eqn:O; try destruct I as [X|[]]; try discriminate X; try destruct I.
  injection X as <- <-. split; [apply A|reflexivity].
Qed.
Lemma run_sound w g D r : preparing g -> run_in w g = (D, r) -> sound w g (permitted w g) [] D r.
Proof.
  intros P E. apply run_doings in E as (h & R & _ & ->). destruct R as [n|n| |h r AF NM DE AL _ _ EX|h0 h r AF NM DE AL _ R|h0 h r AF NM DE AL NP R].
  - now apply sound_nil.
  - now apply sound_nil.
  - now apply sound_nil.
  - pose proof (checkout_plain (M_Program.machine_of (computer_of w g) g) g h) as CP. assert (doings w g h = [] ++ map Main h) as EQ.
    { change h with ([] ++ h) at 1. rewrite doings_plain; [reflexivity|]. intros x I. specialize (CP x DE AL I). now destruct x. }
    apply (sound_all w g _ [] _ r h EQ).
    + apply Forall_forall. intros x I. apply permitted_plain; [exact NM|]. exact (CP x DE AL I).
    + intros n X. destruct (EX n X) as (h' & ref & Y). now apply checkout_Exit in Y.
  - pose proof (checkout_plain (M_Program.machine_of (computer_of w g) g) g h0) as CP. assert (doings w g h0 = [] ++ map Main h0) as EQ.
    { change h0 with ([] ++ h0) at 1. rewrite doings_plain; [reflexivity|]. intros x I. specialize (CP x DE AL I). now destruct x. }
    apply (sound_trans w g _ _ (doings w g h0) _ tt).
    + apply (sound_all w g _ [] _ _ h0 EQ); [|discriminate]. apply Forall_forall. intros x I. apply permitted_plain; [exact NM|]. exact (CP x DE AL I).
    + pose proof (safe_prepare w g (permitted w g) AF) as SP. specialize (SP (fun k K x H => or_introl (ex_intro _ k (conj (kdir_path g k K) H)))).
      specialize (SP (fun s => permitted_plain w g (Said s) NM I)). specialize (SP (fun o O => permitted_plain w g (MadeDir o) NM O) h0). rewrite R in SP. exact SP.
  - now destruct (NP P).
Qed.
Lemma run_stops w g D r D1 c D2 : preparing g -> run_in w g = (D, r) -> D = D1 ++ Prep (Ran c) :: D2 ->
  went_well w D1 c \/ attempt g c D2 \/ (D2 = [] /\ exists n, r = Exit n /\ n <> 0).
Proof.
  intros P E X. destruct (run_sound w g D r P E) as (L & -> & _ & S & Z). cbn [app] in *. destruct (S _ _ _ X) as [W|[A|[-> [n R]]]]; auto.
  right. right. split; [reflexivity|]. exists n. split; [exact R|exact (Z n R)].
Qed.
Lemma run_permitted w g D r : preparing g -> run_in w g = (D, r) -> Forall (permitted w g) D.
Proof. intros P E. destruct (run_sound w g D r P E) as (L & -> & F & _). exact F. Qed.
Lemma run_status w g D n : preparing g -> run_in w g = (D, Exit n) -> n <> 0.
Proof. intros P E. destruct (run_sound w g D (Exit n) P E) as (L & _ & _ & _ & Z). now apply Z. Qed.

(** ** Success *)
Lemma run_done w g D : preparing g -> (forall n, g_arch g = Some n -> ~ asks_help n) -> run_in w g = (D, Ok 0) ->
  (forall k, kdir_of g k -> g_build g = true -> g_disable_opt g = true -> lasting w k) ->
  exists k a v, kdir_of g k /\ chosen g a /\ prepared w g k a v D.
Proof.
  intros P NH E LA. apply run_doings in E as (h & R & _ & ->). remember (Ok 0) as r eqn:RR.
  destruct R as [n GA AH|n| |h r AF NM DE AL NO|h0 h r AF NM DE AL _ R|h0 h r AF NM DE AL NP R]; try discriminate RR.
  - now destruct (NH n GA).
  - now destruct (NO 0).
  - subst r. destruct (path_arg (g_kdir g)) as [k|] eqn:K.
    + destruct (prepare_done w g k h0 h K DE (LA k (kdir_path g k K)) R) as (a & v & CA & PR). exists k, a, v. split; [now apply kdir_path|auto].
    + destruct (post_run _ _ _ _ _ R (prepare_nowhere (M_Program.machine_of (computer_of w g) g) g (option_map lower (g_arch g)) _ h0 DE)) as [_ X].
      destruct (X 0 eq_refl); discriminate.
  - now destruct (NP P).
Qed.

(** ** The Makefile *)
Section Makefile.
  Context (w : workshop) (g : args) (k : path) (K : kdir_of g k) (LA : lasting w k).
  Local Notation content D := (content_of (ws_look w D (makefile k))).
  Lemma content_prep D l : content (D ++ map Prep l) = content D.
  Proof.
    induction l as [|e l IH] using rev_ind; [now rewrite app_nil_r|]. rewrite map_app, app_assoc. cbn [map].
    rewrite (la_kept w k LA) by discriminate. exact IH.
  Qed.
  Lemma content_said D M : messages M -> content (D ++ M) = content D.
  Proof.
    induction M as [|x M IH] using rev_ind; intros H; [now rewrite app_nil_r|]. apply Forall_app in H as [H X]. inversion X as [|? ? [s ->] _]; subst.
    rewrite app_assoc, (la_kept w k LA) by discriminate. now apply IH.
  Qed.
  Lemma lift_content {A} (x : M_Config.env -> io A) D : content (fst (lift w x D)) = content D.
  Proof. destruct (lift w x D) as [D' r] eqn:E. apply lift_run in E as (l & _ & ->). apply content_prep. Qed.
  Lemma restored_refl c : restored g c c.
  Proof. now left. Qed.
  Lemma restored_trans a b c : restored g a b -> restored g b c -> restored g a c.
  Proof.
    intros [->|(s & t & -> & -> & R & F)]; [auto|]. intros [->|(s' & t' & X & -> & R' & F')]; right; [eauto 10|].
    injection X as <-. exists s, t'. split; [reflexivity|]. split; [reflexivity|]. split; [|exact F']. apply reads_unique in R as ->. apply reads_unique in R' as ->.
    rewrite universal_twice. apply reads_universal.
  Qed.
  Lemma work_inner kk p : forall b D, exists L, fst (work w kk p b D) = D ++ L /\ forall x, ~ In (Main x) L.
  Proof.
    induction p as [r|f IH|t p IH|t p IH|f IH|p IH|p IH|f IH]; intros b D; cbn [work].
    - exists []. rewrite app_nil_r. now split.
    - destruct (content_of _) as [s|]; [apply IH|]. exists []. rewrite app_nil_r. now split.
    - destruct (IH b (D ++ [Wrote (path_join (k_kdir kk) (Path [] [$"Makefile"])) t])) as (L & -> & N). rewrite <- app_assoc. eexists. split; [reflexivity|].
      intros x [X|X]; [discriminate X|now apply N in X].
    - apply IH.
    - apply IH.
    - apply IH.
    - apply IH.
    - edestruct IH as (L & -> & N). rewrite <- app_assoc. eexists. split; [reflexivity|].
      intros x [X|X]; [discriminate X|now apply N in X].
  Qed.
  Lemma not_in_prep l x : ~ In (Main x) (map Prep l).
  Proof. intros I. apply in_map_iff in I as (y & X & _). discriminate X. Qed.
  Lemma perform_content m D x : allowed m g x -> (forall d ref, x <> CheckedOut d ref) ->
    (exists L, perform w g D x = D ++ L /\ forall d ref, ~ In (Main (CheckedOut d ref)) L) /\ restored g (content D) (content (perform w g D x)).
  Proof.
    intros A N. apply kdir_arg in K as KA. destruct x as [s|d ref|o|d a|d a|d a o|d]; cbn [perform].
    - split; [exists [Main (Said s)]; split; [reflexivity|]; intros d ref [X|[]]; discriminate X|]. left. now apply (la_kept w k LA).
    - now destruct (N d ref).
    - split; [exists [Main (MadeDir o)]; split; [reflexivity|]; intros d ref [X|[]]; discriminate X|]. left. now apply (la_kept w k LA).
    - unfold clean_at. split; [|left; apply lift_content]. destruct (lift w _ D) as [D' r] eqn:E. apply lift_run in E as (l & _ & ->). cbn [fst].
      exists (map Prep l). split; [reflexivity|]. intros d' ref. apply not_in_prep.
    - assert (exists l, fst (configure_at w g a D) = D ++ map Prep l) as [l EL].
      { unfold configure_at. destruct (lift w _ D) as [D1 r1] eqn:E1. apply lift_run in E1 as (l1 & _ & ->).
        destruct r1 as [u|x|n|]; cbn [fst]; eauto. destruct (fst (get_version _ _ _)) as [v|x|n|]; cbn [fst]; eauto.
        destruct (lift w _ (D ++ map Prep l1)) as [D2 r2] eqn:E2. apply lift_run in E2 as (l2 & _ & ->). cbn [fst]. exists (l1 ++ l2). now rewrite map_app, app_assoc. }
      rewrite EL. split; [|left; apply content_prep]. exists (map Prep l). split; [reflexivity|]. intros d' ref. apply not_in_prep.
    - cbn [allowed] in A. destruct A as (_ & GB & -> & _). unfold build_at. split.
      + destruct (work_inner (kern_of w g a []) (build (g_disable_opt g)) None D) as (L & X & NI). destruct (work w _ _ _ _) as [D' r]. cbn [fst] in *. eauto.
      + destruct (work_build w g k a KA D LA) as (D' & r & -> & _ & C & _). cbn [fst]. destruct C as [C|(s & t & C1 & R & F & O & C2)]; [left; exact C|right].
        exists s, t. auto 10.
    - split; [exists [Main (Printed d)]; split; [reflexivity|]; intros d' ref [X|[]]; discriminate X|]. left. now apply (la_kept w k LA).
  Qed.
  Lemma doings_content m h : Forall (allowed m g) h ->
    exists S L, doings w g h = S ++ L /\ (S = [] \/ exists S' d ref, S = S' ++ [Main (CheckedOut d ref)]) /\
      (forall d ref, ~ In (Main (CheckedOut d ref)) L) /\ restored g (content S) (content (S ++ L)).
  Proof.
    induction h as [|x h IH] using rev_ind; intros AL.
    - exists [], []. split; [reflexivity|]. split; [now left|]. split; [now intros ? ? []|]. apply restored_refl.
    - apply Forall_app in AL as [AL A]. inversion A as [|? ? AX _]; subst. rewrite doings_app. cbn [fold_left].
      destruct (IH AL) as (S & L & E & B & N & R).
      assert ((exists d ref, x = CheckedOut d ref) \/ forall d ref, x <> CheckedOut d ref) as [(d & ref & ->)|NC] by (destruct x; first [left; eauto; fail|right; discriminate]).
      + cbn [perform]. exists (doings w g h ++ [Main (CheckedOut d ref)]), []. split; [now rewrite app_nil_r|]. split; [right; eauto|]. split; [now intros ? ? []|].
        rewrite app_nil_r. apply restored_refl.
      + destruct (perform_content m (doings w g h) x AX NC) as [(L' & E' & N') R']. exists S, (L ++ L'). rewrite E', E, app_assoc. split; [reflexivity|]. split; [exact B|]. split.
        * intros d ref I. apply in_app_or in I as [I|I]; [now apply N in I|now apply N' in I].
        * rewrite E', E in R'. eapply restored_trans; eassumption.
  Qed.
  Lemma run_makefile D r : run_in w g = (D, r) ->
    exists S L, D = S ++ L /\ (S = [] \/ exists S' d ref, S = S' ++ [Main (CheckedOut d ref)]) /\
      (forall d ref, ~ In (Main (CheckedOut d ref)) L) /\ restored g (content S) (content D).
  Proof.
    intros E. apply run_doings in E as (h & _ & M & ->). destruct (doings_content _ h (main_allowed _ _ _ _ M)) as (S & L & E & X). rewrite <- E in X. eauto.
  Qed.

  (** ** The version *)
  Lemma prepared_version a v D : version_there w k -> prepared w g k a v D -> v = a_version a.
  Proof.
    intros VT P.
    assert (forall S M C M' F, told w S k (a_version a) -> messages M -> cleaned w g k a C -> messages M' -> configured w g k a v (S ++ M ++ C ++ M') F -> v = a_version a) as H.
    { intros S M C M' F T MM (c & -> & _) MM' (f & base & _ & _ & _ & _ & _ & _ & _ & _ & opts & _ & _ & TV & _). refine (VT _ _ _ _ _ TV T).
      rewrite !app_assoc. rewrite content_prep, content_said by assumption. change [Prep (Ran c)] with (map Prep [Ran c]).
      rewrite content_prep, content_said by assumption. reflexivity. }
    destruct P; eauto.
  Qed.
End Makefile.

Lemma run_done_version w g D : preparing g -> (forall n, g_arch g = Some n -> ~ asks_help n) -> run_in w g = (D, Ok 0) ->
  (forall k, kdir_of g k -> lasting w k /\ version_there w k) ->
  exists k a, kdir_of g k /\ chosen g a /\ prepared w g k a (a_version a) D.
Proof.
  intros P NH E LA. destruct (run_done w g D P NH E) as (k & a & v & K & C & PR); [intros; now apply LA|].
  exists k, a. split; [exact K|]. split; [exact C|]. rewrite <- (prepared_version w g k (proj1 (LA k K)) a v D (proj2 (LA k K)) PR) at 1. exact PR.
Qed.

(** ** Without preparing *)
Lemma run_plain w g D r x : ~ preparing g -> run_in w g = (D, r) -> In x D ->
  exists y, x = Main y /\ ((exists s, y = Said s) \/ (exists d ref, y = CheckedOut d ref) \/ exists d, y = Printed d).
Proof.
  intros NP E I. apply run_doings in E as (h & _ & M & ->). apply main_allowed in M. rewrite Forall_forall in M.
  assert (forall y, In y h -> (exists s, y = Said s) \/ (exists d ref, y = CheckedOut d ref) \/ exists d, y = Printed d) as H.
  { intros y IY. specialize (M y IY). destruct y; cbn [allowed] in M; eauto; destruct NP; unfold preparing; tauto. }
  assert (doings w g h = [] ++ map Main h) as EQ.
  { change h with ([] ++ h) at 1. rewrite doings_plain; [reflexivity|]. intros y IY. destruct (H y IY) as [(? & ->)|[(? & ? & ->)|(? & ->)]]; exact Logic.I. }
  rewrite EQ in I. cbn [app] in I. apply in_map_iff in I as (y & <- & IY). eauto.
Qed.
