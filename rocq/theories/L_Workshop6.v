(** Lemmas about preparing sources (C108): the whole program, when it ends well. *)
From Coq Require Import List Bool Ascii String ZArith Lia.
From Verif Require Import PyBase PyFacts M_Utils M_Elf M_Syscall M_Arch M_Kernel M_Kconfig M_Build M_Config M_Command M_Search M_Main M_Program M_Workshop
  S_Utils S_Output S_Arch S_Config S_Main L_Utils L_Config L_Config2 L_Config4 L_Arch L_Arch3 L_Main L_Main2 S_Workshop L_Workshop L_Workshop2 L_Workshop3 L_Workshop4 L_Workshop5.
From Verif Require S_Build L_Build.
Import ListNotations.
Open Scope Z_scope.
Open Scope list_scope.

(** ** Options of the only instance *)
Lemma only_fresh a n v : arch_from_name n (a_version a) = Ok a -> fresh_kconfig a v = Some (only_kconfig a v).
Proof.
  unfold arch_from_name. destruct (dget str_eqb n SUPPORTED_ARCHS) as [[[kl abi] b]|]; [|discriminate]. intros A.
  destruct (arch_new_fields _ _ _ _ _ A) as (F1 & F2 & F3 & F4 & _).
  unfold fresh_kconfig, only_kconfig. rewrite F1, F3, F4. unfold run_process. cbn [fold_left act_step process0 p_world p_objs]. unfold instantiate. rewrite A. cbn [bind p_objs p_world app].
  now rewrite <- F1.
Qed.

(** ** Lists *)
Lemma quiet_app A B C D : quiet A B -> quiet C D -> quiet (A ++ C) (B ++ D).
Proof. induction 1; intros H'; [exact H'|constructor; auto|cbn [app]; constructor; auto]. Qed.
Lemma quiet_deeds l d : deeds l d -> quiet (map Main l) (map Main d).
Proof. induction 1 as [|s l d H IH|x l d N H IH]; cbn [map]; constructor; auto. intros s E. injection E as ->. destruct N. now exists s. Qed.
Lemma messages_said silent l : sayings silent l -> messages (map Main l).
Proof. intros [F _]. unfold messages. apply Forall_map. revert F. apply Forall_impl. intros x [s ->]. now exists s. Qed.
Lemma quiet_messages L : messages L -> quiet L [].
Proof. induction 1 as [|x L [s ->] _ IH]; constructor; auto. Qed.
Lemma messages_app L M : messages L -> messages M -> messages (L ++ M).
Proof. intros A B. now apply Forall_app. Qed.

(** ** Success *)
Lemma mbind_Ok {A B} (x : mio A) (f : A -> mio B) h h' b : mbind x f h = (h', Ok b) -> exists h1 a, x h = (h1, Ok a) /\ f a h1 = (h', Ok b).
Proof. unfold mbind. destruct (x h) as [h1 [a|e|n|]]; try discriminate. eauto. Qed.
Lemma eprint_Ok silent s h h' u : eprint silent s h = (h', Ok u) -> exists l, sayings silent l /\ h' = h ++ l.
Proof.
  unfold eprint. destruct silent.
  - intros [= <- _]. exists []. rewrite app_nil_r. split; [split; [constructor|reflexivity]|reflexivity].
  - intros [= <- _]. exists [Said s]. split; [split; [repeat constructor; now exists s|discriminate]|reflexivity].
Qed.

Section Program.
  Context (w : workshop) (g : args).
  Let m := M_Program.machine_of (computer_of w g) g.

  Lemma make_told h k v : path_arg (g_kdir g) = Some k -> mc_make_version m h = Ok (Some v) -> told w (doings w g h) k v.
  Proof.
    intros K E. apply version_told. rewrite <- E. cbn [m M_Program.machine_of mc_make_version]. rewrite K. unfold version_now, capture.
    assert (waits (computer_of w g) h (Shell $"make kernelversion") (Some k) = false) as W.
    { unfold waits. cbn [computer_of pc_run]. now destruct (popen_ _ _ _). }
    rewrite W. change (system_at (computer_of w g) h) with (shop_at w (doings w g h)).
    destruct (snd (M_Command.ensure_command _ _ _ _ _)) as [[s|]|x|n|]; reflexivity.
  Qed.
  Lemma start_checkout k h0 : deeds h0 (explicit_checkout g (Some k)) ->
    doings w g h0 = map Main h0 /\ quiet (map Main h0) (map Main (explicit_checkout g (Some k))).
  Proof.
    intros D. split; [|now apply quiet_deeds]. change h0 with ([] ++ h0) at 1. rewrite doings_plain; [reflexivity|]. intros x I.
    destruct x; auto; (apply (deeds_In _ _ _ D) in I; [|intros [? X]; discriminate X]); unfold explicit_checkout in I;
      destruct (g_checkout g) as [s|]; try destruct I; destruct (_ || _); try destruct I as [X|[]]; try discriminate X; destruct I.
  Qed.
  Lemma checkout_cases k :
    (exists ref, g_checkout g = Some ref /\ ref <> [] /\ ref <> $"auto" /\ map Main (explicit_checkout g (Some k)) = [Main (CheckedOut (Some k) ref)]) \/
    ((~ present (g_checkout g) \/ g_checkout g = Some $"auto") /\ map Main (explicit_checkout g (Some k)) = []).
  Proof.
    unfold explicit_checkout. destruct (g_checkout g) as [[|c s]|].
    - right. split; [left; intros (s & [= <-] & N); now destruct N|reflexivity].
    - replace (len (c :: s) =? 0) with false by (symmetry; apply Z.eqb_neq; rewrite len_cons; pose proof (len_nonneg s); lia). cbn [orb].
      destruct (str_eqb (c :: s) $"auto") eqn:A.
      + apply str_eqb_eq in A. right. split; [right; f_equal; exact A|reflexivity].
      + left. exists (c :: s). split; [reflexivity|]. split; [discriminate|]. split; [|reflexivity]. intros E. rewrite E in A. discriminate A.
    - right. split; [left; intros (s & X & _); discriminate X|reflexivity].
  Qed.

  Lemma clean_done k a h h' u : path_arg (g_kdir g) = Some k -> act (Cleaned (Some k) a) (fun h => mc_clean m h a) h = (h', Ok u) ->
    exists C, doings w g h' = doings w g h ++ C /\ cleaned w g k a C.
  Proof.
    intros K E. unfold act in E. cbn [m M_Program.machine_of mc_clean computer_of pc_clean] in E. injection E as <- E. rewrite doings_app. cbn [fold_left perform].
    destruct (clean_at w g a (doings w g h)) as [D' r] eqn:C. cbn [fst snd] in *. subst r. destruct u. now apply (clean_exact w g k a K) in C.
  Qed.
  Lemma configure_done k a h h' u : path_arg (g_kdir g) = Some k -> (forall v, fresh_kconfig a v = Some (only_kconfig a v)) ->
    act (Configured (Some k) a) (fun h => mc_configure m h a) h = (h', Ok u) ->
    exists v F, doings w g h' = doings w g h ++ F /\ configured w g k a v (doings w g h) F.
  Proof.
    intros K FK E. unfold act in E. cbn [m M_Program.machine_of mc_configure computer_of pc_configure] in E. injection E as <- E. rewrite doings_app. cbn [fold_left perform].
    destruct (configure_at w g a (doings w g h)) as [D' r] eqn:C. cbn [fst snd] in *. subst r. destruct u. now apply (configure_exact w g k a K) in C.
  Qed.
  Lemma build_done k a h h' t : path_arg (g_kdir g) = Some k -> (g_disable_opt g = true -> lasting w k) ->
    act (Built (Some k) a (g_disable_opt g)) (fun h => mc_build m h a (g_disable_opt g)) h = (h', Ok t) ->
    exists B, doings w g h' = doings w g h ++ B /\ built w g k a (doings w g h) B.
  Proof.
    intros K L E. unfold act in E. cbn [m M_Program.machine_of mc_build computer_of pc_build] in E. injection E as <- E. rewrite doings_app. cbn [fold_left perform].
    unfold build_at in *. destruct (g_disable_opt g) eqn:O.
    - destruct (work_build w g k a K (doings w g h) (L eq_refl)) as (D' & r & W & B & _). rewrite O in W. rewrite W in *. cbn [fst snd] in *.
      destruct r as [[]|x|n|]; try discriminate E. now apply B.
    - cbn [build] in *. destruct (work_normal w g k a K None (doings w g h)) as (r & W & R). rewrite W in *. cbn [fst snd] in *.
      destruct R as [[-> R]|[_ (n & -> & _)]]; [|discriminate E]. eexists. split; [reflexivity|]. apply bu_plain; [exact O|now apply make_makes|exact R].
  Qed.

  Lemma prepare_done k h0 h : path_arg (g_kdir g) = Some k -> deeds h0 (explicit_checkout g (Some k)) ->
    (g_build g = true -> g_disable_opt g = true -> lasting w k) ->
    prepare m g (silence g) (option_map lower (g_arch g)) (Some k) h0 = (h, Ok 0) ->
    exists a v, chosen g a /\ prepared w g k a v (doings w g h).
  Proof.
    intros K DE LA E. destruct (start_checkout k h0 DE) as [S0 Q0]. unfold prepare in E. cbv zeta in E.
    apply mbind_Ok in E as (h1 & ok & E1 & E).
    assert (ok = true -> exists out, doings w g h1 = map Main h0 ++ out /\
      ((exists o, g_out g = Some o /\ o <> [] /\ out = [Main (MadeDir (path_of_str o))]) \/ (~ present (g_out g) /\ out = []))) as O1.
    { intros ->. destruct (path_arg (g_out g)) as [o|] eqn:O.
      - apply mbind_Ok in E1 as (h2 & bad & E2 & E1). injection E2 as <- _. destruct bad; [discriminate E1|]. unfold act in E1. injection E1 as <- _.
        exists [Main (MadeDir o)]. rewrite doings_plain by now intros y [<-|[]]. rewrite S0. split; [reflexivity|]. left.
        apply path_arg_Some in O as (s & O & N & ->). eauto.
      - injection E1 as <-. exists []. rewrite app_nil_r, S0. split; [reflexivity|]. right. split; [now apply path_arg_None|reflexivity]. }
    destruct ok; [|discriminate E]. destruct (O1 eq_refl) as (out & S1 & OC). clear O1 E1. cbn [negb] in E.
    apply mbind_Ok in E as (h2 & gcc & E1 & E). injection E1 as <- _. destruct gcc; [|discriminate E]. cbn [negb] in E.
    apply mbind_Ok in E as (h2 & [] & E1 & E).
    assert (exists l, sayings (silence g) l /\ h2 = h1 ++ l) as (l1 & SL1 & ->).
    { destruct (g_config g || g_build g).
      - apply mbind_Ok in E1 as (h3 & v & E2 & E1). injection E2 as <- _. now apply eprint_Ok in E1.
      - injection E1 as <-. exists []. rewrite app_nil_r. split; [split; [constructor|reflexivity]|reflexivity]. }
    apply mbind_Ok in E as (h3 & a & EA & E). unfold try_ in EA. injection EA as <- EA. clear E1.
    apply instantiate_Ok in EA. pose proof (made_for_init m g _ _ _ EA) as [_ [CH _]]. apply init_without_image in EA as (_ & n & v & AN & GV & AR).
    apply get_version_make in GV.
    assert (a_version a = v) as AV.
    { revert AR. unfold arch_from_name. destruct (dget str_eqb n SUPPORTED_ARCHS) as [[[kl abi] b]|]; [|discriminate]. intros A. now destruct (arch_new_fields _ _ _ _ _ A) as (_ & F2 & _). }
    subst v. pose proof (fun v => only_fresh a n v AR) as FK. apply (make_told _ _ _ K) in GV.
    exists a. assert (chosen g a) as CA by exact CH.
    assert (start g k (doings w g (h1 ++ l1))) as ST.
    { exists (map Main (explicit_checkout g (Some k))), out. rewrite (doings_said w g _ _ _ SL1), S1. split; [|split; [apply checkout_cases|exact OC]].
      rewrite <- (app_nil_r (map Main (explicit_checkout g (Some k)) ++ out)). apply quiet_app; [apply quiet_app; [exact Q0|]|apply quiet_messages, (messages_said _ _ SL1)].
      destruct OC as [(o & _ & _ & ->)|[_ ->]]; repeat constructor; discriminate. }
    set (S := doings w g (h1 ++ l1)) in *. set (hS := h1 ++ l1) in *.
    assert (forall h h', (_ <-- eprint (silence g) $"Cleaning kernel sources" ;; act (Cleaned (Some k) a) (fun h => mc_clean m h a)) h = (h', Ok tt) ->
      exists M C, messages M /\ cleaned w g k a C /\ doings w g h' = doings w g h ++ M ++ C) as CL.
    { intros ha hb X. apply mbind_Ok in X as (hc & [] & X1 & X). apply eprint_Ok in X1 as (l & SL & ->). apply (clean_done k a _ _ _ K) in X as (C & -> & CC).
      exists (map Main l), C. rewrite (doings_said w g _ _ _ SL), <- app_assoc. split; [now apply (messages_said (silence g))|]. auto. }
    assert (forall h h', (v <-- try_ (fun h => let '(r, s) := get_version None (Some (mc_make_version m h)) vstate0 in
                       v <- r ;; Ok (version_str v (match vs_source s with Some x => x | None => $"None" end))) ;;
        _ <-- eprint (silence g) ($"Detected kernel version: " ++ v) ;;
        _ <-- eprint (silence g) $"Configuring kernel" ;;
        act (Configured (Some k) a) (fun h => mc_configure m h a)) h = (h', Ok tt) ->
      exists M v F, messages M /\ configured w g k a v (doings w g h ++ M) F /\ doings w g h' = doings w g h ++ M ++ F) as CF.
    { intros ha hb X. apply mbind_Ok in X as (hc & v & X1 & X). injection X1 as <- _.
      apply mbind_Ok in X as (hd & [] & X1 & X). apply eprint_Ok in X1 as (l & SL & ->).
      apply mbind_Ok in X as (he & [] & X1 & X). apply eprint_Ok in X1 as (l' & SL' & ->).
      apply (configure_done k a _ _ _ K FK) in X as (v' & F & -> & CC).
      rewrite (doings_said w g _ _ _ SL'), (doings_said w g _ _ _ SL), <- !app_assoc in *.
      exists (map Main l ++ map Main l'), v', F. split; [apply messages_app; now apply (messages_said (silence g))|]. rewrite <- !app_assoc. auto. }
    destruct (g_build g) eqn:B; [|destruct (g_config g) eqn:GC].
    - apply mbind_Ok in E as (h4 & [] & E1 & E). apply CL in E1 as (M & C & MM & CC & D4).
      apply mbind_Ok in E as (h5 & [] & E1 & E). apply CF in E1 as (M' & v & F & MM' & CO & D5).
      apply mbind_Ok in E as (h6 & [] & E1 & E). apply eprint_Ok in E1 as (l & SL & ->).
      apply mbind_Ok in E as (h7 & t & E1 & E). apply (build_done k a _ _ _ K (LA eq_refl)) in E1 as (BB & D7 & BU).
      apply mbind_Ok in E as (h8 & [] & E1 & E). apply eprint_Ok in E1 as (l' & SL' & ->). injection E as <-.
      rewrite (doings_said w g _ _ _ SL'), D7. rewrite (doings_said w g _ _ _ SL), D5, D4 in BU |- *. fold S in BU |- *. rewrite D4 in CO. fold S in CO.
      rewrite <- !app_assoc in *.
      exists v. split; [exact CA|]. apply (pr_build w g k a v S M C M' F (map Main l) BB (map Main l')); auto; now apply (messages_said (silence g)).
    - apply mbind_Ok in E as (h4 & [] & E1 & E). apply CL in E1 as (M & C & MM & CC & D4).
      apply mbind_Ok in E as (h5 & [] & E1 & E). apply CF in E1 as (M' & v & F & MM' & CO & D5).
      apply mbind_Ok in E as (h6 & [] & E1 & E). apply eprint_Ok in E1 as (l & SL & ->). injection E as <-.
      rewrite (doings_said w g _ _ _ SL), D5, D4. rewrite D4 in CO. fold S in CO |- *. rewrite <- !app_assoc in *.
      exists v. split; [exact CA|]. apply (pr_config w g k a v S M C M' F (map Main l)); auto; now apply (messages_said (silence g)).
    - apply mbind_Ok in E as (h4 & [] & E1 & E). apply CL in E1 as (M & C & MM & CC & D4).
      apply mbind_Ok in E as (h6 & [] & E1 & E). apply eprint_Ok in E1 as (l & SL & ->). injection E as <-.
      rewrite (doings_said w g _ _ _ SL), D4. fold S. rewrite <- !app_assoc.
      exists (a_version a). split; [exact CA|]. apply (pr_clean w g k a (a_version a) S M C (map Main l)); auto; now apply (messages_said (silence g)).
  Qed.
End Program.
