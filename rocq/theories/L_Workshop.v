(** Lemmas about preparing sources (C108): commands and single steps. *)
From Coq Require Import List Bool Ascii String ZArith Lia.
From Verif Require Import PyBase PyFacts M_Utils M_Elf M_Syscall M_Arch M_Kernel M_Kconfig M_Build M_Config M_Command M_Search M_Main M_Program M_Workshop
  S_Utils S_Output S_Arch S_Config S_Main L_Utils L_Output L_Config L_Config2 L_Config4 L_Arch L_Main S_Workshop.
From Verif Require S_Build L_Build.
Import ListNotations.
Open Scope Z_scope.
Open Scope list_scope.

(** ** Commands *)

Lemma entry_dir n : entry_of n = Dir <-> exists l, n = Some (NDir l).
Proof. destruct n as [[l|b|]|]; cbn; split; try discriminate; try (intros [l' H]; discriminate H); eauto. Qed.
Lemma started_well w D c out : started w D (c_argv c) (c_cwd c) = Some (0, out) -> c_argv c <> [] -> went_well w D c.
Proof.
  unfold started, popen_. cbn [sys_entry sys_found sys_run shop_at program]. intros H N.
  destruct (entry_of (ws_look w D (c_cwd c))) eqn:E; try discriminate H. apply entry_dir in E.
  destruct (c_argv c) as [|p args] eqn:A; [congruence|]. cbn [hd] in H.
  destruct (ws_found w D (Some (c_cwd c)) p) eqn:F; [|discriminate H].
  destruct (ws_run w D (Argv (p :: args)) (Some (c_cwd c))) as [[st o] err] eqn:R. injection H as -> ->.
  split; [exact E|]. split; [eauto|]. rewrite A. eauto.
Qed.
Lemma well_started w D c : went_well w D c -> exists out, started w D (c_argv c) (c_cwd c) = Some (0, out).
Proof.
  intros (E & (p & args & A & F) & out & err & R). unfold started, popen_. cbn [sys_entry sys_found sys_run shop_at program].
  apply entry_dir in E. rewrite E, A. cbn [hd]. rewrite F, <- A, R. eauto.
Qed.
(** The same as the function that is modelled line by line *)
Lemma ensure_same w D p args cwd : M_Utils.ensure_command (started w D (p :: args) cwd) =
  (out <- snd (M_Command.ensure_command (shop_at w D) (Argv (p :: args)) (Some cwd) true false) ;;
   match out with Some s => Ok s | None => Raise AttributeError end).
Proof.
  unfold started, M_Command.ensure_command, do_popen. cbn [negb orb].
  destruct (popen_ (shop_at w D) (Argv (p :: args)) (Some cwd)) as [st out err| |]; cbn [M_Utils.ensure_command snd].
  - destruct (st =? 0); reflexivity.
  - cbn [sys_entry shop_at]. destruct (entry_of (ws_look w D cwd)); reflexivity.
  - reflexivity.
Qed.
Lemma ensure_quiet_same w D p args cwd console : (_ <- M_Utils.ensure_command (started w D (p :: args) cwd) ;; Ok tt) =
  (_ <- snd (M_Command.ensure_command (shop_at w D) (Argv (p :: args)) (Some cwd) false console) ;; Ok tt).
Proof.
  unfold started, M_Command.ensure_command, do_popen. rewrite orb_true_r. cbn [negb].
  destruct (popen_ (shop_at w D) (Argv (p :: args)) (Some cwd)) as [st out err| |]; cbn [M_Utils.ensure_command snd].
  - destruct (st =? 0); reflexivity.
  - cbn [sys_entry shop_at]. destruct (entry_of (ws_look w D cwd)); reflexivity.
  - reflexivity.
Qed.
Lemma run_same w D p args cwd : Ok (M_Utils.run_command (option_map fst (started w D (p :: args) cwd))) =
  snd (M_Command.run_command (shop_at w D) (Argv (p :: args)) (Some cwd)).
Proof.
  unfold started, M_Command.run_command, do_popen.
  destruct (popen_ (shop_at w D) (Argv (p :: args)) (Some cwd)) as [st out err| |]; cbn; try reflexivity.
  destruct (entry_of (ws_look w D cwd)); reflexivity.
Qed.

Lemma version_told w D k v : version_now w D (Some k) = Ok (Some v) -> told w D k v.
Proof.
  unfold version_now, M_Command.ensure_command, do_popen, popen_. cbn [negb orb sys_entry sys_found sys_run shop_at program].
  destruct (entry_of (ws_look w D k)); [discriminate|discriminate|].
  destruct (ws_found w D (Some k) $"/bin/sh"); [|discriminate].
  destruct (ws_run w D (Shell $"make kernelversion") (Some k)) as [[st out] err] eqn:R. unfold told. rewrite R.
  destruct (st =? 0) eqn:Z; cbn [negb snd bind]; [|discriminate]. apply Z.eqb_eq in Z as ->. intros H.
  assert (version_from_str out = Some v) as V by (injection H; auto). eauto.
Qed.

(** ** make *)

Lemma make_makes w g k a v target : path_arg (g_kdir g) = Some k ->
  makes w g k a target (Command (make_argv (kern_of w g a v) target) k None).
Proof.
  intros K. unfold kern_of. rewrite K. split; [reflexivity|]. split; [reflexivity|].
  unfold make_argv. cbn [c_argv k_kdir k_ncpu k_arch k_cwd k_cross k_outdir].
  set (j := $"-j" ++ str_of_int (Z.max (ws_ncpu w - 1) 1)). set (b := $"ARCH=" ++ class_name (a_class a)).
  set (f := $"KCFLAGS='-fdebug-prefix-map=" ++ str_of_path (path_join (ws_cwd w) k) ++ $"=.'").
  set (x := match match g_cross g with Some c => c | None => [] end with [] => [] | c => [$"CROSS_COMPILE=" ++ c] end).
  set (o := match path_arg (g_out g) with None => [] | Some o => [$"O=" ++ str_of_path o] end).
  exists ([j; b; f] ++ x ++ o). split; [cbn [app]; now rewrite <- app_assoc|].
  assert (X : forall s, In s x <-> exists c, g_cross g = Some c /\ c <> [] /\ s = $"CROSS_COMPILE=" ++ c).
  { intros s. unfold x. destruct (g_cross g) as [[|c t]|]; cbn [In]; split; try tauto.
    - intros (c & E & N & _). injection E as <-. now destruct N.
    - intros [<-|[]]. eexists. split; [reflexivity|]. split; [discriminate|reflexivity].
    - intros (c' & E & N & ->). injection E as <-. now left.
    - intros (c & E & _). discriminate E. }
  assert (O : forall s, In s o <-> exists c, g_out g = Some c /\ c <> [] /\ s = $"O=" ++ str_of_path (path_of_str c)).
  { intros s. unfold o, path_arg. destruct (g_out g) as [[|c t]|]; cbn [In]; split; try tauto.
    - intros (c & E & N & _). injection E as <-. now destruct N.
    - intros [<-|[]]. eexists. split; [reflexivity|]. split; [discriminate|reflexivity].
    - intros (c' & E & N & ->). injection E as <-. now left.
    - intros (c & E & _). discriminate E. }
  split.
  - assert (NX : NoDup x) by (unfold x; destruct (match g_cross g with Some c => c | None => [] end); repeat constructor; auto).
    assert (NO : NoDup o) by (unfold o; destruct (path_arg (g_out g)); repeat constructor; auto).
    assert (N : NoDup (x ++ o)).
    { destruct x as [|s [|s0 l0]]; [exact NO| |].
      - cbn [app]. constructor; [|exact NO]. intros I. apply O in I as (c & _ & _ & E). assert (In s [s]) as I by now left. apply X in I as (c' & _ & _ & ->). discriminate E.
      - exfalso. assert (In s (s :: s0 :: l0)) as I by now left. assert (In s0 (s :: s0 :: l0)) as J by (right; now left).
        apply X in I as (c & E & _ & ->). apply X in J as (c' & E' & _ & ->). assert (c = c') as -> by congruence. inversion NX. destruct H1. now left. }
    assert (S : forall s, In s (x ++ o) -> (exists t, s = $"C" ++ t) \/ (exists t, s = $"O" ++ t)).
    { intros s I. apply in_app_or in I as [I|I]; [apply X in I as (c & _ & _ & ->); left|apply O in I as (c & _ & _ & ->); right]; eexists; reflexivity. }
    cbn [app]. constructor; [|constructor; [|constructor; [|exact N]]].
    + intros [E|[E|I]]; [discriminate E|discriminate E|]. apply S in I as [[t E]|[t E]]; discriminate E.
    + intros [E|I]; [discriminate E|]. apply S in I as [[t E]|[t E]]; discriminate E.
    + intros I. apply S in I as [[t E]|[t E]]; discriminate E.
  - intros s. cbn [app In]. rewrite in_app_iff, X, O. split.
    + intros [<-|[<-|[<-|[(c & E & N & ->)|(c & E & N & ->)]]]].
      * apply (ma_jobs w g k a (Z.max (ws_ncpu w - 1) 1)); lia.
      * apply ma_arch.
      * apply ma_map.
      * now apply ma_cross.
      * now apply ma_out.
    + intros [n N1 N2| | |c E N|c E N]; [left|auto|auto|right; right; right; left; eauto|do 4 right; eauto].
      unfold j. f_equal. assert (n = Z.max (ws_ncpu w - 1) 1) as -> by lia. reflexivity.
Qed.
