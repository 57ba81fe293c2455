(** Lemmas about preparing sources (C108): what each step does. *)
From Coq Require Import List Bool Ascii String ZArith Lia.
From Verif Require Import PyBase PyFacts M_Utils M_Elf M_Syscall M_Arch M_Kernel M_Kconfig M_Build M_Config M_Command M_Search M_Main M_Program M_Workshop
  S_Utils S_Output S_Arch S_Config S_Main L_Utils L_Config L_Config2 L_Config4 L_Arch L_Arch3 L_Main S_Workshop L_Workshop.
From Verif Require S_Build L_Build.
Import ListNotations.
Open Scope Z_scope.
Open Scope list_scope.

(** ** Steps of M_Config in the list of all that is done *)

Lemma lift_run {A} w (x : M_Config.env -> io A) D D' r : lift w x D = (D', r) ->
  exists l, x (env_from w D) [] = (l, r) /\ D' = D ++ map Prep l.
Proof. unfold lift. destruct (x (env_from w D) []) as [l r'] eqn:E. intros [= <- <-]. eauto. Qed.

Lemma exact_make_Ok ev k target stdin h h' : make ev k target stdin h = (h', Ok tt) ->
  h' = h ++ [Ran (Command (make_argv k target) (k_kdir k) None)] /\
  exists out, e_run ev h (Command (make_argv k target) (k_kdir k) None) = Some (0, out).
Proof.
  intros E. apply io_bind_Ok in E as (h1 & a & E & D). injection D as <-. injection E as <- E. split; [reflexivity|].
  unfold received in E. unfold M_Utils.ensure_command in E. destruct (e_run ev h _) as [[rc out]|]; [|discriminate E].
  destruct (rc =? 0) eqn:R; [|discriminate E]. apply Z.eqb_eq in R as ->. eauto.
Qed.

Section Steps.
  Context (w : workshop) (g : args) (k : path) (a : arch) (K : path_arg (g_kdir g) = Some k).

  Lemma kern_kdir v : k_kdir (kern_of w g a v) = k.
  Proof. unfold kern_of. now rewrite K. Qed.
  Lemma kern_arch v : k_arch (kern_of w g a v) = a.
  Proof. reflexivity. Qed.
  Lemma kern_config v : dotconfig g k (config_file (kern_of w g a v)).
  Proof.
    unfold config_file, kern_of. cbn [k_outdir k_kdir]. rewrite K. unfold path_arg. destruct (g_out g) as [[|c s]|] eqn:O.
    - apply dc_in. rewrite O. intros (s & E & N). injection E as <-. now destruct N.
    - eapply dc_out; [exact O|discriminate].
    - apply dc_in. rewrite O. intros (s & E & N). discriminate E.
  Qed.
  Lemma make_exact ev v target stdin h h' : make ev (kern_of w g a v) target stdin h = (h', Ok tt) ->
    exists c, h' = h ++ [Ran c] /\ makes w g k a target c.
  Proof.
    intros E. apply exact_make_Ok in E as [-> _]. eexists. split; [reflexivity|]. rewrite kern_kdir. now apply make_makes.
  Qed.
  Lemma clean_exact D D' : clean_at w g a D = (D', Ok tt) -> exists C, D' = D ++ C /\ cleaned w g k a C.
  Proof.
    intros E. unfold clean_at in E. apply lift_run in E as (l & E & ->). apply make_exact in E as (c & -> & M). cbn [app map]. eexists. split; [reflexivity|]. exists c. auto.
  Qed.
  Lemma targets_exact ev v ts : forall h h', io_each (fun t => make ev (kern_of w g a v) t None) ts h = (h', Ok tt) ->
    exists es, h' = h ++ es /\ Forall2 (fun t e => exists c, e = Ran c /\ makes w g k a t c) ts es.
  Proof.
    induction ts as [|t ts IH]; intros h h' E.
    - injection E as <-. exists []. split; [now rewrite app_nil_r|constructor].
    - cbn [io_each] in E. apply io_bind_Ok in E as (h1 & [] & E1 & E). apply make_exact in E1 as (c & -> & M). apply IH in E as (es & -> & F).
      exists (Ran c :: es). split; [now rewrite <- app_assoc|]. constructor; eauto.
  Qed.
  Lemma sync_exact ev v h h' : sync_config ev (kern_of w g a v) h = (h', Ok tt) -> exists e, h' = h ++ [e] /\ synced w g k a v e.
  Proof.
    unfold sync_config. change (k_version (kern_of w g a v)) with v. intros E. destruct (ver_geb v [3;7]) eqn:V.
    - apply make_exact in E as (c & -> & M). eexists. split; [reflexivity|]. exists c. split; [reflexivity|]. left. split; [|exact M].
      apply since_iff. exact V.
    - apply make_exact in E as (c & -> & M). eexists. split; [reflexivity|]. exists c. split; [reflexivity|]. right. split; [|exact M].
      apply before_iff. rewrite ver_geb_ltb in V. now destruct (ver_ltb v [3;7]).
  Qed.
  Lemma edit_exact ev v options h h' : edit_config ev (k_kdir (kern_of w g a v)) (config_file (kern_of w g a v)) options h = (h', Ok tt) ->
    exists l, h' = h ++ l /\ applied k (config_file (kern_of w g a v)) options l.
  Proof.
    intros E. apply (edit_Ok ev (kern_of w g a v)) in E as (l & -> & A). exists l. split; [reflexivity|]. unfold applying in A. rewrite (kern_kdir v) in A. exact A.
  Qed.
  Lemma check_exact ev v options h h' : edit_config_check_deps ev (k_kdir (kern_of w g a v)) (config_file (kern_of w g a v)) options h = (h', Ok tt) ->
    exists l, h' = h ++ l /\ examined k (config_file (kern_of w g a v)) (dkeys options) l.
  Proof.
    intros E. apply (check_Ok ev (kern_of w g a v)) in E as (l & -> & A). exists l. split; [reflexivity|]. destruct A as (mid & l' & -> & A & Q). unfold applying in A. rewrite (kern_kdir v) in A. exists mid, l'. split; [reflexivity|]. split; [exact A|]. intros c I. rewrite <- (kern_kdir v). exact (Q c I).
  Qed.
  Lemma configure_exact D D' : configure_at w g a D = (D', Ok tt) ->
    (forall v, fresh_kconfig a v = Some (only_kconfig a v)) ->
    exists v F, D' = D ++ F /\ configured w g k a v D F.
  Proof.
    intros E FK. unfold configure_at in E.
    destruct (lift w (fun ev => io_each (fun t => make ev (kern_of w g a []) t None) (a_targets a)) D) as [D1 r1] eqn:E1.
    apply lift_run in E1 as (l1 & E1 & ->). destruct r1 as [[]|x| |]; try discriminate E.
    apply targets_exact in E1 as (base & -> & B). cbn [app] in *. rewrite K in E.
    destruct (version_now w (D ++ map Prep base) (Some k)) as [[v|]|x| |] eqn:V; try discriminate E. cbn [get_version vstate0 vs_version fst] in E.
    apply version_told in V. apply lift_run in E as (l2 & E & ->). unfold settle in E. cbv zeta in E. change (k_version (kern_of w g a v)) with v in E.
    exists v, (map Prep (base ++ l2)). split; [now rewrite map_app, app_assoc|].
    apply io_bind_Ok in E as (h2 & [] & E1 & E). apply edit_exact in E1 as (dbg & -> & Q1).
    apply io_bind_Ok in E as (h3 & [] & E1 & E). apply sync_exact in E1 as (s1 & -> & S1).
    apply io_bind_Ok in E as (h4 & [] & E1 & E). apply edit_exact in E1 as (compat & -> & Q2).
    apply io_bind_Ok in E as (h5 & [] & E1 & E). apply sync_exact in E1 as (s2 & -> & S2).
    apply io_bind_Ok in E as (h6 & [] & E1 & E). apply check_exact in E1 as (more & -> & Q3).
    apply io_bind_Ok in E as (h7 & [] & E1 & E). apply sync_exact in E1 as (s3 & -> & S3).
    apply io_bind_Ok in E as (h8 & [] & E1 & E). apply check_exact in E1 as (own & -> & Q4).
    apply sync_exact in E as (s4 & -> & S4).
    exists (config_file (kern_of w g a v)), base, dbg, s1, compat, s2, more, s3, own, s4, (only_kconfig a v).
    split; [apply kern_config|]. split; [apply FK|]. split; [exact V|]. split; [cbn [app]; now rewrite <- !app_assoc|].
    repeat (split; [assumption|]). repeat constructor; assumption.
  Qed.
End Steps.
