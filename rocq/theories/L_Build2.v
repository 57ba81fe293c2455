(** The restoration of the Makefile and the attempts for texts with any line ends. *)
From Coq Require Import List Bool Ascii String ZArith Lia.
From Verif Require Import PyBase PyFacts M_Utils M_Elf M_Kernel M_Build S_Build L_Build S_Ends L_Ends.
Import ListNotations.
Open Scope Z_scope.
Open Scope list_scope.

Lemma universal_no_cr mk : plain_text (universal mk).
Proof.
  unfold plain_text. assert (forall n s, (List.length s <= n)%nat -> ~ In CR (universal s)) as G; [|exact (G _ mk (le_n _))].
  induction n as [|n IH]; intros [|c s] L; cbn [List.length] in L; try lia; try (intros []).
  cbn [universal]. destruct (Ascii.eqb c CR) eqn:E.
  - destruct s as [|d s]; [intros [X|[]]; discriminate X|]. cbn [List.length] in L.
    destruct (Ascii.eqb d NL); (intros [X|X]; [discriminate X|]).
    + apply (IH s); [lia|exact X].
    + apply (IH (d :: s)); [cbn; lia|exact X].
  - intros [X|X]; [subst c; discriminate E|]. apply (IH s); [lia|exact X].
Qed.
Lemma patched_no_cr data level new : level = 0 \/ level = 1 -> plain_text data -> patched data level new -> plain_text new.
Proof.
  intros L P (pre & w1 & w2 & post & (-> & _) & _ & ->) I. apply P. clear P.
  assert (~ In CR (str_of_int level)) as N by (destruct L as [-> | ->]; vm_compute; intros [X|[]]; discriminate X).
  assert (~ In CR $"-O") as N' by (vm_compute; intros [X|[X|[]]]; discriminate X).
  apply in_app_or in I as [I|I]; [apply in_or_app; now left|]. apply in_or_app; right.
  apply in_app_or in I as [I|I]; [apply in_or_app; now left|]. apply in_or_app; right.
  apply in_app_or in I as [I|I]; [apply in_or_app; now left|]. apply in_or_app; right.
  apply in_app_or in I as [I|I]; [apply in_or_app; now left|]. apply in_or_app; right.
  apply in_app_or in I as [I|I]; [apply in_or_app; now left|]. apply in_or_app; right.
  apply in_app_or in I as [I|I]; [contradiction|]. apply in_or_app; right.
  apply in_app_or in I as [I|I]; [contradiction|]. exact I.
Qed.

Lemma build_opt_any make mk u p0 p1 : universal mk = u -> set_level u 0 = Some p0 -> set_level u 1 = Some p1 ->
  run_build make true mk None =
    (if run_command (make 0%nat) =? 0 then Result (BState u (Some u) false) [p0] (Some (Ok tt))
     else if run_command (make 1%nat) =? 0 then Result (BState u (Some u) false) [p0; p1] (Some (Ok tt))
     else Result (BState u (Some u) false) [p0; p1; u]
            (Some (bind (ensure_command (match make 2%nat with Some z => Some (z, []) | None => None end)) (fun _ => Ok tt)))).
Proof.
  intros V H0 H1. assert (universal u = u) as U by (subst u; apply universal_plain, universal_no_cr).
  assert (exists c t, u = c :: t) as (c & t & E) by (apply (mk_cons u p0 p1); [subst u; apply universal_no_cr|exact H0|exact H1]).
  unfold run_build, build, try_set_level. cbn -[set_level universal run_command Z.eqb].
  rewrite V, H0. cbn -[set_level universal run_command Z.eqb]. rewrite E at 1.
  destruct (run_command (make 0%nat) =? 0); cbn -[set_level universal run_command Z.eqb]; [now rewrite E|].
  rewrite <- E, U, H1. cbn -[set_level universal run_command Z.eqb]. rewrite E at 1.
  destruct (run_command (make 1%nat) =? 0); cbn -[set_level universal run_command Z.eqb]; now rewrite E.
Qed.
Lemma attempts_any make mk u p0 p1 : reads_as mk u -> patched u 0 p0 -> patched u 1 p1 ->
  let r := run_build make true mk None in
  r_makes r = attempts make 0 [p0; p1; u] /\ b_file (r_state r) = u /\
  (r_end r = Some (Ok tt) /\ last_ok make (List.length (r_makes r)) \/
   (exists c, r_end r = Some (Exit c) /\ c <> 0) /\ ~ last_ok make (List.length (r_makes r))).
Proof.
  intros R H0 H1. apply reads_as_universal in R. symmetry in R. apply level_iff in H0. apply level_iff in H1. cbv zeta.
  rewrite (build_opt_any make mk u p0 p1 R H0 H1), !rc0. unfold last_ok.
  destruct (make 0%nat) as [[|a|a]|] eqn:E0; cbn; rewrite ?E0;
    [repeat split; now left|..];
  (destruct (make 1%nat) as [[|b|b]|] eqn:E1; cbn; rewrite ?E1;
    [repeat split; now left|..]);
  (destruct (make 2%nat) as [[|d|d]|] eqn:E2; cbn; rewrite ?E2; repeat split;
    first [now left|right; split; [eexists; split; [reflexivity|discriminate]|discriminate]]).
Qed.

(** Interrupted before step [n]. *)
Lemma interrupted_any make mk u p0 p1 n : universal mk = u -> set_level u 0 = Some p0 -> set_level u 1 = Some p1 ->
  (universal (after_exit (r_state (run_build make true mk (Some n)))) = u <->
   ~ (n = 3%nat \/ (run_command (make 0%nat) <> 0 /\ (12 <= n <= 15)%nat))).
Proof.
  intros V H0 H1. assert (exists c t, u = c :: t) as (c & t & E) by (apply (mk_cons u p0 p1); [subst u; apply universal_no_cr|exact H0|exact H1]).
  assert (plain_text u) as P by (subst u; apply universal_no_cr). assert (universal u = u) as U by now apply universal_plain.
  assert (universal p0 <> u) as D0.
  { pose proof (proj1 (level_iff _ _ _) H0) as X. rewrite universal_plain by (eapply patched_no_cr; [|exact P|exact X]; auto). eapply d0; eassumption. }
  assert (universal p1 <> u) as D1.
  { pose proof (proj1 (level_iff _ _ _) H1) as X. rewrite universal_plain by (eapply patched_no_cr; [|exact P|exact X]; auto). eapply d1; eassumption. }
  set (B := n = 3%nat \/ (run_command (make 0%nat) <> 0 /\ (12 <= n <= 15)%nat)).
  assert (forall x, universal x = u -> ~ B -> after_exit (r_state (run_build make true mk (Some n))) = x ->
    (universal (after_exit (r_state (run_build make true mk (Some n)))) = u <-> ~ B)) as Good by (intros x X NB ->; tauto).
  assert (forall x, universal x <> u -> B -> after_exit (r_state (run_build make true mk (Some n))) = x ->
    (universal (after_exit (r_state (run_build make true mk (Some n)))) = u <-> ~ B)) as Bad by (intros x X NB ->; tauto).
  unfold B in *. clear B P. rewrite E in *. clear u E. set (u := c :: t) in *.
  Ltac run_any u V H0 := unfold run_build, build, try_set_level, after_exit; bstep; fold u; rewrite ?V, ?H0; bstep.
  do 3 (destruct n as [|n]; [apply (Good mk V); [lia|run_any u V H0; reflexivity]|]).
  destruct n as [|n]; [apply (Bad p0 D0); [lia|run_any u V H0; reflexivity]|].
  do 5 (destruct n as [|n]; [apply (Good u U); [lia|run_any u V H0; reflexivity]|]).
  destruct (Z.eqb_spec (run_command (make 0%nat)) 0) as [R0|R0].
  - apply (Good u U); [lia|]. run_any u V H0. apply Z.eqb_eq in R0. rewrite R0. destruct n; reflexivity.
  - assert ((run_command (make 0%nat) =? 0) = false) as Rb by now apply Z.eqb_neq.
    Ltac run2_any u V U H0 H1 Rb := run_any u V H0; rewrite Rb; bstep; fold u; rewrite ?U, ?H1; bstep.
    do 3 (destruct n as [|n]; [apply (Good u U); [lia|run2_any u V U H0 H1 Rb; reflexivity]|]).
    do 3 (destruct n as [|n]; [apply (Bad p1 D1); [lia|run2_any u V U H0 H1 Rb; reflexivity]|]).
    destruct n as [|n]; [apply (Bad []); [discriminate|lia|run2_any u V U H0 H1 Rb; reflexivity]|].
    apply (Good u U); [lia|]. run2_any u V U H0 H1 Rb.
    destruct n as [|n]; [reflexivity|]. bstep.
    destruct (run_command (make 1%nat) =? 0); [destruct n; reflexivity|].
    destruct n as [|n]; [reflexivity|]. destruct n; reflexivity.
Qed.
Lemma lost_any make mk u n : reads_as mk u ->
  (reads_as (after_exit (r_state (run_build make true mk (Some n)))) u <->
   ~ (has_flag u /\ (n = 3%nat \/ (make 0%nat <> Some 0 /\ (12 <= n <= 15)%nat)))).
Proof.
  intros R. apply reads_as_universal in R.
  assert (forall x, reads_as x u <-> universal x = u) as Q.
  { intros x. split; [intros H; symmetry; now apply reads_as_universal|intros <-; apply reads_universal]. }
  rewrite Q. symmetry in R. destruct (set_level u 0) as [p0|] eqn:E.
  - assert (has_flag u) as F. { pose proof (proj1 (level_iff _ _ _) E) as (a & b & c & d & X & _). now exists a, b, c, d. }
    destruct (has_flag_level u 1 F) as [p1 E1]. rewrite (interrupted_any make mk u p0 p1 n R E E1).
    assert (run_command (make 0%nat) <> 0 <-> make 0%nat <> Some 0) as -> ; [|tauto].
    destruct (make 0%nat) as [z|]; cbn; [|split; discriminate]. split; intros X; congruence.
  - apply (level_none u 0) in E. assert (~ has_flag (universal mk)) as E' by now rewrite R.
    rewrite (proj1 (build_no_flag make mk E' true (Some n))). tauto.
Qed.
Lemma restored_any make mk u o : reads_as mk u -> reads_as (b_file (r_state (run_build make o mk None))) u.
Proof.
  intros R. assert (has_flag u \/ ~ has_flag u) as [F|F].
  { destruct (set_level u 0) as [p|] eqn:E.
    - left. apply level_iff in E. destruct E as (a & b & c & d & X & _). now exists a, b, c, d.
    - right. now apply (level_none u 0). }
  - pose proof (reads_as_universal _ _ R) as V. destruct o; [|exact R]. rewrite build_newlines by now rewrite <- V.
    rewrite <- V. rewrite <- (universal_plain u) at 2 by (rewrite V; apply universal_no_cr). apply reads_universal.
  - pose proof (reads_as_universal _ _ R) as V. rewrite (proj1 (proj2 (build_once make mk o (or_intror (eq_ind _ (fun x => ~ has_flag x) F _ V))))). exact R.
Qed.
