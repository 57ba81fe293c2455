(** Lemmas about breaking lines: no blanks at their ends. *)
From Coq Require Import List Bool Ascii String ZArith Lia.
From Verif Require Import PyBase PyFacts S_Elf L_ElfText M_Wrap S_Wrap L_Wrap L_Wrap2 L_Wrap3.
Import ListNotations.
Open Scope Z_scope.
Open Scope list_scope.

Definition usual (s : str) : Prop := forall c, In c s -> is_space c = true -> is_ws c = true.
Lemma usual_app x y : usual (x ++ y) <-> usual x /\ usual y.
Proof. unfold usual. split; [intros H; split; intros c I; apply H, in_app_iff; auto|]. intros [H K] c I. apply in_app_iff in I as [I|I]; auto. Qed.
Lemma inked_chunk w : usual w -> ~ all_blank w -> forallb is_ws w = true \/ forallb (fun c => negb (is_ws c)) w = true -> forall c, In c w -> is_space c = false.
Proof.
  intros U B [H|H] c I; [elim B; now apply ws_blank|]. rewrite forallb_forall in H. specialize (H c I). destruct (is_space c) eqn:S; [|reflexivity]. rewrite (U c I S) in H. discriminate.
Qed.
Lemma blank_chunk_ws w : usual w -> all_blank w -> forallb is_ws w = true.
Proof. unfold all_blank. rewrite !forallb_forall. intros U B c I. apply U; auto. Qed.
(** Of two neighbours, one is not blank. *)
Lemma neighbours b v w cs : chopped b (v :: w :: cs) -> usual v -> usual w -> all_blank v -> all_blank w -> False.
Proof.
  intros C Uv Uw Bv Bw. inversion C as [|? ? Nv _ _ N C2]; subst. inversion C2 as [|? ? Nw _ _ _ _]; subst. destruct w as [|c w]; [congruence|].
  pose proof (blank_chunk_ws _ Uw Bw) as H. cbn in H. apply andb_prop in H as [H _]. destruct (N c (w ++ List.concat cs) eq_refl) as [(x & d & E & D)|D].
  - apply D. rewrite H. pose proof (blank_chunk_ws _ Uv Bv) as K. rewrite E, forallb_app in K. apply andb_prop in K as [_ K]. cbn in K. now rewrite andb_true_r in K.
  - apply cut_first in D as (c' & y & [= <- _] & D). congruence.
Qed.
Lemma chopped_unit b l1 w l2 : chopped b (l1 ++ w :: l2) -> w <> [] /\ (forallb is_ws w = true \/ forallb (fun c => negb (is_ws c)) w = true).
Proof. intros C. apply chopped_skip in C. inversion C; auto. Qed.
Lemma last_char (x : str) w y c : w <> [] -> x ++ w = y ++ [c] -> In c w.
Proof.
  intros N E. destruct (exists_last N) as (w' & d & ->). rewrite app_assoc in E. apply app_inj_tail in E as [_ ->]. apply in_app_iff. right. now left.
Qed.
Lemma wrap_inked n : forall started b cs, chopped b cs -> usual (List.concat cs) ->
  Forall ends_inked (wrap_chunks n started cs) /\ Forall starts_inked (if started then wrap_chunks n started cs else tl (wrap_chunks n started cs)).
Proof.
  induction n as [|n IH]; intros started b cs C U; [destruct started; split; constructor|]. destruct cs as [|c0 cs0]; [destruct started; split; constructor|].
  cbn [wrap_chunks]. set (cs := c0 :: cs0) in *. destruct (one_line started cs) as [line rest] eqn:O. destruct (line_spec started cs line rest ltac:(discriminate) O) as (g & d & E & Len & G & D & F & La & _). clear O.
  rewrite E in C, U. rewrite !concat_app in U. apply usual_app in U as [Ug U]. apply usual_app in U as [Ul U]. apply usual_app in U as [Ud Ur].
  assert (chopped (rev (List.concat (g ++ line ++ d)) ++ b) rest) as Cr by (apply chopped_skip; now rewrite <- !app_assoc).
  destruct line as [|l0 line0] eqn:El; [now apply (IH _ _ _ Cr)|]. rewrite <- El in *. assert (line <> []) as Nl by (rewrite El; discriminate). clear El l0 line0.
  destruct (IH true _ _ Cr Ur) as [I1 I2].
  assert (ends_inked (List.concat line)) as K.
  { intros x c X. destruct (exists_last Nl) as (line' & w & L). rewrite L in *. rewrite concat_app in X, Ul. cbn [List.concat] in X, Ul. rewrite app_nil_r in X, Ul. apply usual_app in Ul as [Ul' Uw].
    rewrite <- !app_assoc in C. cbn [app] in C. rewrite app_assoc in C. destruct (chopped_unit _ _ _ _ C) as [Nw Uni].
    apply (inked_chunk w Uw); [|exact Uni|now apply (last_char _ _ _ _ Nw X)]. intros B. destruct D as [->|(e & -> & Be)]; [now apply (La line' w)|].
    apply chopped_skip in C. cbn [List.concat] in Ud. rewrite app_nil_r in Ud. now apply (neighbours _ w e rest C). }
  assert (started = true -> starts_inked (List.concat line)) as S.
  { intros St c y X. destruct line as [|w line]; [congruence|]. cbn [List.concat] in X, Ul. apply usual_app in Ul as [Uw Ul]. cbn [app] in C. destruct (chopped_unit _ _ _ _ C) as [Nw Uni].
    apply (inked_chunk w Uw); [|exact Uni|destruct w; [congruence|]; cbn in X; injection X as -> _; now left]. intros B. destruct G as [->|(e & -> & Be & _)].
    - cbn [app] in E. now apply (F St eq_refl _ _ E).
    - cbn [app List.concat] in C, Ug. rewrite app_nil_r in Ug. now apply (neighbours _ e w _ C). }
  destruct line as [|w line]; [congruence|]. split; [now constructor|]. destruct started; [constructor; auto|exact I2].
Qed.
Lemma usual_expand s : forall col, usual s -> usual (expandtabs col s).
Proof.
  induction s as [|c s IH]; intros col U; [exact U|]. cbn [expandtabs]. change (usual ([c] ++ s)) in U. apply usual_app in U as [Uc U]. destruct (code c =? 9).
  - apply usual_app. split; [|now apply IH]. intros d I _. apply repeat_spec in I as ->. reflexivity.
  - change (usual ([c] ++ expandtabs (if (code c =? 10) || (code c =? 13) then 0 else col + 1) s)). apply usual_app. auto.
Qed.
Lemma rows_usual s ls : rows s ls -> usual s -> Forall usual ls.
Proof.
  induction 1 as [|l N R|l c t ls R E H Rt IH|l t ls R Rt IH]; intros U; [constructor|repeat constructor; exact U| |].
  - apply usual_app in U as [U1 U2]. constructor; [exact U1|]. apply IH. intros d I. apply U2. now right.
  - apply usual_app in U as [U1 U2]. constructor; [exact U1|]. apply IH. intros d I. apply U2. right. now right.
Qed.
Lemma help_framed body : usual body -> exists rs lss, rows body rs /\ Forall2 lines_for (filter not_blank rs) lss /\ wrap_help body = join [NL] (List.concat lss) /\
  Forall (fun ls => Forall ends_inked ls /\ Forall starts_inked (tl ls)) lss.
Proof.
  intros U. exists (splitlines body), (map wrap (filter not_blank (splitlines body))).
  pose proof (splitlines_rows (List.length body) body ltac:(lia)) as R. split; [exact R|]. pose proof (rows_usual _ _ R U) as Us. pose proof (rows_rows _ _ R) as Rs. split; [|split].
  - assert (forall l, In l (filter not_blank (splitlines body)) -> row l) as F by (intros l I; apply filter_In in I as [I _]; rewrite Forall_forall in Rs; auto).
    revert F. generalize (filter not_blank (splitlines body)) as ls. induction ls as [|l ls IH]; intros F; constructor.
    + exists (expandtabs 0 l). split; [apply expand_untabbed, F; now left|apply wrap_spec].
    + apply IH. intros x I. apply F. now right.
  - unfold wrap_help. rewrite (filter_ext _ not_blank strip_blank). rewrite <- join_join; [now rewrite map_map|].
    apply Forall_map, Forall_forall. intros l I. apply filter_In in I as [_ I]. now apply wrap_ne.
  - apply Forall_map, Forall_forall. intros l I. apply filter_In in I as [I _]. rewrite Forall_forall in Us. specialize (Us l I). unfold wrap. destruct (chunks_ok (expandtabs 0 l)) as [C E].
    apply (wrap_inked _ false []); [exact C|]. rewrite E. now apply usual_expand.
Qed.
