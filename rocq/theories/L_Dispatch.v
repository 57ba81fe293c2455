(** Lemmas for C118 *)
From Coq Require Import List Bool Ascii String ZArith Lia Permutation.
From Verif Require Import PyBase PyFacts M_Utils M_Elf M_Arch M_Emu M_Dispatch S_Emu S_Dispatch L_Arch L_Emu L_Emu2 L_Emu3 L_Emu4.
Import ListNotations.
Open Scope Z_scope.
Open Scope list_scope.

(** ** The number register *)
Lemma first_reg_spec ops :
  match first_reg ops with
  | Some r => exists a b, ops = a ++ OReg r :: b /\ forall x, ~ In (OReg x) a
  | None => forall x, ~ In (OReg x) ops
  end.
Proof.
  induction ops as [|o ops IH]; cbn; [tauto|]. destruct o as [r|z|].
  - exists [], ops. split; [reflexivity|]. intros x [].
  - destruct (first_reg ops) as [r|].
    + destruct IH as (a & b & -> & H). exists (OImm z :: a), b. split; [reflexivity|]. intros x [E|E]; [discriminate|exact (H x E)].
    + intros x [E|E]; [discriminate|exact (IH x E)].
  - destruct (first_reg ops) as [r|].
    + destruct IH as (a & b & -> & H). exists (OOther :: a), b. split; [reflexivity|]. intros x [E|E]; [discriminate|exact (H x E)].
    + intros x [E|E]; [discriminate|exact (IH x E)].
Qed.
Lemma reg_of_spec i :
  match match i_kind i with ICmp ops | ITest ops => first_reg ops | _ => None end with
  | Some r => first_in i r
  | None => forall x, ~ mentions i x
  end.
Proof.
  destruct (i_kind i) eqn:K; try (intros x (ops' & [E|E] & _); rewrite K in E; discriminate).
  - pose proof (first_reg_spec ops) as H. destruct (first_reg ops) as [r|].
    + destruct H as (a & b & H). exists ops, a, b. auto.
    + intros x (ops' & [E|E] & I); rewrite K in E; [discriminate|injection E as <-; exact (H x I)].
  - pose proof (first_reg_spec ops) as H. destruct (first_reg ops) as [r|].
    + destruct H as (a & b & H). exists ops, a, b. auto.
    + intros x (ops' & [E|E] & I); rewrite K in E; [injection E as <-; exact (H x I)|discriminate].
Qed.
Lemma find_nr_reg_spec prog :
  match find_nr_reg prog with Some r => number_register prog r | None => no_register prog end.
Proof.
  induction prog as [|i l IH]; cbn [find_nr_reg]; [intros i r []|].
  pose proof (reg_of_spec i) as H. destruct (match i_kind i with ICmp ops | ITest ops => first_reg ops | _ => None end) as [r|].
  - exists [], i, l. split; [reflexivity|]. split; [exact H|]. intros j x [].
  - destruct (find_nr_reg l) as [r|].
    + destruct IH as (a & j & b & -> & F & N). exists (i :: a), j, b. split; [reflexivity|]. split; [exact F|].
      intros k x [<-|I]; [apply H|exact (N k x I)].
    + intros j r [<-|I]; [apply H|exact (IH j r I)].
Qed.
Lemma first_in_mentions i r : first_in i r -> mentions i r.
Proof. intros (ops & a & b & K & -> & _). exists (a ++ OReg r :: b). split; [exact K|]. apply in_or_app. right. now left. Qed.
Lemma register_not_none prog r : number_register prog r -> ~ no_register prog.
Proof. intros (a & i & b & -> & F & _) N. apply (N i r); [apply in_or_app; right; now left|now apply first_in_mentions]. Qed.

(** ** One instruction *)
Definition at_prefix (pre : list insn) (s : emu) : Prop :=
  (s_test s = true <-> exists a t, pre = a ++ [t] /\ a_test t) /\
  (s_imm s = None <-> Forall (fun j => ~ is_compare j) pre).

Lemma je_or_jne_spec i : je_or_jne i = true <-> is_je_jne i.
Proof.
  unfold je_or_jne, is_je_jne. split.
  - destruct (i_kind i) as [| | | |[] t| |]; try discriminate; intros _; exists t; auto.
  - intros (t & [->| ->]); reflexivity.
Qed.
Lemma stray_spec pre s i : at_prefix pre s -> s_test s && negb (je_or_jne i) = true <-> stray pre i.
Proof.
  intros [T _]. unfold stray. rewrite andb_true_iff, negb_true_iff, <- T, <- je_or_jne_spec.
  destruct (je_or_jne i); intuition congruence.
Qed.
Lemma st_snoc pre i s : 
  (s_test s = true <-> a_test i) -> (s_imm s = None <-> Forall (fun j => ~ is_compare j) pre /\ ~ is_compare i) -> at_prefix (pre ++ [i]) s.
Proof.
  intros A B. split.
  - rewrite A. split; [intros H; exists pre, i; auto|]. intros (a & t & E & H). apply app_inj_tail in E as [_ ->]. exact H.
  - rewrite B, Forall_app. split; intros [H1 H2]; split; auto. now inversion H2.
Qed.
Lemma not_test i k : i_kind i = k -> (forall ops, k <> ITest ops) -> ~ a_test i.
Proof. intros E H [ops K]. apply (H ops). congruence. Qed.

Lemma op_operands ops a b : a <> OOther -> b <> OOther -> op ops 0 = a /\ op ops 1 = b <-> operands ops a b.
Proof.
  intros Ha Hb. unfold op, operands. split.
  - destruct ops as [|x [|y more]]; cbn; intros [<- <-]; try easy. now exists more.
  - intros [more ->]. cbn. auto.
Qed.

Ltac nowrong := let c := fresh in let W := fresh in intros c W; inversion W; subst; try contradiction; try congruence.

Lemma compares_fun ops r z r' z' : compares ops r z -> compares ops r' z' -> r = r'.
Proof. intros [[m E]|[m E]] [[m' E']|[m' E']]; congruence. Qed.
Ltac unify_kind K := match goal with H : i_kind _ = _ |- _ =>
  tryif constr_eq H K then fail else (rewrite K in H; injection H; clear H; intros; subst) end.

Section Step.
Variables (same : insn -> insn -> bool) (start stop reg : Z).
Notation wr := (wrong reg start stop).

Lemma step_spec pre s i : at_prefix pre s ->
  match step_complaint start stop reg s i with
  | Some c => wr pre i c /\ emu_step same start stop reg s i = None
  | None => (forall c, ~ wr pre i c) /\ exists s', emu_step same start stop reg s i = Some s' /\ at_prefix (pre ++ [i]) s'
  end.
Proof.
  intros S. pose proof (stray_spec pre s i S) as X. destruct S as [T I].
  unfold step_complaint, emu_step. cbv zeta. change (match i_kind i with IJcc CE _ | IJcc CNE _ => true | _ => false end) with (je_or_jne i).
  destruct (s_test s && negb (je_or_jne i)).
  { split; [|reflexivity]. apply w_after. now apply X. }
  assert (N : ~ stray pre i) by (intros H; apply X in H; discriminate). clear X.
  destruct (i_kind i) as [|ops|ops|t|c t|t|] eqn:K.
  - split; [nowrong|]. eexists; split; [reflexivity|]. apply st_snoc; cbn.
    + split; [discriminate|]. intros H. now apply (not_test i _ K) in H.
    + rewrite I. unfold is_compare. rewrite K. tauto.
  - destruct (op ops 0) as [r|z|] eqn:O0; [destruct (op ops 1) as [r'|z|] eqn:O1|..]; cbn [is_reg negb orb].
    + split.
      { nowrong. unify_kind K. match goal with H : forall _ _, ~ operands _ _ _ |- _ => apply (H r r') end. apply op_operands; [discriminate..|auto]. }
      eexists; split; [reflexivity|]. apply st_snoc; cbn.
      * split; [|reflexivity]. intros _. now exists ops.
      * unfold is_compare. rewrite K. split; [discriminate|tauto].
    + split; [|reflexivity]. apply (w_test _ _ _ _ _ ops); auto. intros x y H. apply op_operands in H; [|discriminate..]. destruct H. congruence.
    + split; [|reflexivity]. apply (w_test _ _ _ _ _ ops); auto. intros x y H. apply op_operands in H; [|discriminate..]. destruct H. congruence.
    + split; [|reflexivity]. apply (w_test _ _ _ _ _ ops); auto. intros x y H. apply op_operands in H; [|discriminate..]. destruct H. congruence.
    + split; [|reflexivity]. apply (w_test _ _ _ _ _ ops); auto. intros x y H. apply op_operands in H; [|discriminate..]. destruct H. congruence.
  - unfold cmp_complaint.
    destruct (op ops 0) as [r|z|] eqn:O0; destruct (op ops 1) as [r'|z'|] eqn:O1; cbn [is_imm negb];
    try (split; [|reflexivity]; apply (w_cmp _ _ _ _ _ ops); auto; intros x y [H|H]; apply op_operands in H; try discriminate; destruct H; congruence).
    + assert (C : compares ops r z') by (left; apply op_operands; [discriminate..|auto]).
      destruct (Z.eqb_spec r reg) as [->|Hne]; cbn [negb].
      * split.
        { nowrong; unify_kind K.
          - match goal with H : forall _ _, ~ compares _ _ _ |- _ => exact (H _ _ C) end.
          - match goal with H : compares _ ?r1 _, H' : ?r1 <> _ |- _ => apply H'; exact (compares_fun _ _ _ _ _ H C) end. }
        eexists; split; [reflexivity|]. apply st_snoc; cbn.
        -- split; [discriminate|]. intros H. now apply (not_test i _ K) in H.
        -- unfold is_compare. rewrite K. split; [discriminate|tauto].
      * split; [|reflexivity]. now apply (w_reg _ _ _ _ _ ops r z').
    + assert (C : compares ops r' z) by (right; apply op_operands; [discriminate..|auto]).
      destruct (Z.eqb_spec r' reg) as [->|Hne]; cbn [negb].
      * split.
        { nowrong; unify_kind K.
          - match goal with H : forall _ _, ~ compares _ _ _ |- _ => exact (H _ _ C) end.
          - match goal with H : compares _ ?r1 _, H' : ?r1 <> _ |- _ => apply H'; exact (compares_fun _ _ _ _ _ H C) end. }
        eexists; split; [reflexivity|]. apply st_snoc; cbn.
        -- split; [discriminate|]. intros H. now apply (not_test i _ K) in H.
        -- unfold is_compare. rewrite K. split; [discriminate|tauto].
      * split; [|reflexivity]. now apply (w_reg _ _ _ _ _ ops r' z).
  - split; [nowrong|]. eexists; split; [reflexivity|]. apply st_snoc; cbn.
    + split; [discriminate|]. intros H. now apply (not_test i _ K) in H.
    + rewrite I. unfold is_compare. rewrite K. tauto.
  - assert (J : forall imm, c <> COther -> s_imm s = Some imm ->
      (forall c0, ~ wr pre i c0) /\ forall a b, at_prefix (pre ++ [i]) (branch same start stop i t a b s)).
    { intros imm Hc E. split.
      - nowrong. match goal with H : Forall _ pre |- _ => apply I in H; congruence end.
      - intros a b. apply st_snoc; cbn.
        + split; [discriminate|]. intros H. now apply (not_test i _ K) in H.
        + rewrite I. unfold is_compare. rewrite K. tauto. }
    assert (J' : c <> COther -> s_imm s = None -> wr pre i (NoCompare i)).
    { intros Hc E. apply (w_nocmp _ _ _ _ _ c t); auto. now apply I. }
    destruct c; try (destruct (s_imm s) as [imm|] eqn:E;
      [destruct (J imm ltac:(discriminate) eq_refl) as [J1 J2]; split; [exact J1|]; eexists; split; [reflexivity|]; destruct (s_inv s); apply J2
      |split; [now apply J'|reflexivity]]).
    split; [|reflexivity]. now apply (w_jcc _ _ _ _ _ t).
  - destruct (inside start stop t) eqn:E.
    + split; [|reflexivity]. apply (w_call _ _ _ _ _ t); auto. unfold inside in E. apply andb_true_iff in E as [E1 E2]. lia.
    + split.
      { nowrong. unify_kind K. unfold inside in E. apply andb_false_iff in E. lia. }
      eexists; split; [reflexivity|]. apply st_snoc; cbn.
      * split; [discriminate|]. intros H. now apply (not_test i _ K) in H.
      * rewrite I. unfold is_compare. rewrite K. tauto.
  - split; [nowrong|]. eexists; split; [reflexivity|]. apply st_snoc; cbn.
    + split; [discriminate|]. intros H. now apply (not_test i _ K) in H.
    + rewrite I. unfold is_compare. rewrite K. tauto.
Qed.

Lemma wrong_fun pre i c c' : wr pre i c -> wr pre i c' -> c = c'.
Proof.
  clear same. intros W W'; destruct W as [?|?|?|? ? ? ? ? C|?|?|?]; destruct W' as [?|?|?|? ? ? ? ? C'|?|?|?]; try reflexivity; try contradiction; try congruence.
  - exfalso. match goal with H : i_kind i = ICmp ?a, H' : i_kind i = ICmp ?b |- _ => assert (a = b) by congruence; subst end. firstorder.
  - exfalso. match goal with H : i_kind i = ICmp ?a, H' : i_kind i = ICmp ?b |- _ => assert (a = b) by congruence; subst end. firstorder.
Qed.

Lemma pass_spec l : forall pre s, at_prefix pre s ->
  match pass_complaint same start stop reg s l with
  | Some c => (exists a i b, l = a ++ i :: b /\ wr (pre ++ a) i c /\
      forall a' j b' c', a = a' ++ j :: b' -> ~ wr (pre ++ a') j c') /\ emu_pass same start stop reg s l = None
  | None => (forall a i b c, l = a ++ i :: b -> ~ wr (pre ++ a) i c) /\ exists s', emu_pass same start stop reg s l = Some s'
  end.
Proof.
  induction l as [|i l IH]; intros pre s S; cbn [pass_complaint emu_pass].
  { split; [intros a j b c E; destruct a; discriminate|eauto]. }
  pose proof (step_spec pre s i S) as P. destruct (step_complaint start stop reg s i) as [c|].
  { destruct P as [W ->]. split; [|reflexivity]. exists [], i, l. split; [reflexivity|]. rewrite app_nil_r. split; [exact W|].
    intros a' j b' c' E. destruct a'; discriminate. }
  destruct P as (N & s' & -> & S'). specialize (IH _ _ S'). destruct (pass_complaint same start stop reg s' l) as [c|].
  - destruct IH as ((a & j & b & -> & W & F) & E). split; [|exact E]. exists (i :: a), j, b. split; [reflexivity|].
    rewrite <- app_assoc in W. split; [exact W|]. intros a' k b' c' Ea. destruct a' as [|x a']; injection Ea as -> Ea.
    + rewrite app_nil_r. apply N.
    + intros W'. apply (F a' k b' c' Ea). now rewrite <- app_assoc.
  - destruct IH as (R & E). split; [|exact E]. intros a j b c Ea. destruct a as [|x a]; injection Ea as -> Ea.
    + rewrite app_nil_r. apply N.
    + intros W'. apply (R a j b c Ea). now rewrite <- app_assoc.
Qed.
Lemma st_init m l : at_prefix [] (Emu m l false false None false).
Proof. split; cbn; [split; [discriminate|]; intros (a & t & E & _); destruct a; discriminate|]. split; auto. Qed.
Lemma pass_cases m l prog : let s := Emu m l false false None false in
  match pass_complaint same start stop reg s prog with
  | Some c => first_wrong reg start stop prog c /\ emu_pass same start stop reg s prog = None
  | None => all_right reg start stop prog /\ exists s', emu_pass same start stop reg s prog = Some s'
  end.
Proof. exact (pass_spec prog [] _ (st_init m l)). Qed.
Lemma wrong_or_right prog c : first_wrong reg start stop prog c -> ~ all_right reg start stop prog.
Proof. intros (a & i & b & E & W & _) H. exact (H a i b c E W). Qed.

Lemma loop_cases prog fuel : forall m l,
  match loop_complaint same start stop reg prog (S fuel) m l with
  | Some c => first_wrong reg start stop prog c /\ emu_loop same start stop reg prog (S fuel) m l = Ok None
  | None => all_right reg start stop prog /\ emu_loop same start stop reg prog (S fuel) m l <> Ok None
  end.
Proof.
  induction fuel as [|fuel IH]; intros m l.
  - cbn [loop_complaint emu_loop]. pose proof (pass_cases m l prog) as P. cbn zeta in *.
    destruct (pass_complaint same start stop reg _ prog) as [c|].
    + destruct P as [W ->]. auto.
    + destruct P as (R & s' & ->). destruct (s_again s'); split; auto; discriminate.
  - change (loop_complaint same start stop reg prog (S (S fuel)) m l) with
      (let s := Emu m l false false None false in
      match pass_complaint same start stop reg s prog with
      | Some c => Some c
      | None => match emu_pass same start stop reg s prog with
          | Some s' => if s_again s' then loop_complaint same start stop reg prog (S fuel) (s_nrs s') (s_cands s') else None
          | None => None end end).
    change (emu_loop same start stop reg prog (S (S fuel)) m l) with
      (match emu_pass same start stop reg (Emu m l false false None false) prog with
      | None => Ok None
      | Some s => if s_again s then emu_loop same start stop reg prog (S fuel) (s_nrs s) (s_cands s) else Ok (Some (s_nrs s, s_cands s)) end).
    cbv zeta. pose proof (pass_cases m l prog) as P. cbn zeta in P.
    destruct (pass_complaint same start stop reg _ prog) as [c|].
    + destruct P as [W ->]. auto.
    + destruct P as (R & s' & ->). destruct (s_again s'); [apply IH|]. split; [exact R|discriminate].
Qed.
End Step.

Lemma first_wrong_fun reg start stop prog c c' : first_wrong reg start stop prog c -> first_wrong reg start stop prog c' -> c = c'.
Proof.
  intros (a & i & b & E & W & F) (a' & i' & b' & E' & W' & F'). rewrite E in E'.
  apply app_eq_app in E' as (l & [[-> E']|[-> E']]); destruct l as [|x l].
  - injection E' as -> _. rewrite app_nil_r in W. eapply wrong_fun; eauto.
  - injection E' as -> _. exfalso. eapply F; eauto.
  - injection E' as -> _. rewrite app_nil_r in W'. eapply wrong_fun; eauto.
  - injection E' as -> _. exfalso. eapply F'; eauto.
Qed.

Lemma loop_shape same start stop reg prog fuel : forall m l,
  emu_loop same start stop reg prog fuel m l = Diverge \/ exists x, emu_loop same start stop reg prog fuel m l = Ok x.
Proof.
  induction fuel as [|fuel IH]; intros m l; cbn [emu_loop]; [auto|].
  destruct (emu_pass _ _ _ _ _ _) as [s|]; [|eauto]. destruct (s_again s); [apply IH|eauto].
Qed.
Lemma emulate_cases same start stop prog :
  match emulate_complaint same start stop prog with
  | Some c => unreadable start stop prog c /\ emulate same start stop prog = Ok None
  | None => (exists reg, number_register prog reg /\ all_right reg start stop prog) /\ exists m l, emulate same start stop prog = Ok (Some (m, l))
  end.
Proof.
  unfold emulate_complaint. pose proof (emulate_terminates same start stop prog) as T. unfold emulate in *.
  pose proof (find_nr_reg_spec prog) as R. destruct (find_nr_reg prog) as [reg|].
  - unfold emu_fuel in *. revert T.
    match goal with |- context [loop_complaint _ _ _ _ _ (S ?f) ?m ?l] => pose proof (loop_cases same start stop reg prog f m l) as P end.
    intros T. destruct (loop_complaint _ _ _ _ _ _ _ _) as [c|].
    + destruct P as [W ->]. split; [right; eauto|reflexivity].
    + destruct P as [W N]. split; [eauto|].
      match goal with |- context [emu_loop _ _ _ _ _ ?f ?m ?l] => destruct (loop_shape same start stop reg prog f m l) as [E|[[[m' l']|] E]] end; [contradiction|eauto|contradiction].
  - split; [left; auto|reflexivity].
Qed.
Lemma number_register_fun prog r r' : number_register prog r -> number_register prog r' -> r = r'.
Proof.
  intros (a & i & b & E & F & N) (a' & i' & b' & E' & F' & N'). rewrite E in E'.
  assert (D : forall j x y, first_in j x -> first_in j y -> x = y).
  { intros j x y (o & p & q & K & Eo & G) (o' & p' & q' & K' & Eo' & G'). assert (o = o') as <- by (destruct K, K'; congruence).
    rewrite Eo in Eo'. apply app_eq_app in Eo' as (l & [[-> E2]|[-> E2]]); destruct l as [|z l]; injection E2; intros; subst; auto.
    - exfalso. eapply G. apply in_or_app. right. left. reflexivity.
    - exfalso. eapply G'. apply in_or_app. right. left. reflexivity. }
  apply app_eq_app in E' as (l & [[-> E']|[-> E']]); destruct l as [|x l]; injection E' as -> _; eauto.
  - exfalso. apply (N x r'); [apply in_or_app; right; now left|now apply first_in_mentions].
  - exfalso. apply (N' x r); [apply in_or_app; right; now left|now apply first_in_mentions].
Qed.
Lemma unreadable_fun start stop prog c c' : unreadable start stop prog c -> unreadable start stop prog c' -> c = c'.
Proof.
  intros [[N ->]|(reg & R & W)] [[N' ->]|(reg' & R' & W')]; auto.
  - now apply register_not_none in R'.
  - now apply register_not_none in R.
  - rewrite (number_register_fun _ _ _ R R') in W. eapply first_wrong_fun; eauto.
Qed.

Theorem emulate_complaint_iff same start stop prog c :
  emulate_complaint same start stop prog = Some c <-> unreadable start stop prog c.
Proof.
  pose proof (emulate_cases same start stop prog) as P. destruct (emulate_complaint same start stop prog) as [c'|].
  - destruct P as [U _]. split; [intros E; injection E as <-; exact U|]. intros U'. f_equal. eapply unreadable_fun; eauto.
  - destruct P as [(reg & R & A) _]. split; [discriminate|]. intros [[N _]|(reg' & R' & W)].
    + now apply register_not_none in R.
    + rewrite (number_register_fun _ _ _ R' R) in W. now apply wrong_or_right in W.
Qed.
Theorem emulate_gives_up same start stop prog :
  emulate same start stop prog = Ok None <-> exists c, unreadable start stop prog c.
Proof.
  pose proof (emulate_cases same start stop prog) as P. split.
  - intros E. destruct (emulate_complaint same start stop prog) as [c|]; [destruct P; eauto|].
    destruct P as (_ & m & l & E'). congruence.
  - intros [c U]. apply (emulate_complaint_iff same) in U. rewrite U in P. tauto.
Qed.

(** ** The mapping *)
Lemma put_cases v ns : forall d,
  match put_complaint v ns d with
  | Some c => put_numbers v ns d = None /\ exists n w, c = TwoTargets n w v /\ In n ns /\ dget Z.eqb n d = Some w /\ w <> v
  | None => exists d', put_numbers v ns d = Some d'
  end.
Proof.
  induction ns as [|n ns IH]; intros d; cbn [put_complaint put_numbers]; [eauto|].
  destruct (dget Z.eqb n d) as [w|] eqn:E.
  - destruct (Z.eqb_spec w v) as [->|Hne].
    + specialize (IH d). destruct (put_complaint v ns d) as [c|]; [|exact IH].
      destruct IH as (H1 & n' & w' & H2 & H3 & H4). split; [exact H1|]. exists n', w'. split; [exact H2|]. split; [now right|exact H4].
    + split; [reflexivity|]. exists n, w. split; [reflexivity|]. split; [now left|auto].
  - specialize (IH (dset Z.eqb n v d)). destruct (put_complaint v ns (dset Z.eqb n v d)) as [c|]; [|exact IH].
    destruct IH as (H1 & n' & w' & H2 & H3 & H4 & H5). split; [exact H1|]. exists n', w'. split; [exact H2|]. split; [now right|].
    split; [|exact H5]. destruct (Z.eq_dec n' n) as [->|Hn].
    + rewrite (dget_dset_eq Z.eqb Zeqb_eq') in H4. congruence.
    + rewrite (dget_dset_neq Z.eqb Zeqb_eq') in H4 by assumption. exact H4.
Qed.

Section Collect.
Variable m : nrs_map.
Notation nums := (get m).
(** The dictionary holds numbers of targets met before; so does [found]. *)
Definition kept (pre : list insn) (d : list (Z * Z)) (found : bool) : Prop :=
  (forall n w, dget Z.eqb n d = Some w -> exists i, In i pre /\ target_of i = w /\ ~ default_case nums w /\ In n (nums w)) /\
  (found = true -> exists i, In i pre /\ default_case nums (target_of i)).
Lemma split_pair pre (i j : insn) l : In i pre -> exists a b c, pre ++ j :: l = a ++ i :: b ++ j :: c.
Proof. intros H. apply in_split in H as (a & b & ->). exists a, b, l. now rewrite <- app_assoc. Qed.

Lemma collect_tells l : forall pre d found, kept pre d found ->
  match collect_complaint m l d found with
  | Some c => collect m l d found = [] /\ tells nums (pre ++ l) c
  | None => True
  end.
Proof.
  induction l as [|i l IH]; intros pre d found K; cbn [collect_complaint collect]; [exact I|].
  destruct (Z.eqb_spec (len (nums (target_of i))) 0) as [E0|N0].
  { split; [reflexivity|]. apply t_unreached; [apply in_or_app; right; now left|].
    unfold bad_set, len in *. destruct (nums (target_of i)); [reflexivity|cbn in E0; lia]. }
  destruct (Z.ltb_spec 100 (len (nums (target_of i)))) as [L|L].
  - destruct found.
    + split; [reflexivity|]. destruct K as [_ K]. destruct (K eq_refl) as (j & Hj & Dj).
      destruct (split_pair pre j i l Hj) as (a & b & c & E). eapply t_defaults; [exact E|exact Dj|exact L].
    + specialize (IH (pre ++ [i]) d true). rewrite <- app_assoc in IH. apply IH. destruct K as [K _]. split.
      * intros n w H. destruct (K n w H) as (j & Hj & R). exists j. split; [apply in_or_app; now left|exact R].
      * intros _. exists i. split; [apply in_or_app; right; now left|exact L].
  - pose proof (put_cases (target_of i) (nums (target_of i)) d) as P. destruct (put_complaint _ _ d) as [c|].
    + destruct P as (-> & n & w & -> & Hn & Hd & Hw). split; [reflexivity|]. destruct K as [K _]. destruct (K n w Hd) as (j & Hj & <- & Dj & Nj).
      destruct (split_pair pre j i l Hj) as (a & b & c & E). eapply t_targets; [exact E|exact Hw|exact Dj| |exact Nj|exact Hn].
      unfold default_case. lia.
    + destruct P as (d' & P). rewrite P. specialize (IH (pre ++ [i]) d' found). rewrite <- app_assoc in IH. apply IH.
      pose proof (put_numbers_spec (target_of i) (nums (target_of i)) d) as Q. rewrite P in Q. destruct Q as [_ Q]. destruct K as [K K']. split.
      * intros n w H. apply Q in H as [H|[H ->]].
        -- destruct (K n w H) as (j & Hj & R). exists j. split; [apply in_or_app; now left|exact R].
        -- exists i. split; [apply in_or_app; right; now left|]. split; [reflexivity|]. split; [unfold default_case; lia|exact H].
      * intros H. destruct (K' H) as (j & Hj & R). exists j. split; [apply in_or_app; now left|exact R].
Qed.
Lemma tells_conflict l c : tells nums l c -> conflict nums (map target_of l).
Proof.
  intros [i H B|a i b j e E D D'|a i b j e n E Hne D D' H H'].
  - left. exists (target_of i). split; [now apply in_map|exact B].
  - right; left. exists (map target_of a), (target_of i), (map target_of b), (target_of j), (map target_of e). split; [|auto].
    now rewrite E, map_app, map_cons, map_app, map_cons.
  - right; right. exists (target_of i), (target_of j). rewrite E, map_app. cbn [map]. rewrite map_app. cbn [map].
    split; [apply in_or_app; right; now left|]. split; [apply in_or_app; right; right; apply in_or_app; right; now left|].
    split; [exact Hne|]. split; [exact D|]. split; [exact D'|]. now exists n.
Qed.
(** Without a message nothing is given up: this is seen by following both. *)
Lemma collect_silent l : forall pre d found,
  ~ conflict nums (map target_of pre) -> (forall n v, dget Z.eqb n d = Some v <-> In v (map target_of pre) /\ ~ default_case nums v /\ In n (nums v)) ->
  (found = true <-> exists t, In t (map target_of pre) /\ default_case nums t) ->
  collect_complaint m l d found = None -> ~ conflict nums (map target_of (pre ++ l)).
Proof.
  induction l as [|i l IH]; intros pre d found NC Kd Kf; cbn [collect_complaint]; [rewrite app_nil_r; auto|].
  destruct (Z.eqb_spec (len (nums (target_of i))) 0) as [E0|N0]; [discriminate|].
  destruct (Z.ltb_spec 100 (len (nums (target_of i)))) as [L|L].
  - destruct found; [discriminate|]. intros H.
    replace (pre ++ i :: l) with ((pre ++ [i]) ++ l) by now rewrite <- app_assoc. apply (IH _ d true); auto; rewrite ?map_app; cbn [map].
    + intros C. apply conflict_snoc in C as [C|[C|[[_ (t & Ht & C)]|(t & Ht & C)]]]; auto.
      * rewrite C in N0. now apply N0.
      * assert (false = true) by (apply Kf; eauto). discriminate.
      * destruct C as (_ & _ & C & _). now apply C.
    + intros n v. rewrite Kd, in_app_iff. cbn. split; [tauto|]. intros ([A|[<-|[]]] & B & C); auto. now destruct B.
    + split; [|reflexivity]. intros _. exists (target_of i). split; [apply in_or_app; right; now left|exact L].
  - pose proof (put_cases (target_of i) (nums (target_of i)) d) as P. destruct (put_complaint _ _ d) as [c|]; [discriminate|].
    destruct P as (d' & P). rewrite P. pose proof (put_numbers_spec (target_of i) (nums (target_of i)) d) as Q. rewrite P in Q. destruct Q as [Q1 Q2].
    assert (ND : ~ default_case nums (target_of i)) by (unfold default_case; lia).
    intros H. replace (pre ++ i :: l) with ((pre ++ [i]) ++ l) by now rewrite <- app_assoc. apply (IH _ d' found); auto; rewrite ?map_app; cbn [map].
    + intros C. apply conflict_snoc in C as [C|[C|[[C _]|(t & Ht & C)]]]; auto.
      * rewrite C in N0. now apply N0.
      * destruct C as (Hne & Dt & _ & n & H1 & H2). apply Hne. apply (Q1 n t H2). apply Kd. auto.
    + intros n v. rewrite Q2, Kd, in_app_iff. cbn. split.
      * intros [(A & B & C)|[A ->]]; auto.
      * intros ([A|[<-|[]]] & B & C); auto.
    + rewrite Kf. split; intros (t & Ht & Dt); exists t; (split; [|exact Dt]); [apply in_or_app; now left|].
      apply in_app_or in Ht as [Ht|[<-|[]]]; [exact Ht|contradiction].
Qed.

Theorem collect_says l :
  match collect_complaint m l [] false with
  | Some c => tells nums l c /\ collect m l [] false = []
  | None => ~ conflict nums (map target_of l) /\ forall n v, dget Z.eqb n (collect m l [] false) = Some v <->
      In v (map target_of l) /\ ~ default_case nums v /\ In n (nums v)
  end.
Proof.
  pose proof (collect_tells l [] [] false) as H. pose proof (collect_silent l [] [] false) as S. pose proof (collect_cases m l) as C. cbn zeta in C.
  destruct (collect_complaint m l [] false) as [c|].
  - destruct H as [E T]; [split; [discriminate|discriminate]|]. auto.
  - assert (N : ~ conflict nums (map target_of l)).
    { apply S; auto.
      - apply no_conflict_nil.
      - intros n v. cbn. split; [discriminate|]. intros ([] & _).
      - split; [discriminate|]. intros (t & [] & _). }
    split; [exact N|]. destruct C as [[C _]|[_ C]]; [contradiction|exact C].
Qed.
End Collect.

(** ** The whole *)
Section Whole.
Variables (decode : bool -> bytes -> Z -> list insn) (same : insn -> insn -> bool) (order : list insn -> list insn) (a : arch) (e : elf).
Hypothesis order_ok : forall l, Permutation (order l) l.


Theorem extract_announced :
  match extract_complaint decode same order a e with
  | Ok (Some c) => extract_syscall_vaddrs decode same order a e = Ok [] /\ announced decode same a e c
  | Ok None => (forall c, ~ announced decode same a e c) /\ exists r, extract_syscall_vaddrs decode same order a e = Ok r
  | Raise x => extract_syscall_vaddrs decode same order a e = Raise x
  | Exit x => extract_syscall_vaddrs decode same order a e = Exit x
  | Diverge => extract_syscall_vaddrs decode same order a e = Diverge
  end.
Proof.
  unfold extract_complaint, extract_syscall_vaddrs. destruct (a_table a); [reflexivity|].
  destruct (dget str_eqb (a_abi a ++ $"_sys_call") (e_functions e)) as [sym|] eqn:Hs; [|split; [reflexivity|now apply an_function]].
  destruct (Z.ltb_spec (sym_size sym) 16) as [Hz|Hz]; [split; [reflexivity|now apply an_small]|].
  destruct (read_symbol e sym) as [code| | |] eqn:Hr; cbn [bind]; try reflexivity.
  pose proof (emulate_cases same (sym_real sym) (sym_real sym + sym_size sym) (decode (a_bits32 a) code (sym_real sym))) as P.
  destruct (emulate_complaint _ _ _ _) as [c|].
  - destruct P as [U ->]. cbn [bind]. split; [reflexivity|]. now apply (an_code _ _ _ _ sym code).
  - destruct P as [(reg & R & A) (m & l & E)]. rewrite E. cbn [bind]. pose proof (collect_says m (order l)) as Q.
    destruct (collect_complaint m (order l) [] false) as [c|].
    + destruct Q as [T ->]. split; [reflexivity|]. apply (an_targets _ _ _ _ sym code m l (order l)); auto.
    + destruct Q as [N _]. split; [|eauto]. intros c H. inversion H as [E1|sym' E1 E2|sym' code' c' E1 E2 E3 E4|sym' code' m' l' l'' c' E1 E2 E3 E4 E5 E6]; subst.
      * congruence.
      * assert (sym' = sym) as -> by congruence. lia.
      * assert (sym' = sym) as -> by congruence. assert (code' = code) as -> by congruence. apply (emulate_complaint_iff same) in E4.
        pose proof (emulate_cases same (sym_real sym) (sym_real sym + sym_size sym) (decode (a_bits32 a) code (sym_real sym))) as P. rewrite E4 in P. destruct P as [_ P]. congruence.
      * assert (sym' = sym) as -> by congruence. assert (code' = code) as -> by congruence. rewrite E in E4. injection E4 as <- <-.
        apply tells_conflict in E6. apply N.
        eapply conflict_perm; [|exact E6]. apply Permutation_map. etransitivity; [exact E5|]. symmetry. apply order_ok.
Qed.

(** Nothing found and nothing said: only the default case. *)
Theorem extract_silent : extract_complaint decode same order a e = Ok None -> extract_syscall_vaddrs decode same order a e = Ok [] ->
  exists sym code m l, dget str_eqb (a_abi a ++ $"_sys_call") (e_functions e) = Some sym /\ read_symbol e sym = Ok code /\
    emulate same (sym_real sym) (sym_real sym + sym_size sym) (decode (a_bits32 a) code (sym_real sym)) = Ok (Some (m, l)) /\
    len l <= 1 /\ forall i, In i l -> default_case (get m) (target_of i).
Proof.
  unfold extract_complaint, extract_syscall_vaddrs. destruct (a_table a); [discriminate|].
  destruct (dget str_eqb (a_abi a ++ $"_sys_call") (e_functions e)) as [sym|] eqn:Hs; [|discriminate].
  destruct (Z.ltb_spec (sym_size sym) 16) as [Hz|Hz]; [discriminate|].
  destruct (read_symbol e sym) as [code| | |] eqn:Hr; cbn [bind]; try discriminate.
  pose proof (emulate_cases same (sym_real sym) (sym_real sym + sym_size sym) (decode (a_bits32 a) code (sym_real sym))) as P.
  destruct (emulate_complaint _ _ _ _) as [c|].
  - destruct P as [U ->]. cbn [bind]. discriminate.
  - destruct P as [_ (m & l & E)]. rewrite E. cbn [bind]. intros H H'. injection H as H. injection H' as H'.
    pose proof (collect_says m (order l)) as Q. rewrite H, H' in Q. destruct Q as [N Q]. exists sym, code, m, l.
    assert (D : forall i, In i (order l) -> default_case (get m) (target_of i)).
    { intros i Hi. unfold default_case. destruct (Z.lt_ge_cases 100 (len (get m (target_of i)))) as [L|L]; [exact L|exfalso].
      destruct (get m (target_of i)) as [|n ns] eqn:G.
      - apply N. left. exists (target_of i). split; [now apply in_map|exact G].
      - assert (X : dget Z.eqb n (@nil (Z * Z)) = Some (target_of i)); [|discriminate X].
        apply Q. split; [now apply in_map|]. rewrite G. split; [unfold default_case; rewrite G; lia|now left]. }
    split; [reflexivity|]. split; [exact Hr|]. split; [exact E|]. split.
    + assert (len l = len (order l)) as -> by (unfold len; now rewrite (Permutation_length (order_ok l))).
      destruct (order l) as [|i [|j r]]; [unfold len; cbn; lia|unfold len; cbn; lia|]. exfalso. apply N. right. left.
      exists [], (target_of i), [], (target_of j), (map target_of r). split; [reflexivity|]. split; apply D; cbn; auto.
    + intros i Hi. apply D. now apply (Permutation_in i (Permutation_sym (order_ok l))).
Qed.

(** On a dispatcher, in terms of its runs. *)
Hypothesis same_kind : forall x y, same x y = true -> i_kind x = i_kind y.
Theorem extract_dispatcher sym reg code prog c :
  a_table a = None -> dget str_eqb (a_abi a ++ $"_sys_call") (e_functions e) = Some sym -> 16 <= sym_size sym ->
  read_symbol e sym = Ok code -> prog = decode (a_bits32 a) code (sym_real sym) ->
  dispatcher reg (sym_real sym) (sym_real sym + sym_size sym) prog ->
  extract_complaint decode same order a e = Ok (Some c) ->
  (exists i v, c = Unreached v i /\ In i prog /\ exits (sym_real sym) (sym_real sym + sym_size sym) i v /\
     forall n, 0 <= n < 4096 -> ~ reaches (sym_real sym) prog n v) \/
  (c = TwoDefaults /\ exists i j v w, In i prog /\ In j prog /\ same j i = false /\
     exits (sym_real sym) (sym_real sym + sym_size sym) i v /\ exits (sym_real sym) (sym_real sym + sym_size sym) j w /\
     crowded (sym_real sym) prog v /\ crowded (sym_real sym) prog w).
Proof.
  intros Ha Hs Hsz Hr Hp D X. set (start := sym_real sym) in *. set (stop := start + sym_size sym) in *.
  destruct (emulate_exact same reg start stop prog D same_kind) as (m & l & E & H1 & H2 & H3). pose proof (emulate_unlike same _ _ _ _ _ E) as U.
  assert (T : tells (get m) (order l) c).
  { unfold extract_complaint in X. rewrite Ha, Hs in X. destruct (Z.ltb_spec (sym_size sym) 16) as [?|_]; [lia|]. rewrite Hr in X. cbn [bind] in X.
    fold start in X. fold stop in X. rewrite <- Hp, E in X. cbn [bind] in X. injection X as X.
    pose proof (collect_says m (order l)) as Q. rewrite X in Q. tauto. }
  assert (Hnums : forall v, numbers_of start prog v (get m v)).
  { intros v. split; [apply sorted_NoDup, (emulate_ok _ _ _ _ _ _ E)|]. intros n. apply H1. }
  assert (In' : forall z, In z (order l) -> In z prog /\ exits start stop z (target_of z)) by (intros z Hz; apply H2; now apply (Permutation_in z (order_ok l))).
  destruct T as [i Hi B|y1 p y2 q y3 Eo Dp Dq|y1 p y2 q y3 n Eo Hne Dp Dq Np Nq].
  - left. exists i, (target_of i). destruct (In' i Hi) as [G1 G2]. split; [reflexivity|]. split; [exact G1|]. split; [exact G2|].
    intros n Hn Rn. assert (In n (get m (target_of i))) as Q by (apply H1; auto). rewrite B in Q. destruct Q.
  - right. split; [reflexivity|].
    assert (Permutation l (p :: q :: y1 ++ y2 ++ y3)) as P.
    { etransitivity; [symmetry; apply order_ok|]. rewrite Eo. etransitivity; [symmetry; apply Permutation_middle|]. constructor. rewrite app_assoc.
      etransitivity; [symmetry; apply Permutation_middle|]. now rewrite <- app_assoc. }
    assert (In p (order l) /\ In q (order l)) as (Ip & Iq) by (rewrite Eo; split; apply in_or_app; right; [now left|right; apply in_or_app; right; now left]).
    destruct (In' p Ip) as (P1 & P2). destruct (In' q Iq) as (Q1 & Q2).
    assert (Cp : crowded start prog (target_of p)) by (exists (get m (target_of p)); auto).
    assert (Cq : crowded start prog (target_of q)) by (exists (get m (target_of q)); auto).
    destruct (pairs_two same l p q _ U P) as (p' & q' & [(-> & ->)|(-> & ->)] & Un).
    + exists p, q, (target_of p), (target_of q). repeat (split; [assumption|]). assumption.
    + exists q, p, (target_of q), (target_of p). repeat (split; [assumption|]). assumption.
  - exfalso. assert (In p (order l) /\ In q (order l)) as (Ip & Iq) by (rewrite Eo; split; apply in_or_app; right; [now left|right; apply in_or_app; right; now left]).
    destruct (In' p Ip) as (_ & _ & O1). destruct (In' q Iq) as (_ & _ & O2).
    apply (no_clash reg start stop prog m (target_of p) (target_of q) D H1 O1 O2). split; [exact Hne|]. split; [exact Dp|]. split; [exact Dq|]. now exists n.
Qed.
End Whole.
