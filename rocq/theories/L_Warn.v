(** Lemmas about what is logged about the syscalls. *)
From Coq Require Import List Bool Ascii String ZArith Lia.
From Verif Require Import PyBase PyFacts M_Utils M_Elf M_Syscall M_Kernel S_Kernel L_Utils L_Kernel8 M_Warn S_Warn.
Import ListNotations.
Open Scope Z_scope.
Open Scope list_scope.

Lemma dmem_in {V} (k : str) (d : list (str * V)) : dmem str_eqb k d = true <-> exists v, In (k, v) d.
Proof.
  unfold dmem. induction d as [|[k' v] d IH]; cbn [dget].
  - split; [discriminate|]. intros [v []].
  - destruct (str_eqb k k') eqn:E.
    + apply str_eqb_eq in E. subst. split; [intros _; exists v; now left|reflexivity].
    + rewrite IH. split; intros [w I]; exists w; [now right|]. destruct I as [I|I]; [|exact I]. injection I as -> ->. rewrite str_eqb_refl in E. discriminate.
Qed.
Lemma loc_info e : can_extract_location_info e = true <-> has_lines e.
Proof. unfold can_extract_location_info, has_debug_info, has_lines. apply dmem_in. Qed.
Lemma sig_info e : can_extract_signature_info e = true <-> has_descriptions e \/ has_lines e.
Proof. unfold can_extract_signature_info, has_descriptions. rewrite orb_true_iff, dmem_in. rewrite <- loc_info. reflexivity. Qed.

Lemma name_ends_iff f suffix : name_ends f suffix = true <-> file_named f suffix.
Proof.
  unfold name_ends, file_named, endswith. split.
  - destruct (rev (parts f)) as [|x l] eqn:E; [discriminate|]. rewrite startswith_iff. intros [t H]. apply (f_equal (@rev ascii)) in H. rewrite rev_involutive, rev_app_distr, rev_involutive in H.
    exists (rev l), (rev t). apply (f_equal (@rev str)) in E. rewrite rev_involutive in E. cbn [rev] in E. now rewrite E, H.
  - intros (pre & name & ->). rewrite rev_app_distr. cbn [rev app]. apply startswith_iff. exists (rev name). apply rev_app_distr.
Qed.
Lemma hint_ok f : hint_for f (location_hint f).
Proof.
  unfold location_hint. destruct (name_ends f $".S") eqn:E1; [now apply hint_asm, name_ends_iff|]. destruct (name_ends f $".c") eqn:E2; [now apply hint_c, name_ends_iff|].
  apply hint_none; rewrite <- name_ends_iff; congruence.
Qed.
Lemma shown_ok kdir f p : maybe_rel (Some f) kdir = Ok (Some p) -> shown_as kdir f p.
Proof.
  intros H. destruct kdir as [k|].
  - destruct (is_relative_to f k) eqn:E.
    + apply is_relative_to_join in E as [t ->]. rewrite maybe_rel_under in H. injection H as <-. now apply (shown_below _ _ k t).
    + unfold maybe_rel in H. rewrite E in H. injection H as <-. apply shown_other. intros k' t [= <-] ->.
      assert (is_relative_to (path_join k (Path [] t)) k = true) by (apply is_relative_to_join; eauto). congruence.
  - injection H as <-. apply shown_other. intros k t [=].
Qed.

Lemma picks_no {A} (P : A -> Prop) x l r : ~ P x -> picks P l r -> picks P (x :: l) ([] ++ r).
Proof. apply picks_out. Qed.
Lemma picks_yes {A} (P : A -> Prop) x l r : P x -> picks P l r -> picks P (x :: l) ([x] ++ r).
Proof. apply picks_in. Qed.
Lemma picks_app {A} (P : A -> Prop) l l' r r' : picks P l r -> picks P l' r' -> picks P (l ++ l') (r ++ r').
Proof. induction 1; intros H'; cbn [app]; [exact H'| |]; constructor; auto. Qed.

(** What one syscall, or several, add to the state. *)
Definition adds (kdir : option path) (e : elf) (l : list syscall) (t t' : state) : Prop :=
  exists r d dl b n g md mb,
    picks (fun s => ~ dropped kdir s) l r /\ picks (dropped kdir) l d /\ picks (fun s => sc_line s <> None) d dl /\
    picks (fun s => kdir <> None /\ uncertain s) r b /\
    picks (fun s => has_lines e /\ sc_file s = None) r n /\
    picks (fun s => (has_descriptions e \/ has_lines e) /\ sc_signature s = None) r g /\
    Forall2 (says_dropped kdir) dl md /\ Forall2 (says_bad kdir) b mb /\
    t' = State (st_now t ++ md) (st_implemented t ++ r) (st_bad t ++ mb) (st_noloc t ++ map no_loc n) (st_nosig t ++ map no_sig g).

Lemma pick_one {A} (P : A -> Prop) x (b : bool) : (b = true <-> P x) -> picks P [x] (if b then [x] else []).
Proof. intros H. destruct b; constructor; try constructor; intuition congruence. Qed.
Lemma adds_implement kdir e s t bad b : ~ dropped kdir s -> picks (fun s => kdir <> None /\ uncertain s) [s] b -> Forall2 (says_bad kdir) b bad ->
  adds kdir e [s] t (implement e s bad t).
Proof.
  intros D B Fb. exists [s], [], [], b, (match sc_file s with None => if can_extract_location_info e then [s] else [] | Some _ => [] end),
    (match sc_signature s with None => if can_extract_signature_info e then [s] else [] | Some _ => [] end), [], bad.
  split; [apply picks_in; [exact D|constructor]|]. split; [apply picks_out; [exact D|constructor]|]. split; [constructor|]. split; [exact B|]. split.
  { destruct (sc_file s) eqn:E; [apply picks_out; [intros [_ X]; congruence|constructor]|]. apply pick_one. rewrite loc_info, E. tauto. }
  split.
  { destruct (sc_signature s) eqn:E; [apply picks_out; [intros [_ X]; congruence|constructor]|]. apply pick_one. rewrite sig_info, E. tauto. }
  split; [constructor|]. split; [exact Fb|]. unfold implement. rewrite app_nil_r. f_equal.
  - destruct (sc_file s); [reflexivity|]. now destruct (can_extract_location_info e).
  - destruct (sc_signature s); [reflexivity|]. now destruct (can_extract_signature_info e).
Qed.
Lemma step_adds kdir e t s : exists t', second_step kdir e t s = Ok t' /\ adds kdir e [s] t t'.
Proof.
  unfold second_step. destruct (sc_file s) as [f|] eqn:Ef.
  - destruct (negb (sc_esoteric s) && negb (sc_good s)) eqn:E.
    + apply andb_prop in E as [E1 E2]. apply negb_true_iff in E2. destruct (maybe_rel_total f kdir) as [p Ep]. rewrite Ep. cbn [bind]. destruct (is_sys_ni p) eqn:En.
      * eexists. split; [reflexivity|]. apply is_sys_ni_iff in En as [pre En].
        assert (dropped kdir s) as D. { split; [exact E1|]. split; [exact E2|]. exists f, p, pre. auto. }
        exists [], [s], (match sc_line s with Some _ => [s] | None => [] end), [], [], [], (log_dropped s p), []. split; [apply picks_out; [tauto|constructor]|]. split; [apply picks_in; [exact D|constructor]|].
        split. { destruct (sc_line s) eqn:El; constructor; try constructor; congruence. }
        do 3 (split; [constructor|]). split; [|split; [constructor|cbn [map]; now rewrite !app_nil_r]]. unfold log_dropped. destruct (sc_line s) as [n|] eqn:El; [|constructor]. constructor; [|constructor]. exists f, p, n. split; [exact Ef|]. split; [now apply shown_ok|]. auto.
      * eexists. split; [reflexivity|].
        assert (~ dropped kdir s) as D.
        { intros (_ & _ & f' & p' & pre & X1 & X2 & X3). rewrite Ef in X1. injection X1 as <-. rewrite Ep in X2. injection X2 as <-. rewrite (proj2 (is_sys_ni_iff p)) in En by eauto. discriminate. }
        apply (adds_implement kdir e s t _ (match kdir with Some _ => [s] | None => [] end) D).
        -- destruct kdir; constructor; try constructor; [discriminate| |intros [X _]; congruence]. split; [exact E1|]. split; [exact E2|congruence].
        -- destruct kdir as [k|]; constructor; [|constructor]. exists f, p, (location_hint f). split; [exact Ef|]. split; [now apply shown_ok|]. split; [apply hint_ok|reflexivity].
    + eexists. split; [reflexivity|]. assert (~ (of_table s = true /\ sc_good s = false)) as X. { unfold of_table. intros [X1 X2]. rewrite X1, X2 in E. discriminate. }
      apply (adds_implement kdir e s t [] []); [intros (X1 & X2 & _); tauto| |constructor]. apply picks_out; [intros (_ & X1 & X2 & _); tauto|constructor].
  - eexists. split; [reflexivity|]. apply (adds_implement kdir e s t [] []); [intros (_ & _ & f & p & pre & X & _); congruence| |constructor].
    apply picks_out; [intros (_ & _ & _ & X); congruence|constructor].
Qed.
Lemma adds_trans kdir e l l' t t' t'' : adds kdir e l t t' -> adds kdir e l' t' t'' -> adds kdir e (l ++ l') t t''.
Proof.
  intros (r & d & dl & b & n & g & md & mb & H1 & H2 & H3 & H4 & H5 & H6 & H7 & H8 & ->) (r' & d' & dl' & b' & n' & g' & md' & mb' & G1 & G2 & G3 & G4 & G5 & G6 & G7 & G8 & ->).
  exists (r ++ r'), (d ++ d'), (dl ++ dl'), (b ++ b'), (n ++ n'), (g ++ g'), (md ++ md'), (mb ++ mb').
  do 6 (split; [now apply picks_app|]). do 2 (split; [now apply Forall2_app|]). cbn [st_now st_implemented st_bad st_noloc st_nosig]. now rewrite !map_app, !app_assoc.
Qed.
Lemma loop_adds kdir e l : forall t, exists t', second_loop kdir e t l = Ok t' /\ adds kdir e l t t'.
Proof.
  induction l as [|s l IH]; intros t; cbn [second_loop].
  - exists t. split; [reflexivity|]. exists [], [], [], [], [], [], [], []. do 6 (split; [constructor|]). do 2 (split; [constructor|]). cbn [map]. rewrite !app_nil_r. now destruct t.
  - destruct (step_adds kdir e t s) as (t1 & -> & A1). cbn [bind]. destruct (IH t1) as (t2 & E2 & A2). exists t2. split; [exact E2|]. apply (adds_trans kdir e [s] l t t1 t2 A1 A2).
Qed.
Lemma second_pass_spec kdir e l : exists r d dl b n g md mb,
    second_pass kdir e l = Ok (r, md ++ mb ++ map no_loc n ++ map no_sig g) /\
    picks (fun s => ~ dropped kdir s) l r /\ picks (dropped kdir) l d /\ picks (fun s => sc_line s <> None) d dl /\
    picks (fun s => kdir <> None /\ uncertain s) r b /\
    picks (fun s => has_lines e /\ sc_file s = None) r n /\
    picks (fun s => (has_descriptions e \/ has_lines e) /\ sc_signature s = None) r g /\
    Forall2 (says_dropped kdir) dl md /\ Forall2 (says_bad kdir) b mb.
Proof.
  unfold second_pass. destruct (loop_adds kdir e l (State [] [] [] [] [])) as (t & E & r & d & dl & b & n & g & md & mb & H). rewrite E. cbn [bind].
  exists r, d, dl, b, n, g, md, mb. destruct H as (H1 & H2 & H3 & H4 & H5 & H6 & H7 & H8 & ->). cbn [st_now st_implemented st_bad st_noloc st_nosig app]. auto 10.
Qed.
(** The pass of M_Kernel is this one without the messages. *)
Lemma same_pass kdir e l : filterM (keep_located kdir) l = (x <- second_pass kdir e l ;; Ok (fst x)).
Proof.
  unfold second_pass.
  assert (forall t, (r <- filterM (keep_located kdir) l ;; Ok (st_implemented t ++ r)) = (t' <- second_loop kdir e t l ;; Ok (st_implemented t'))) as G.
  { induction l as [|s l IH]; intros t; cbn [filterM second_loop bind]; [now rewrite app_nil_r|].
    assert (exists b t', keep_located kdir s = Ok b /\ second_step kdir e t s = Ok t' /\ st_implemented t' = st_implemented t ++ if b then [s] else []) as (b & t' & -> & -> & Et).
    { unfold keep_located, second_step. destruct (sc_file s) as [f|].
      - destruct (negb (sc_esoteric s) && negb (sc_good s)).
        + destruct (maybe_rel_total f kdir) as [p ->]. cbn [bind]. destruct (is_sys_ni p); eexists _, _; (split; [reflexivity|]); (split; [reflexivity|]); cbn; now rewrite ?app_nil_r.
        + eexists _, _. split; [reflexivity|]. split; reflexivity.
      - destruct (negb (sc_esoteric s) && negb (sc_good s)); eexists _, _; (split; [reflexivity|]); split; reflexivity. }
    cbn [bind]. rewrite <- (IH t'). destruct (filterM (keep_located kdir) l) as [r| | |]; cbn [bind]; try reflexivity. rewrite Et, <- app_assoc. now destruct b. }
  specialize (G (State [] [] [] [] [])). cbn [st_implemented] in G. destruct (filterM (keep_located kdir) l) as [r| | |], (second_loop kdir e (State [] [] [] [] []) l) as [t| | |]; cbn [bind app fst] in *; congruence.
Qed.
