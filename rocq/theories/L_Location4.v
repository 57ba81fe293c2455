(** Lemmas for the properties of location.py: which syscalls are grepped (C55). *)
From Coq Require Import List Bool Ascii String ZArith Lia Permutation.
From Verif Require Import PyBase PyFacts Regex RegexFacts RegexDen M_Utils M_Elf M_Syscall M_Arch M_Location
  S_Elf S_Signature S_Location L_Utils L_Signature3 L_Location L_Location2 L_Location3.
Import ListNotations.
Open Scope Z_scope.
Open Scope list_scope.

Lemma step1_todo w a kdir rdir kres s l s' t b : fresh_syscall s -> step1 w a kdir rdir kres s l = Ok (s', t, b) ->
  (t <> Done <-> missing s') /\ t <> Retry /\
  (t = Adjust -> 1 < sym_size (sc_symbol s)) /\
  (b = true -> exists f n, remap kdir rdir (fst l) = Ok (Some f) /\ snd l = Some n /\ w_file w f <> None /\ is_relative_to f kres = false).
Proof.
  intros (F1 & F2 & F3) H. unfold step1 in H. apply bind_Ok in H as (file & R & H). 
  assert (forall x, sc_symbol (set_good (set_file s x) false) = sc_symbol s) as SS by reflexivity. rewrite SS in H.
  set (next := if 1 <? sym_size (sc_symbol s) then Adjust else ToGrep) in *.
  assert (next <> Done /\ next <> Retry /\ (next = Adjust -> 1 < sym_size (sc_symbol s))) as (N1 & N2 & N3).
  { unfold next. destruct (Z.ltb_spec 1 (sym_size (sc_symbol s))); repeat split; congruence || auto. }
  assert (forall file, missing (set_good (set_file s file) false)) as M by (intros x; split; [reflexivity|intros _; exact F2]).
  assert (usable w (file, snd l) = None -> (s', t, b) = (set_good (set_file s file) false, next, false)) as U by (intros E; rewrite E in H; now injection H as <- <- <-).
  destruct (usable w (file, snd l)) as [(f & n)|] eqn:E.
  - clear U. unfold usable in E. destruct file as [f'|]; [|discriminate]. destruct (snd l) as [n'|] eqn:Sl; [|discriminate]. destruct (w_file w f') eqn:Wf; [|discriminate]. injection E as -> ->.
    apply bind_Ok in H as (line & L & H).
    assert (b = negb (is_relative_to f kres) -> b = true -> exists f0 n0, remap kdir rdir (fst l) = Ok (Some f0) /\ Some n = Some n0 /\ w_file w f0 <> None /\ is_relative_to f0 kres = false) as BB.
    { intros -> Hb. exists f, n. split; [exact R|]. split; [reflexivity|]. split; [congruence|]. now apply negb_true_iff in Hb. }
    destruct (sc_esoteric _) eqn:Es.
    + injection H as <- <- <-. split; [|split; [discriminate|split; [discriminate|now apply BB]]]. split; [congruence|]. intros (_ & X). specialize (X Es). discriminate.
    + apply bind_Ok in H as (g & G & H). destruct g; injection H as <- <- <-.
      * split; [|split; [discriminate|split; [discriminate|now apply BB]]]. split; [congruence|]. intros (X & _). discriminate.
      * split; [|split; [exact N2|split; [exact N3|now apply BB]]]. split; [|auto]. intros _. split; [reflexivity|]. intros Es'. rewrite Es in Es'. discriminate.
  - injection (U eq_refl) as -> -> ->. split; [split; auto|]. split; [exact N2|]. split; [exact N3|discriminate].
Qed.
Lemma step1_all_todo w a kdir rdir kres scs : forall locs r, Forall fresh_syscall scs -> List.length locs = List.length scs ->
  step1_all w a kdir rdir kres scs locs = Ok r ->
  List.length r = List.length scs /\
  Forall (fun x => (snd (fst x) <> Done <-> missing (fst (fst x))) /\ snd (fst x) <> Retry /\
                   (snd (fst x) = Adjust -> 1 < sym_size (sc_symbol (fst (fst x))))) r /\
  (existsb snd r = true -> exists l f n, In l locs /\ remap kdir rdir (fst l) = Ok (Some f) /\ snd l = Some n /\ w_file w f <> None /\ is_relative_to f kres = false).
Proof.
  induction scs as [|s scs IH]; intros locs r F L H.
  - destruct locs; [|discriminate]. cbn in H. injection H as <-. split; [reflexivity|]. split; [constructor|discriminate].
  - destruct locs as [|l locs]; [discriminate|]. inversion F as [|? ? F1 F2]; subst. cbn [step1_all] in H. apply bind_Ok in H as (((s' & t) & b) & X & H). apply bind_Ok in H as (r' & R & H). injection H as <-.
    assert (sc_symbol s' = sc_symbol s) as ES.
    { unfold step1 in X. apply bind_Ok in X as (file & _ & X). destruct (usable w _) as [(f & n)|]; [|injection X as <- _ _; reflexivity].
      apply bind_Ok in X as (line & _ & X). destruct (sc_esoteric _); [injection X as <- _ _; reflexivity|]. apply bind_Ok in X as (g & _ & X). destruct g; injection X as <- _ _; reflexivity. }
    apply step1_todo in X as (X1 & X2 & X3 & X4); [|exact F1]. apply IH in R as (R1 & R2 & R3); [|exact F2|now injection L]. split; [cbn; now rewrite R1|].
    split; [constructor; [cbn; rewrite ES; auto|exact R2]|]. cbn [existsb snd]. intros Hb. apply orb_true_iff in Hb as [Hb|Hb].
    + destruct (X4 Hb) as (f & n & Y). exists l, f, n. split; [now left|exact Y].
    + destruct (R3 Hb) as (l' & f & n & I & Y). exists l', f, n. split; [now right|exact Y].
Qed.

Lemma nodup_r {A} (l m : list A) : NoDup (l ++ m) -> NoDup m.
Proof. induction l; intros H; [exact H|]. inversion H; auto. Qed.
Lemma nodup_l {A} (l m : list A) : NoDup (l ++ m) -> NoDup l.
Proof. induction l; intros H; [constructor|]. inversion H; subst. constructor; [|auto]. intros X. apply H2, in_or_app. now left. Qed.
Lemma positions_in t l k i : In i (positions t l k) <-> exists j, (i = k + j)%nat /\ nth_error l j = Some t.
Proof.
  revert k i. induction l as [|x l IH]; intros k i; cbn [positions].
  - split; [intros []|]. intros ([|j] & _ & E); discriminate.
  - assert (forall i, In i (positions t l (S k)) <-> exists j, (i = k + S j)%nat /\ nth_error (x :: l) (S j) = Some t) as IH'.
    { intros i'. rewrite IH. cbn. split; intros (j & -> & E); exists j; (split; [lia|exact E]). }
    destruct (todo_eqb t x) eqn:E; cbn [In]; rewrite IH'.
    + assert (t = x) as <- by (destruct t, x; cbn in E; congruence). split.
      * intros [<-|(j & -> & H)]; [exists O; split; [lia|reflexivity]|exists (S j); auto].
      * intros ([|j] & -> & H); [left; lia|right; exists j; auto].
    + split.
      * intros (j & -> & H). exists (S j). auto.
      * intros ([|j] & -> & H); [|exists j; auto]. cbn in H. injection H as ->. destruct t; discriminate.
Qed.
Lemma positions_nodup t l k : NoDup (positions t l k).
Proof.
  revert k. induction l as [|x l IH]; intros k; cbn [positions]; [constructor|]. destruct (todo_eqb t x); [|apply IH]. constructor; [|apply IH].
  rewrite positions_in. intros (j & E & _). lia.
Qed.

(** Of the syscalls [l], some were found and the others are [rest]; nothing else changed. *)
Definition hunt (scs : list syscall) (l : list nat) (scs' : list syscall) (rest : list nat) : Prop :=
  List.length scs' = List.length scs /\
  exists F, Permutation l (F ++ rest) /\ (forall i, In i F -> sc_good (at_ scs' i) = true) /\ (forall i, ~ In i F -> at_ scs' i = at_ scs i).
Lemma hunt_none scs rest : hunt scs rest scs rest.
Proof. split; [reflexivity|]. exists []. split; [reflexivity|]. split; [intros i []|reflexivity]. Qed.
Lemma hunt_miss scs i l scs' rest rest' : hunt scs l scs' rest -> Permutation (i :: rest) rest' -> hunt scs (i :: l) scs' rest'.
Proof.
  intros (L & F & P & H1 & H2) R. split; [exact L|]. exists F. split; [|auto]. rewrite P, Permutation_middle, R. reflexivity.
Qed.
Lemma hunt_hit scs i l scs' rest f n : (i < List.length scs)%nat -> ~ In i l ->
  hunt (update scs i (fun s => found_at s f n)) l scs' rest -> hunt scs (i :: l) scs' rest.
Proof.
  intros I N (L & F & P & H1 & H2). rewrite update_length in L. split; [exact L|]. exists (i :: F). split; [cbn; now constructor|]. split.
  - intros j [<-|J]; [|now apply H1]. rewrite H2; [now rewrite at_update_eq|]. intros X. apply N. eapply Permutation_in; [symmetry; exact P|]. apply in_or_app. now left.
  - intros j J. rewrite H2 by (intros X; apply J; now right). apply at_update_ne. intros <-. apply J. now left.
Qed.

Lemma step2_hunt w a elf kdir rdir l : forall scs answers r, NoDup l -> (forall i, In i l -> (i < List.length scs)%nat) ->
  List.length answers = List.length l -> step2 w a elf kdir rdir scs l answers = Ok r ->
  hunt scs l (fst (fst r)) (snd (fst r) ++ snd r).
Proof.
  induction l as [|i l IH]; intros scs answers r N B L H; [cbn in H; injection H as <-; apply hunt_none|].
  destruct answers as [|d answers]; [discriminate|]. cbn [step2] in H. injection L as L. inversion N as [|? ? N1 N2]; subst.
  apply bind_Ok in H as (x & X & H). apply bind_Ok in H as (file & R & H).
  assert (forall r', step2 w a elf kdir rdir scs l answers = Ok r' ->
    (let '(scs, retry, grep) := r' in if 2 <? sym_size (sc_symbol (at_ scs i)) then (scs, i :: retry, grep) else (scs, retry, i :: grep)) = r ->
    hunt scs (i :: l) (fst (fst r)) (snd (fst r) ++ snd r)) as M.
  { intros ((scs' & retry) & grep) E1 E2. apply IH in E1; [|exact N2|intros j J; apply B; now right|exact L]. cbn [fst snd] in E1.
    apply (hunt_miss _ i _ _ (retry ++ grep)); [destruct (_ <? _) in E2; subst r; exact E1|].
    destruct (_ <? _) in E2; subst r; cbn [fst snd]; [reflexivity|apply Permutation_middle]. }
  destruct (usable w (file, snd x)) as [(f & n)|].
  - apply bind_Ok in H as (line & Li & H). apply bind_Ok in H as (g & G & H). destruct g.
    + apply IH in H; [|exact N2|intros j J; rewrite update_length; apply B; now right|exact L]. apply hunt_hit in H; [exact H|apply B; now left|exact N1].
    + apply bind_Ok in H as (r' & H & E). injection E as E. now apply (M r').
  - apply bind_Ok in H as (r' & H & E). injection E as E. now apply (M r').
Qed.
Lemma step3_hunt w a elf kdir rdir l : forall scs r, NoDup l -> (forall i, In i l -> (i < List.length scs)%nat) ->
  step3 w a elf kdir rdir scs l = Ok r -> hunt scs l (fst r) (snd r).
Proof.
  induction l as [|i l IH]; intros scs r N B H; [cbn in H; injection H as <-; apply hunt_none|]. cbn [step3] in H. inversion N as [|? ? N1 N2]; subst.
  apply bind_Ok in H as (answers & A & H). apply bind_Ok in H as (((fo & invalid) & has) & X & H). destruct fo as [(f & line)|].
  - apply IH in H; [|exact N2|intros j J; rewrite update_length; apply B; now right]. apply hunt_hit in H; [exact H|apply B; now left|exact N1].
  - destruct (negb invalid && negb has); [discriminate|]. apply bind_Ok in H as (r' & H & E). injection E as <-. cbn [fst snd].
    apply IH in H; [|exact N2|intros j J; apply B; now right]. eapply hunt_miss; [exact H|reflexivity].
Qed.
Lemma hunt_trans scs l scs' m n scs'' : hunt scs l scs' (m ++ n) -> forall m', hunt scs' m scs'' m' -> NoDup l -> hunt scs l scs'' (m' ++ n).
Proof.
  intros (L1 & F1 & P1 & A1 & B1) m' (L2 & F2 & P2 & A2 & B2) N. split; [congruence|]. exists (F1 ++ F2). split; [|split].
  - rewrite P1, P2, <- !app_assoc. reflexivity.
  - intros i I. destruct (in_dec Nat.eq_dec i F2) as [I2|I2]; [now apply A2|]. apply in_app_iff in I as [I|I]; [|contradiction]. rewrite B2 by exact I2. now apply A1.
  - intros i I. rewrite B2, B1; [reflexivity| |]; intros X; apply I, in_or_app; auto.
Qed.
Lemma hunt_missing scs l scs' rest : NoDup l -> hunt scs l scs' rest -> (forall i, (i < List.length scs)%nat -> (missing (at_ scs i) <-> In i l)) ->
  (forall i, In i l -> (i < List.length scs)%nat) ->
  NoDup rest /\ forall i, (i < List.length scs')%nat -> (In i rest <-> missing (at_ scs' i)).
Proof.
  intros N (L & F & P & A & B) M Bd. pose proof (Permutation_NoDup P N) as N'. split; [now apply nodup_r in N'|].
  intros i I. rewrite L in I. destruct (in_dec Nat.eq_dec i F) as [X|X].
  - split.
    + intros Y. exfalso. clear -N' X Y. induction F as [|j F IH]; [contradiction|]. cbn in N'. inversion N'; subst. destruct X as [->|X]; [apply H1, in_or_app; auto|auto].
    + intros (G & _). rewrite (A i X) in G. discriminate.
  - rewrite (B i X), (M i I). split; intros Y.
    + eapply Permutation_in; [symmetry; exact P|]. apply in_or_app. auto.
    + apply (Permutation_in _ P), in_app_iff in Y as [Y|Y]; [contradiction|exact Y].
Qed.
Lemma hunt_perm scs l l' scs' rest rest' : Permutation l l' -> Permutation rest rest' -> hunt scs l scs' rest -> hunt scs l' scs' rest'.
Proof. intros P1 P2 (L & F & P & H). split; [exact L|]. exists F. split; [|exact H]. now rewrite <- P1, <- P2. Qed.
Lemma hunt_more scs l scs' rest m : hunt scs l scs' rest -> hunt scs (m ++ l) scs' (m ++ rest).
Proof.
  intros (L & F & P & H). split; [exact L|]. exists F. split; [|exact H]. rewrite P, !app_assoc. now rewrite (Permutation_app_comm m F).
Qed.

Definition one_answer (w : world) : Prop := forall addrs answers, ask w addrs = Ok answers -> List.length answers = List.length addrs.
Lemma mapM_len {A B} (f : A -> outcome B) l r : mapM f l = Ok r -> List.length r = List.length l.
Proof. intros H. apply mapM_Ok in H. symmetry. now apply (Forall2_len2 _ _ _ H). Qed.
Lemma at_map {A} (f : A -> syscall) l i x : nth_error l i = Some x -> at_ (map f l) i = f x.
Proof. intros E. unfold at_. apply nth_error_nth. now rewrite nth_error_map, E. Qed.

Lemma search_grep w a elf kdir rdir kres scs scs' st : one_answer w -> Forall fresh_syscall scs ->
  search_locations w a elf (Some kdir) rdir kres scs = Ok (scs', st) ->
  List.length scs' = List.length scs /\
  match st with
  | NoSources => False
  | AllBad => scs <> [] /\ Forall (fun s => missing s /\ 1 < sym_size (sc_symbol s)) scs'
  | Outside => exists answers d l f n, ask w (map (fun s => sym_real (sc_symbol s)) scs) = Ok answers /\ In d answers /\ smart_loc elf (Some kdir) d = Ok l /\
      remap kdir rdir (fst l) = Ok (Some f) /\ snd l = Some n /\ w_file w f <> None /\ forall t, f <> path_join kres (Path [] t)
  | Grep l => NoDup l /\ (forall i, In i l -> (i < List.length scs')%nat) /\ forall i, (i < List.length scs')%nat -> (In i l <-> missing (at_ scs' i))
  end.
Proof.
  intros O F H. unfold search_locations in H. apply bind_Ok in H as (answers & A & H). apply bind_Ok in H as (locs & Lo & H).
  apply bind_Ok in H as (r1 & R1 & H). pose proof (O _ _ A) as LA. rewrite map_length in LA. pose proof (mapM_len _ _ _ Lo) as LL.
  apply step1_all_todo in R1 as (L1 & T1 & B1); [|exact F|congruence].
  set (scs1 := map (fun x => fst (fst x)) r1) in *. set (todos := map (fun x => snd (fst x)) r1) in *.
  assert (List.length scs1 = List.length scs) as LS by (unfold scs1; now rewrite map_length).
  rewrite Forall_forall in T1.
  assert (forall t i, In i (positions t todos 0) <-> exists x, nth_error r1 i = Some x /\ snd (fst x) = t) as PI.
  { intros t i. rewrite positions_in. cbn [Nat.add]. unfold todos. split.
    - intros (j & -> & E). rewrite nth_error_map in E. destruct (nth_error r1 j) as [x|]; [|discriminate]. injection E as E. eauto.
    - intros (x & E & X). exists i. split; [reflexivity|]. rewrite nth_error_map, E. cbn. now rewrite X. }
  assert (forall i x, nth_error r1 i = Some x -> (i < List.length scs1)%nat) as BD.
  { intros i x E. rewrite LS, <- L1. apply nth_error_Some. congruence. }
  set (l1 := positions Adjust todos 0) in *. set (g1 := positions ToGrep todos 0) in *.
  assert (NoDup (g1 ++ l1)) as ND.
  { assert (forall i, In i g1 -> In i l1 -> False) as D.
    { intros i I1 I2. apply PI in I1 as (x & E1 & X1). apply PI in I2 as (y & E2 & X2). congruence. }
    pose proof (positions_nodup ToGrep todos 0) as N1. fold g1 in N1. pose proof (positions_nodup Adjust todos 0) as N2. fold l1 in N2.
    clear -N1 N2 D. induction N1 as [|x g X N1 IH]; [exact N2|]. cbn. constructor.
    - rewrite in_app_iff. intros [Y|Y]; [contradiction|]. apply (D x); [now left|exact Y].
    - apply IH. intros i I1. apply D. now right. }
  assert (forall i, In i (g1 ++ l1) -> (i < List.length scs1)%nat) as B2.
  { intros i I. apply in_app_iff in I as [I|I]; apply PI in I as (x & E & _); now apply (BD i x). }
  assert (forall i, (i < List.length scs1)%nat -> (missing (at_ scs1 i) <-> In i (g1 ++ l1))) as M1.
  { intros i I. destruct (nth_error r1 i) as [x|] eqn:E; [|apply nth_error_None in E; rewrite LS, <- L1 in I; lia].
    unfold scs1. rewrite (at_map _ _ _ _ E). destruct (T1 x (nth_error_In _ _ E)) as (T & T2 & _). rewrite <- T, in_app_iff.
    unfold g1, l1. rewrite !PI. split.
    - intros X. destruct (snd (fst x)) eqn:Y; [congruence|right; eauto|congruence|left; eauto].
    - intros [(y & E' & X)|(y & E' & X)]; congruence. }
  assert (len (by_name scs1 l1) = len l1) as LB by (unfold by_name, len; now rewrite <- (Permutation_length (sort_by_perm _ _ _))).
  destruct (negb (len (by_name scs1 l1) =? 0) && (len (by_name scs1 l1) =? len locs)) eqn:AB.
  - injection H as <- <-. split; [exact LS|]. apply andb_true_iff in AB as [AB1 AB2]. apply negb_true_iff, Z.eqb_neq in AB1. apply Z.eqb_eq in AB2. rewrite LB in *.
    unfold len in AB1, AB2. split; [intros ->; cbn in *; lia|].
    assert (forall i, (i < List.length scs)%nat -> In i l1) as ALL.
    { intros i I. assert (incl (seq 0 (List.length scs)) l1) as X.
      { apply NoDup_length_incl; [now apply nodup_r in ND|rewrite seq_length; lia|]. intros j J. apply in_seq. specialize (B2 j). rewrite in_app_iff in B2. specialize (B2 (or_intror J)). lia. }
      apply X, in_seq. lia. }
    apply Forall_forall. intros s I. apply In_nth_error in I as (i & E). unfold scs1 in E. rewrite nth_error_map in E.
    destruct (nth_error r1 i) as [x|] eqn:E'; [|discriminate]. injection E as <-. pose proof (nth_error_In _ _ E') as Ix. destruct (T1 x Ix) as (T & T2 & T3).
    assert (In i l1) as Y by (apply ALL; rewrite <- LS; now apply (BD i x)). apply PI in Y as (y & E2 & Y). assert (y = x) as -> by congruence.
    split; [apply T; congruence|auto].
  - apply bind_Ok in H as (((scs2 & retry) & grep2) & R2 & H).
    pose proof (sort_by_perm str_leb (fun i => sc_name (at_ scs1 i)) l1) as PB. change (Permutation l1 (by_name scs1 l1)) in PB.
    assert (NoDup l1) as N1 by (now apply nodup_r in ND).
    assert (hunt scs1 l1 scs2 (retry ++ grep2)) as H2.
    { destruct (Z.eqb_spec (len (by_name scs1 l1)) 0) as [Z0|Z0].
      - injection R2 as <- <- <-. rewrite LB in Z0. destruct l1; [apply hunt_none|unfold len in Z0; cbn in Z0; lia].
      - apply bind_Ok in R2 as (ans2 & A2 & R2). pose proof (O _ _ A2) as LA2. rewrite map_length in LA2.
        apply step2_hunt in R2; [|now apply (Permutation_NoDup PB)| |exact LA2].
        + cbn [fst snd] in R2. apply (hunt_perm _ (by_name scs1 l1) _ _ (retry ++ grep2)); [symmetry; exact PB|reflexivity|exact R2].
        + intros i I. apply B2, in_or_app. right. eapply Permutation_in; [symmetry; exact PB|exact I]. }
    apply bind_Ok in H as ((scs3 & grep3) & R3 & H). pose proof (sort_by_perm str_leb (fun i => sc_name (at_ scs2 i)) retry) as PB2. change (Permutation retry (by_name scs2 retry)) in PB2.
    assert (hunt scs2 retry scs3 grep3) as H3.
    { apply step3_hunt in R3.
      - cbn [fst snd] in R3. apply (hunt_perm _ (by_name scs2 retry) _ _ grep3); [symmetry; exact PB2|reflexivity|exact R3].
      - apply (Permutation_NoDup PB2). destruct H2 as (_ & F2 & P2 & _). apply (Permutation_NoDup P2), nodup_r in N1. now apply nodup_l in N1.
      - intros i I. destruct H2 as (L2 & F2 & P2 & _). rewrite L2. apply B2, in_or_app. right. eapply Permutation_in; [symmetry; exact P2|]. apply in_or_app. right. apply in_or_app. left.
        eapply Permutation_in; [symmetry; exact PB2|exact I]. }
    pose proof (hunt_trans _ _ _ _ _ _ H2 _ H3 N1) as H4. pose proof (proj1 H4) as L3.
    destruct (existsb snd r1) eqn:BP; injection H as <- <-; (split; [congruence|]).
    + destruct (B1 eq_refl) as (l & f & n & I & Y1 & Y2 & Y3 & Y4). apply mapM_Ok in Lo. 
      assert (exists d, In d answers /\ smart_loc elf (Some kdir) d = Ok l) as (d & D1 & D2).
      { clear -Lo I. induction Lo; [contradiction|]. destruct I as [->|I]; [eexists; split; [now left|assumption]|]. destruct (IHLo I) as (d & X1 & X2). exists d. split; [now right|exact X2]. }
      exists answers, d, l, f, n. repeat (split; [assumption|]). intros t ->. assert (is_relative_to (path_join kres (Path [] t)) kres = true) by (apply is_relative_to_join; eauto). congruence.
    + apply (hunt_more _ _ _ _ g1) in H4.
      destruct (hunt_missing _ _ _ _ ND H4 M1 B2) as (Q1 & Q2).
      assert (Permutation (g1 ++ grep3 ++ grep2) (g1 ++ grep2 ++ grep3)) as PQ by (apply Permutation_app_head, Permutation_app_comm).
      split; [now apply (Permutation_NoDup PQ)|]. split.
      * intros i I. rewrite L3. apply B2. destruct H4 as (_ & F4 & P4 & _). eapply Permutation_in; [symmetry; exact P4|]. apply in_or_app. right.
        eapply Permutation_in; [symmetry; exact PQ|exact I].
      * intros i I. rewrite <- (Q2 i I). split; apply Permutation_in; [symmetry|]; exact PQ.
Qed.
