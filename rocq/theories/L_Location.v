(** Lemmas for the properties of location.py: lines, line adjustment, definitions. *)
From Coq Require Import List Bool Ascii String ZArith Lia.
From Verif Require Import PyBase PyFacts Regex RegexFacts RegexDen M_Utils M_Elf M_Syscall M_Arch M_Location
  S_Elf S_Signature S_Location L_Utils.
Import ListNotations.
Open Scope Z_scope.
Open Scope list_scope.

(** * Lines *)

Lemma lines_keep_line l r : ~ In NL l -> lines_keep (l ++ NL :: r) = (l ++ [NL]) :: lines_keep r.
Proof.
  induction l as [|c l IH]; intros N; cbn [app lines_keep].
  - rewrite Ascii.eqb_refl. reflexivity.
  - destruct (Ascii.eqb_spec c NL) as [->|_]; [exfalso; apply N; now left|]. rewrite IH by (intros X; apply N; now right). reflexivity.
Qed.
Lemma lines_keep_rest l : l <> [] -> ~ In NL l -> lines_keep l = [l].
Proof.
  induction l as [|c l IH]; intros H N; [congruence|]. cbn [lines_keep].
  destruct (Ascii.eqb_spec c NL) as [->|_]; [exfalso; apply N; now left|]. destruct l as [|d l]; [reflexivity|].
  rewrite IH; [reflexivity|discriminate|]. intros X. apply N. now right.
Qed.
Lemma lines_keep_full ls r : Forall full_line ls -> lines_keep (List.concat ls ++ r) = ls ++ lines_keep r.
Proof.
  induction 1 as [|l ls (x & -> & N) F IH]; [reflexivity|]. cbn [List.concat app]. rewrite <- !app_assoc. cbn [app]. now rewrite lines_keep_line, IH.
Qed.
Lemma lines_of_keep content ls : lines_of content ls -> lines_keep content = ls.
Proof.
  intros (-> & [F|(init & l & -> & F & H1 & H2)]).
  - rewrite <- (app_nil_r (List.concat ls)), lines_keep_full by exact F. cbn. apply app_nil_r.
  - rewrite List.concat_app. cbn [List.concat]. rewrite app_nil_r, lines_keep_full by exact F. now rewrite lines_keep_rest.
Qed.
Lemma lines_of_ex content : lines_of content (lines_keep content).
Proof.
  induction content as [|c s (E & H)]; [split; [reflexivity|left; constructor]|]. cbn [lines_keep].
  destruct (Ascii.eqb_spec c NL) as [->|N].
  - split; [cbn; now rewrite <- E|]. assert (full_line [NL]) as X by (exists []; split; [reflexivity|intros []]).
    destruct H as [H|(init & l & H1 & H2 & H3)]; [left; now constructor|right]. exists ([NL] :: init), l. rewrite H1. split; [reflexivity|]. split; [now constructor|exact H3].
  - destruct (lines_keep s) as [|l ls] eqn:K.
    + cbn in E. subst s. split; [reflexivity|]. right. exists [], [c]. split; [reflexivity|]. split; [constructor|]. split; [discriminate|].
      intros [X|[]]. now apply N.
    + split; [cbn in *; now rewrite E|]. destruct H as [H|(init & l' & H1 & H2 & H3)].
      * left. inversion H as [|? ? (x & -> & X) F]; subst. constructor; [|exact F]. exists (c :: x). split; [reflexivity|].
        intros [Y|Y]; [now apply N|now apply X].
      * right. destruct init as [|l0 init].
        -- cbn in H1. injection H1 as -> ->. exists [], (c :: l'). split; [reflexivity|]. split; [constructor|]. destruct H3 as [H3 H4].
           split; [discriminate|]. intros [Y|Y]; [now apply N|now apply H4].
        -- cbn in H1. injection H1 as -> ->. exists ((c :: l0) :: init), l'. split; [reflexivity|]. split; [|exact H3].
           inversion H2 as [|? ? (x & -> & X) F]; subst. constructor; [|exact F]. exists (c :: x). split; [reflexivity|].
           intros [Y|Y]; [now apply N|now apply X].
Qed.

(** * Line adjustment *)

Lemma lone_iff c l : is_bspace c = false -> (str_eqb (brstrip l) [c] = true <-> lone c l).
Proof.
  intros C. rewrite str_eqb_eq. unfold brstrip, rstrip_by. destruct (dropwhile_spec is_bspace (rev l)) as (p & E1 & E2 & E3).
  split.
  - intros H. apply (f_equal (@rev ascii)) in H. rewrite rev_involutive in H. cbn in H. rewrite H in E1.
    apply (f_equal (@rev ascii)) in E1. rewrite rev_involutive, rev_app_distr in E1. cbn in E1. exists (rev p). split; [exact E1|].
    unfold bblanks. rewrite forallb_forall in *. intros x Hx. apply E2. now apply in_rev.
  - intros (t & -> & B). cbn [rev]. assert (dropwhile is_bspace (rev t ++ [c]) = [c]) as ->.
    { unfold bblanks in B. assert (forallb is_bspace (rev t) = true) as B' by (rewrite forallb_forall in *; intros x Hx; apply B; now apply in_rev).
      clear -B' C. induction (rev t) as [|d u IH]; cbn; [now rewrite C|]. cbn in B'. apply andb_true_iff in B' as [-> B']. auto. }
    reflexivity.
Qed.
Lemma nth_line_is P ls i l : nth_error ls i = Some l -> (line_is P ls (Z.of_nat i) <-> P l).
Proof.
  intros E. unfold line_is. rewrite Nat2Z.id. split.
  - intros (_ & l' & E' & H). congruence.
  - intros H. split; [lia|eauto].
Qed.
Lemma line_is_out P ls i : line_is P ls i -> 0 <= i < len ls.
Proof. intros (H & l & E & _). apply nth_error_Some_bound in E || idtac. assert (nth_error ls (Z.to_nat i) <> None) as X by congruence. apply nth_error_Some in X. unfold len. lia. Qed.

Lemma starts_iff l : starts_def l <-> match l with [] => True | c :: _ => is_bspace c || Ascii.eqb c "#"%char = false end.
Proof.
  destruct l as [|c l]; [reflexivity|]. cbn. rewrite orb_false_iff. destruct (Ascii.eqb_spec c "#"%char); intuition congruence.
Qed.
Lemma signature_line_spec ls k : (k <= List.length ls)%nat ->
  match signature_line ls k with
  | Some r => exists j, r = j + 1 /\ j < Z.of_nat k /\ line_is starts_def ls j /\ forall m, j < m < Z.of_nat k -> ~ line_is starts_def ls m
  | None => forall m, m < Z.of_nat k -> ~ line_is starts_def ls m
  end.
Proof.
  induction k as [|j IH]; intros L; cbn [signature_line].
  - intros m M (X & _). lia.
  - destruct (nth_error ls j) as [l|] eqn:E; [|apply nth_error_None in E; lia]. rewrite (nth_error_nth ls j [] E).
    assert (starts_def l -> exists j0, Z.of_nat j + 1 = j0 + 1 /\ j0 < Z.of_nat (S j) /\ line_is starts_def ls j0 /\
      (forall m, j0 < m < Z.of_nat (S j) -> ~ line_is starts_def ls m)) as G.
    { intros D. exists (Z.of_nat j). split; [reflexivity|]. split; [lia|]. split; [now apply (nth_line_is starts_def ls j l E)|]. intros m M. lia. }
    pose proof (starts_iff l) as SI. destruct l as [|c l]; [apply G; exact I|].
    destruct (is_bspace c || Ascii.eqb c "#"%char) eqn:X; [|apply G; now apply SI].
    assert (~ line_is starts_def ls (Z.of_nat j)) as ND.
    { rewrite (nth_line_is starts_def ls j _ E), SI. discriminate. }
    specialize (IH ltac:(lia)). destruct (signature_line ls j) as [r|].
    + destruct IH as (j0 & -> & H1 & H2 & H3). exists j0. split; [reflexivity|]. split; [lia|]. split; [exact H2|].
      intros m M. destruct (Z.eq_dec m (Z.of_nat j)) as [->|]; [exact ND|]. apply H3. lia.
    + intros m M. destruct (Z.eq_dec m (Z.of_nat j)) as [->|]; [exact ND|]. apply IH. lia.
Qed.

(** Every position between [k] and [line_0] is neither "{" nor (below line_0) "}". *)
Definition clear_from (ls : list str) (k : nat) (line_0 : Z) : Prop :=
  (forall j, Z.of_nat k <= j <= line_0 -> ~ line_is (lone "{"%char) ls j) /\
  (forall j, Z.of_nat k <= j < line_0 -> ~ line_is (lone "}"%char) ls j).
Lemma go_up_spec ls line_0 k : (k <= List.length ls)%nat -> Z.of_nat k <= line_0 + 1 -> clear_from ls k line_0 ->
  exists r, go_up ls line_0 k = Ok r /\ adjusted ls (line_0 + 1) (match r with Some x => x | None => line_0 + 1 end).
Proof.
  induction k as [|i IH]; intros L K C; cbn [go_up].
  - exists None. split; [reflexivity|]. apply adj_same. intros i (H1 & H2 & _). replace (line_0 + 1 - 1) with line_0 in H1 by lia.
    destruct C as [C _]. apply (C i); [|exact H2]. destruct H2 as [H2 _]. lia.
  - change bytes with str. destruct (nth_error ls i) as [l|] eqn:E; [|apply nth_error_None in E; lia].
    pose proof (lone_iff "}"%char l eq_refl) as LC. pose proof (lone_iff "{"%char l eq_refl) as LO.
    change $"}" with ["}"%char]. change $"{" with ["{"%char].
    destruct ((Z.of_nat i <? line_0) && str_eqb (brstrip l) ["}"%char]) eqn:X1.
    + apply andb_true_iff in X1 as [X1 X2]. apply Z.ltb_lt in X1. apply LC in X2. exists None. split; [reflexivity|]. apply adj_same.
      intros i' (H1 & H2 & H3 & H4). replace (line_0 + 1 - 1) with line_0 in * by lia.
      destruct (Z.lt_trichotomy i' (Z.of_nat i)) as [Y|[->|Y]].
      * apply (H4 (Z.of_nat i)); [lia|]. now apply (nth_line_is _ ls i l E).
      * apply (nth_line_is (lone "{"%char) ls i l E) in H2. destruct H2 as (t1 & H2 & _), X2 as (t2 & X2 & _). rewrite X2 in H2. discriminate.
      * apply (proj1 C i'); [lia|exact H2].
    + destruct (str_eqb (brstrip l) ["{"%char]) eqn:X2.
      * apply (fun H => proj1 H eq_refl) in LO. clear X2. rename LO into X2. pose proof (signature_line_spec ls i (Nat.le_trans _ _ _ (Nat.le_succ_diag_r i) L)) as S.
        assert (opens ls (line_0 + 1 - 1) (Z.of_nat i)) as O.
        { replace (line_0 + 1 - 1) with line_0 by lia. split; [lia|]. split; [now apply (nth_line_is _ ls i l E)|]. split; intros j J; [apply (proj1 C)|apply (proj2 C)]; lia. }
        destruct (signature_line ls i) as [r|].
        -- destruct S as (j & -> & S1 & S2 & S3). exists (Some (j + 1)). split; [reflexivity|]. now apply (adj_definition _ _ (Z.of_nat i)).
        -- exists (Some (Z.of_nat i + 1)). split; [reflexivity|]. now apply adj_brace.
      * apply IH; [lia|lia|]. split; intros j J.
        -- destruct (Z.eq_dec j (Z.of_nat i)) as [->|]; [|apply (proj1 C); lia]. rewrite (nth_line_is _ ls i l E), <- LO. congruence.
        -- destruct (Z.eq_dec j (Z.of_nat i)) as [->|]; [|apply (proj2 C); lia]. rewrite (nth_line_is _ ls i l E), <- LC.
           destruct (Z.ltb_spec (Z.of_nat i) line_0); [|lia]. cbn [andb] in X1. congruence.
Qed.
Lemma opens_fun ls k i j : opens ls k i -> opens ls k j -> i = j.
Proof.
  intros (A1 & A2 & A3 & _) (B1 & B2 & B3 & _). destruct (Z.lt_trichotomy i j) as [X|[X|X]]; [|exact X|].
  - exfalso. apply (A3 j); [lia|exact B2].
  - exfalso. apply (B3 i); [lia|exact A2].
Qed.
Lemma adjusted_fun ls line a b : adjusted ls line a -> adjusted ls line b -> a = b.
Proof.
  intros A B. destruct A as [i j O L S M|i O M|N]; destruct B as [i' j' O' L' S' M'|i' O' M'|N'];
    try (now elim (N _ O')); try (now elim (N' _ O)); try reflexivity; pose proof (opens_fun _ _ _ _ O O') as <-.
  - f_equal. destruct (Z.lt_trichotomy j j') as [X|[X|X]]; [|exact X|].
    + exfalso. apply (M j'); [lia|exact S'].
    + exfalso. apply (M' j); [lia|exact S].
  - exfalso. now apply (M' j).
  - exfalso. now apply (M j').
  - reflexivity.
Qed.

Lemma adjust_line_spec w f content ls line : w_file w f = Some content -> lines_of content ls ->
  line <= len ls -> forall r, adjust_line w f line = Ok r <-> adjusted ls line r.
Proof.
  intros F Ls B r. apply lines_of_keep in Ls. unfold adjust_line. rewrite F, Ls.
  assert (exists x, go_up ls (line - 1) (Z.to_nat line) = Ok x /\ adjusted ls line (match x with Some y => y | None => line end)) as (x & E & A).
  { pose proof (go_up_spec ls (line - 1) (Z.to_nat line)) as G. replace (line - 1 + 1) with line in G by lia.
    destruct (Z.le_gt_cases line 0) as [N|P].
    - replace (Z.to_nat line) with O by lia. exists None. split; [reflexivity|]. apply adj_same. intros i (H1 & (H2 & _) & _). lia.
    - apply G; [unfold len in B; lia|lia|]. split; intros j J; lia. }
  rewrite E. cbn [bind]. split.
  - intros H. injection H as <-. exact A.
  - intros H. f_equal. now apply (adjusted_fun ls line).
Qed.
Lemma adjust_line_exit w f line c : adjust_line w f line = Exit c <->
  c = 1 /\ (w_file w f = None \/ exists content ls, w_file w f = Some content /\ lines_of content ls /\ len ls < line).
Proof.
  destruct (w_file w f) as [content|] eqn:F.
  - destruct (Z.lt_ge_cases (len (lines_keep content)) line) as [H|H].
    + unfold adjust_line. rewrite F. assert (go_up (lines_keep content) (line - 1) (Z.to_nat line) = Exit 1) as ->.
      { pose proof (len_nonneg (lines_keep content)). destruct (Z.to_nat line) as [|i] eqn:E; [lia|]. cbn [go_up]. change bytes with str.
        assert (nth_error (lines_keep content) i = None) as -> by (apply nth_error_None; unfold len in H; lia). reflexivity. }
      cbn [bind]. split.
      * intros X. injection X as <-. split; [reflexivity|]. right. exists content, (lines_keep content). split; [reflexivity|]. split; [apply lines_of_ex|exact H].
      * intros [-> _]. reflexivity.
    + split.
      * intros X. exfalso. pose proof (adjust_line_spec w f content _ line F (lines_of_ex content) H) as S.
        unfold adjust_line in *. rewrite F in *. 
        destruct (go_up_spec (lines_keep content) (line - 1) (Z.to_nat line)) as (r & G & _).
        -- unfold len in H. lia.
        -- destruct (Z.le_gt_cases line 0) as [N|P]; [|lia]. 
           replace (Z.to_nat line) with O in X by lia. cbn in X. discriminate.
        -- split; intros j J; destruct (Z.le_gt_cases line 0) as [N|P]; try lia; intros (Y & _); lia.
        -- rewrite G in X. discriminate.
      * intros (_ & [X|(c' & ls & X & Ls & Y)]); [discriminate|]. injection X as <-. apply lines_of_keep in Ls. rewrite Ls in H. lia.
  - unfold adjust_line. rewrite F. split; [intros X; injection X as <-; auto|intros [-> _]; reflexivity].
Qed.
Lemma adjust_line_raise w f line e : adjust_line w f line <> Raise e /\ adjust_line w f line <> Diverge.
Proof.
  unfold adjust_line. destruct (w_file w f) as [content|]; [|split; discriminate].
  assert (forall ls l0 k, go_up ls l0 k <> Raise e /\ go_up ls l0 k <> Diverge) as G.
  { intros ls l0. induction k as [|i IH]; cbn [go_up]; [split; discriminate|]. destruct (nth_error ls i); [|split; discriminate].
    destruct (_ && _); [split; discriminate|]. destruct (str_eqb _ _); [|exact IH]. destruct (signature_line ls i); split; discriminate. }
  destruct (G (lines_keep content) (line - 1) (Z.to_nat line)) as [G1 G2]. destruct (go_up _ _ _); cbn [bind]; split; congruence.
Qed.
Lemma adjusted_le ls line r : adjusted ls line r -> r <= line.
Proof. intros [i j (O & _) L _ _|i (O & _) _|_]; lia. Qed.
Lemma adjust_line_le w f line r : adjust_line w f line = Ok r -> r <= line.
Proof.
  intros H. destruct (w_file w f) as [content|] eqn:F.
  - destruct (Z.lt_ge_cases (len (lines_keep content)) line) as [X|X].
    + assert (adjust_line w f line = Exit 1) as E.
      { apply adjust_line_exit. split; [reflexivity|]. right. exists content, (lines_keep content). split; [exact F|]. split; [apply lines_of_ex|exact X]. }
      congruence.
    + apply (adjusted_le (lines_keep content)). now apply (proj1 (adjust_line_spec w f content _ line F (lines_of_ex content) X r)).
  - unfold adjust_line in H. rewrite F in H. discriminate.
Qed.
Lemma adjust_line_bound w f line r : adjust_line w f line = Ok r ->
  exists content, w_file w f = Some content /\ line <= len (lines_keep content).
Proof.
  intros H. destruct (w_file w f) as [content|] eqn:F.
  - exists content. split; [reflexivity|]. destruct (Z.lt_ge_cases (len (lines_keep content)) line) as [X|X]; [|exact X]. exfalso.
    assert (adjust_line w f line = Exit 1) as E.
    { apply adjust_line_exit. split; [reflexivity|]. right. exists content, (lines_keep content). split; [exact F|]. split; [apply lines_of_ex|exact X]. }
    congruence.
  - unfold adjust_line in H. rewrite F in H. discriminate.
Qed.
