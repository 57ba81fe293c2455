(** Lemmas about breaking lines: the pieces that are not broken. *)
From Coq Require Import List Bool Ascii String ZArith Lia.
From Verif Require Import PyBase PyFacts M_Wrap S_Wrap.
Import ListNotations.
Open Scope Z_scope.
Open Scope list_scope.

Lemma letter_iff c : letter c = true <-> a_letter c.
Proof. unfold letter, a_letter. rewrite andb_true_iff, negb_true_iff. tauto. Qed.
Lemma word_punct_iff c : word_punct c = true <-> a_mark c.
Proof.
  unfold a_mark. split.
  - destruct c as [[] [] [] [] [] [] [] []]; vm_compute; intros H; try discriminate; auto 10.
  - intros [H|H]; [unfold word_punct; now rewrite H|]. revert H. destruct c as [[] [] [] [] [] [] [] []]; vm_compute; intuition congruence.
Qed.
Lemma is_ws_iff c : is_ws c = true <-> ascii_blank c.
Proof.
  unfold ascii_blank. split.
  - destruct c as [[] [] [] [] [] [] [] []]; vm_compute; intros H; try discriminate; auto 10.
  - intros H. revert H. destruct c as [[] [] [] [] [] [] [] []]; vm_compute; intuition congruence.
Qed.
Lemma ws_space c : is_ws c = true -> is_space c = true.
Proof. destruct c as [[] [] [] [] [] [] [] []]; vm_compute; congruence. Qed.
Lemma dash_iff c : dash c = true <-> c = "-"%char.
Proof. apply ascii_eqb_eq. Qed.
(** What a character is *)
Lemma dash_facts c : dash c = true -> letter c = false /\ is_word c = false /\ word_punct c = false /\ is_ws c = false.
Proof. intros H. apply dash_iff in H as ->. repeat split. Qed.
Lemma letter_facts c : letter c = true -> dash c = false /\ is_ws c = false.
Proof. destruct c as [[] [] [] [] [] [] [] []]; vm_compute; intuition congruence. Qed.
Lemma ws_facts c : is_ws c = true -> letter c = false /\ is_word c = false /\ word_punct c = false /\ dash c = false.
Proof. destruct c as [[] [] [] [] [] [] [] []]; vm_compute; intuition congruence. Qed.
Lemma word_facts c : is_word c = true -> dash c = false.
Proof. destruct c as [[] [] [] [] [] [] [] []]; vm_compute; congruence. Qed.
Lemma punct_facts c : word_punct c = true -> dash c = false /\ is_ws c = false.
Proof. destruct c as [[] [] [] [] [] [] [] []]; vm_compute; intuition congruence. Qed.

(** * Where words may be broken, computed; [b] is in reverse *)
Definition word_first (v : str) : bool := match v with c :: _ => is_word c | [] => false end.
Definition undash (b v : str) : bool := (2 <=? dashes b)%nat && after_punct (skipn (dashes b) b) && word_first v.
Definition cutb (b v : str) : bool :=
  match b with h :: b' => hyphen b' (h :: v) | [] => false end || (after_punct b && em_dash v) || undash b v.

Lemma dashes_split s : exists d r, s = d ++ r /\ Forall (fun c => c = "-"%char) d /\ List.length d = dashes s /\ skipn (dashes s) s = r /\ firstn (dashes s) s = d /\
  match r with c :: _ => dash c = false | [] => True end.
Proof.
  induction s as [|c s IH]; [exists [], []; repeat split; constructor|]. cbn [dashes]. destruct (dash c) eqn:D.
  - destruct IH as (d & r & E & F & L & K & G & N). exists (c :: d), r. cbn [app List.length skipn firstn]. rewrite E at 1. rewrite L, K, G. repeat split; auto.
    constructor; [now apply dash_iff|exact F].
  - exists [], (c :: s). cbn. repeat split; auto.
Qed.
Lemma dashes_run d r : Forall (fun c => c = "-"%char) d -> match r with c :: _ => dash c = false | [] => True end ->
  dashes (d ++ r) = List.length d /\ skipn (dashes (d ++ r)) (d ++ r) = r.
Proof.
  intros F N. assert (dashes (d ++ r) = List.length d) as E.
  { induction F as [|c d -> F IH]; cbn [app dashes List.length]; [destruct r as [|c r]; [reflexivity|cbn [dashes]; now rewrite N]|]. cbn. now rewrite IH. }
  split; [exact E|]. rewrite E, skipn_app, skipn_all, Nat.sub_diag. reflexivity.
Qed.
Lemma em_dash_iff v : em_dash v = true <-> exists d c y, v = d ++ c :: y /\ only_dashes d /\ is_word c = true.
Proof.
  unfold em_dash. split.
  - destruct (dashes_split v) as (d & r & E & F & L & K & _ & N). rewrite K. intros H. apply andb_prop in H as [H1 H2]. destruct r as [|c y]; [discriminate|].
    exists d, c, y. split; [exact E|]. split; [|exact H2]. split; [exact F|]. apply Nat.leb_le in H1. lia.
  - intros (d & c & y & -> & (F & L) & W). destruct (dashes_run d (c :: y) F (word_facts c W)) as [E1 E2]. rewrite E2, E1, W. apply andb_true_intro. split; [now apply Nat.leb_le|reflexivity].
Qed.
Lemma em_dash_first v : em_dash v = true -> exists v', v = "-"%char :: "-"%char :: v'.
Proof.
  intros H. apply em_dash_iff in H as (d & c & y & -> & (F & L) & _). destruct d as [|a [|b d]]; cbn in L; [lia|lia|]. inversion F as [|? ? A F']; subst. inversion F'; subst. cbn. eauto.
Qed.
Lemma undash_iff b v : undash b v = true <-> exists x p d c y, rev b = x ++ [p] ++ d /\ a_mark p /\ v = c :: y /\ only_dashes d /\ is_word c = true.
Proof.
  unfold undash. split.
  - destruct (dashes_split b) as (d & r & E & F & L & K & _ & N). rewrite K. intros H. apply andb_prop in H as [H W]. apply andb_prop in H as [H P].
    destruct r as [|p r]; [discriminate|]. destruct v as [|c y]; [discriminate|]. cbn in P, W. exists (rev r), p, (rev d), c, y. split.
    + rewrite E, rev_app_distr. cbn [rev]. now rewrite <- !app_assoc.
    + split; [now apply word_punct_iff|]. split; [reflexivity|]. split; [|exact W]. split; [now apply Forall_rev|]. rewrite rev_length. apply Nat.leb_le in H. lia.
  - intros (x & p & d & c & y & E & M & -> & (F & L) & W). assert (b = rev d ++ p :: rev x) as -> by (rewrite <- (rev_involutive b), E, !rev_app_distr; cbn; now rewrite <- app_assoc).
    apply word_punct_iff in M. destruct (dashes_run (rev d) (p :: rev x)) as [E1 E2]; [now apply Forall_rev|exact (proj1 (punct_facts p M))|].
    rewrite E2, E1, rev_length. cbn [after_punct word_first]. rewrite M, W. rewrite !andb_true_r. now apply Nat.leb_le.
Qed.
Lemma hyphen_iff b v : (exists b', b = "-"%char :: b' /\ hyphen b' b' = hyphen b' b' /\ hyphen b' ("-"%char :: v) = true) <->
  exists x a y, rev b = x ++ $"-" /\ ((exists b x', x = x' ++ [b; a] /\ a_letter b) \/ (exists b x', x = x' ++ [b; "-"%char; a] /\ a_letter b)) /\ a_letter a /\
    ((exists c d, v = c :: d :: y /\ a_letter c /\ a_letter d) \/ (exists c d, v = c :: "-"%char :: d :: y /\ a_letter c /\ a_letter d)).
Proof.
  split.
  - intros (b' & -> & _ & H). unfold hyphen in H. apply andb_prop in H as [H V]. apply andb_prop in H as [_ B].
    assert (exists a, a_letter a /\ ((exists b x', rev b' = x' ++ [b; a] /\ a_letter b) \/ (exists b x', rev b' = x' ++ [b; "-"%char; a] /\ a_letter b))) as (a & A & X).
    { apply orb_prop in B as [B|B].
      - destruct b' as [|a [|b b']]; try discriminate. apply andb_prop in B as [A B]. exists a. split; [now apply letter_iff|]. left. exists b, (rev b'). split; [cbn; now rewrite <- app_assoc|now apply letter_iff].
      - destruct b' as [|a [|d [|b b']]]; try discriminate. apply andb_prop in B as [B C]. apply andb_prop in B as [A D]. exists a. split; [now apply letter_iff|]. right. apply dash_iff in D as ->.
        exists b, (rev b'). split; [cbn; now rewrite <- !app_assoc|now apply letter_iff]. }
    assert (exists y, (exists c d, v = c :: d :: y /\ a_letter c /\ a_letter d) \/ (exists c d, v = c :: "-"%char :: d :: y /\ a_letter c /\ a_letter d)) as (y & Y).
    { destruct v as [|c [|d v]]; try discriminate. apply andb_prop in V as [C D]. apply orb_prop in D as [D|D].
      - exists v. left. exists c, d. split; [reflexivity|]. split; now apply letter_iff.
      - apply andb_prop in D as [D E]. destruct v as [|e v]; [discriminate|]. apply dash_iff in D as ->. exists v. right. exists c, e. split; [reflexivity|]. split; now apply letter_iff. }
    exists (rev b'), a, y. auto.
  - intros (x & a & y & E & X & A & Y). assert (b = "-"%char :: rev x) as -> by (rewrite <- (rev_involutive b), E, rev_app_distr; reflexivity).
    exists (rev x). split; [reflexivity|]. split; [reflexivity|]. apply letter_iff in A. unfold hyphen. change (dash "-") with true. cbn [andb]. apply andb_true_intro. split.
    + destruct X as [(b & x' & -> & B)|(b & x' & -> & B)]; apply letter_iff in B; rewrite rev_app_distr; cbn; rewrite A, B; [reflexivity|]. apply orb_true_r.
    + destruct Y as [(c & d & -> & C & D)|(c & d & -> & C & D)]; apply letter_iff in C, D; rewrite C, D; [reflexivity|]. cbn. apply orb_true_r.
Qed.
Lemma hyphen_dash b h v : hyphen b (h :: v) = true -> h = "-"%char.
Proof. unfold hyphen. intros H. apply andb_prop in H as [H _]. apply andb_prop in H as [H _]. now apply dash_iff. Qed.
Lemma hyphen_no_em b v : hyphen b v = true -> em_dash v = false.
Proof.
  intros K. destruct (em_dash v) eqn:M; [|reflexivity]. apply em_dash_first in M as (v' & ->). unfold hyphen in K. apply andb_prop in K as [_ K]. now destruct v'.
Qed.
Lemma cutb_iff u v : cutb (rev u) v = true <-> may_cut u v.
Proof.
  unfold cutb. rewrite !orb_true_iff. split.
  - intros [[H|H]|H].
    + destruct (rev u) as [|h b'] eqn:R; [discriminate|]. pose proof (hyphen_dash _ _ _ H) as ->.
      assert (exists b'', rev u = "-"%char :: b'' /\ hyphen b'' b'' = hyphen b'' b'' /\ hyphen b'' ("-"%char :: v) = true) as X by (exists b'; auto).
      apply hyphen_iff in X as (x & a & y & E & X & A & Y). rewrite rev_involutive in E. now apply (mc_hyphen u v x a y).
    + apply andb_prop in H as [P E]. apply em_dash_iff in E as (d & c & y & -> & D & W). unfold after_punct in P. destruct (rev u) as [|p b'] eqn:R; [discriminate|].
      apply (f_equal (@rev ascii)) in R. rewrite rev_involutive in R. cbn in R. apply (mc_dash u _ (rev b') p d c y); auto. now apply word_punct_iff.
    + apply undash_iff in H as (x & p & d & c & y & E & P & V & D & W). rewrite rev_involutive in E. now apply (mc_after u v x p d c y).
  - intros [x a y E X A Y|x p d c y E P V D W|x p d c y E P V D W].
    + left. left. rewrite <- (rev_involutive u) in E. assert (exists x a y, rev (rev u) = x ++ $"-" /\ ((exists b x', x = x' ++ [b; a] /\ a_letter b) \/ (exists b x', x = x' ++ [b; "-"%char; a] /\ a_letter b)) /\ a_letter a /\
        ((exists c d, v = c :: d :: y /\ a_letter c /\ a_letter d) \/ (exists c d, v = c :: "-"%char :: d :: y /\ a_letter c /\ a_letter d))) as Z by (exists x, a, y; auto).
      apply hyphen_iff in Z as (b' & -> & _ & Z). exact Z.
    + left. right. subst u. rewrite rev_app_distr. cbn [rev app after_punct]. apply word_punct_iff in P. rewrite P. apply em_dash_iff. exists d, c, y. auto.
    + right. apply undash_iff. exists x, p, d, c, y. rewrite rev_involutive. auto.
Qed.
Lemma cut_first b v : cutb b v = true -> exists c y, v = c :: y /\ is_ws c = false.
Proof.
  unfold cutb. rewrite !orb_true_iff. intros [[H|H]|H].
  - destruct b as [|h b]; [discriminate|]. unfold hyphen in H. apply andb_prop in H as [_ H]. destruct v as [|c [|d v]]; try discriminate. apply andb_prop in H as [H _]. exists c, (d :: v). split; [reflexivity|]. now apply letter_facts.
  - apply andb_prop in H as [_ H]. apply em_dash_first in H as (v' & ->). eexists _, _. split; reflexivity.
  - unfold undash in H. apply andb_prop in H as [_ H]. destruct v as [|c v]; [discriminate|]. exists c, v. split; [reflexivity|]. destruct (is_ws c) eqn:E; [|reflexivity]. destruct (ws_facts c E) as (_ & X & _). cbn in H. congruence.
Qed.
(** Before a dash: only a mark *)
Lemma cut_dash b v : cutb b ("-"%char :: v) = true -> after_punct b = true /\ em_dash ("-"%char :: v) = true.
Proof.
  unfold cutb. rewrite !orb_true_iff. intros [[H|H]|H].
  - destruct b as [|h b]; [discriminate|]. unfold hyphen in H. apply andb_prop in H as [_ H]. destruct v as [|d v]; discriminate.
  - now apply andb_prop in H.
  - unfold undash in H. apply andb_prop in H as [_ H]. discriminate.
Qed.

(** * Pieces *)
Inductive chopped (b : str) : list str -> Prop :=
| cp_nil : chopped b []
| cp_cons w cs : w <> [] -> (forallb is_ws w = true \/ forallb (fun c => negb (is_ws c)) w = true) ->
    (forall x y, w = x ++ y -> x <> [] -> y <> [] -> cutb (rev x ++ b) (y ++ List.concat cs) = false) ->
    (forall c y, List.concat cs = c :: y -> (exists x d, w = x ++ [d] /\ is_ws d <> is_ws c) \/ cutb (rev w ++ b) (c :: y) = true) ->
    chopped (rev w ++ b) cs -> chopped b (w :: cs).
(** A place where a piece starts *)
Definition starts_at (b s : str) : Prop :=
  match b, s with
  | d :: _, c :: _ => is_ws d <> is_ws c \/ cutb b s = true
  | _, _ => True
  end.

Lemma take_ws_spec s : let '(w, r) := take_ws s in s = w ++ r /\ forallb is_ws w = true /\ match r with c :: _ => is_ws c = false | [] => True end.
Proof.
  induction s as [|c s IH]; [now repeat split|]. cbn [take_ws]. destruct (is_ws c) eqn:W; [|now repeat split].
  destruct (take_ws s) as [w r]. destruct IH as (-> & F & N). cbn. rewrite W. now repeat split.
Qed.
(** Not within dashes after a mark *)
Definition outside_dashes (b v : str) : Prop := ~ (1 <= dashes b)%nat \/ after_punct (skipn (dashes b) b) = false \/ ~ (2 <= dashes b + dashes v)%nat \/ word_first (skipn (dashes v) v) = false.
Lemma outside_undash b v : outside_dashes b v -> undash b v = false.
Proof.
  intros H. unfold undash. destruct (Nat.leb_spec 2 (dashes b)); [|reflexivity]. destruct (after_punct (skipn (dashes b) b)) eqn:P; [|reflexivity]. destruct (word_first v) eqn:W; [|reflexivity].
  exfalso. destruct v as [|c v]; [discriminate|]. cbn in W. assert (dashes (c :: v) = O) as D by (cbn; now rewrite (word_facts c W)).
  destruct H as [H|[H|[H|H]]]; [lia|congruence|lia|]. rewrite D in H. cbn in H. congruence.
Qed.
Lemma outside_step b c v : outside_dashes b (c :: v) -> after_punct b && em_dash (c :: v) = false -> outside_dashes (c :: b) v.
Proof.
  unfold outside_dashes. intros H N. cbn [dashes] in *. destruct (dash c) eqn:D; [|left; cbn; lia]. cbn [skipn].
  destruct (dashes b) as [|k] eqn:K.
  - cbn [skipn]. unfold em_dash in N. cbn [dashes] in N. rewrite D in N. cbn [skipn] in N. destruct (after_punct b) eqn:P; [|now right; left]. cbn [andb] in N.
    destruct (Nat.leb_spec 2 (S (dashes v))); [|right; right; left; lia]. cbn [andb] in N. right. right. right. exact N.
  - cbn [skipn] in H. destruct H as [H|[H|[H|H]]]; [lia|now right; left|right; right; left; lia|now right; right; right].
Qed.
Lemma cutb_inner b c v : hyphen b (c :: v) = false -> after_punct (c :: b) && em_dash v = false -> outside_dashes (c :: b) v -> cutb (c :: b) v = false.
Proof. intros H E O. unfold cutb. rewrite H, E, (outside_undash _ _ O). reflexivity. Qed.
Lemma word_rest_spec rest : forall b, outside_dashes b rest -> let '(w, r) := word_rest b rest in
  rest = w ++ r /\ forallb (fun c => negb (is_ws c)) w = true /\
  (forall x y, w = x ++ y -> x <> [] -> y <> [] -> cutb (rev x ++ b) (y ++ r) = false) /\
  (w <> [] -> hyphen b rest = true \/ after_punct b && em_dash rest = false) /\
  match r with [] => True | c :: _ => is_ws c = true \/ cutb (rev w ++ b) r = true end /\
  (w = [] -> rest = [] \/ hyphen b rest = false).
Proof.
  induction rest as [|c rest IH]; intros b O; cbn [word_rest]; [repeat split; auto; intros [|] ? E; try discriminate; congruence|].
  destruct (hyphen b (c :: rest)) eqn:H.
  { split; [reflexivity|]. pose proof (hyphen_dash _ _ _ H) as ->. split; [reflexivity|]. split.
    - intros [|? [|]] [|] E X Y; try congruence; discriminate.
    - split; [auto|]. split; [|discriminate]. destruct rest as [|d rest]; [exact I|]. right. unfold cutb. cbn [rev app]. now rewrite H. }
  destruct (is_ws c) eqn:W; [repeat split; auto; intros [|] ? E; try discriminate; congruence|].
  destruct (after_punct b && em_dash (c :: rest)) eqn:E.
  { repeat split; auto; try (intros [|] ? E'; try discriminate; congruence). right. cbn [rev app]. unfold cutb. rewrite E. now rewrite orb_true_r. }
  pose proof (outside_step b c rest O E) as O'. specialize (IH (c :: b) O'). destruct (word_rest (c :: b) rest) as [w r]. destruct IH as (-> & F & N & K & R & Z).
  split; [reflexivity|]. split; [cbn; now rewrite W|]. split; [|split; [auto|split; [|discriminate]]].
  - intros x y E' X Y. destruct x as [|c' x]; [congruence|]. cbn in E'. injection E' as <- ->. destruct x as [|d x].
    + cbn [rev app]. apply cutb_inner; [exact H| |exact O']. destruct y as [|d y]; [congruence|]. destruct K as [K|K]; [discriminate| |exact K].
      cbn [app] in K |- *. rewrite (hyphen_no_em _ _ K). apply andb_false_r.
    + specialize (N (d :: x) y eq_refl). cbn [rev] in *. rewrite <- !app_assoc in *. cbn [app] in *. apply N; [discriminate|exact Y].
  - destruct r as [|d r]; [exact I|]. destruct R as [R|R]; [now left|right]. cbn [rev]. rewrite <- app_assoc. exact R.
Qed.
Lemma starts_outside b c rest : starts_at b (c :: rest) -> after_punct b && em_dash (c :: rest) = false -> outside_dashes (c :: b) rest.
Proof.
  intros S E. destruct (dash c) eqn:C; [|left; cbn; rewrite C; lia]. apply outside_step; [|exact E]. destruct b as [|d b]; [left; cbn; lia|].
  destruct (dash d) eqn:D; [|left; cbn; rewrite D; lia]. exfalso. apply dash_iff in D as ->. apply dash_iff in C as ->. cbn [starts_at] in S.
  destruct S as [S|S]; [now elim S|]. apply cut_dash in S as [S _]. discriminate.
Qed.
Lemma starts_hyphen b c rest : starts_at b (c :: rest) -> hyphen b (c :: rest) = false.
Proof.
  intros S. destruct (hyphen b (c :: rest)) eqn:H; [|reflexivity]. exfalso. pose proof (hyphen_dash _ _ _ H) as ->. destruct b as [|d b]; [discriminate|]. cbn [starts_at] in S.
  unfold hyphen in H. apply andb_prop in H as [H V]. apply andb_prop in H as [_ B].
  assert (letter d = true) as L by (apply orb_prop in B as [B|B]; [destruct b; [discriminate|]; now apply andb_prop in B|destruct b as [|? [|]]; try discriminate; apply andb_prop in B as [B _]; now apply andb_prop in B]).
  destruct S as [S|S]; [rewrite (proj2 (letter_facts d L)) in S; now elim S|]. apply cut_dash in S as [_ S]. apply em_dash_first in S as (v' & S). injection S as ->. now destruct v'.
Qed.
Lemma forallb_last {A} (f : A -> bool) x d : forallb f (x ++ [d]) = true -> f d = true.
Proof. rewrite forallb_app. cbn. rewrite andb_true_r. intros H. now apply andb_prop in H. Qed.

Lemma next_spec b c rest : starts_at b (c :: rest) -> let '(w, r) := next_chunk b c rest in
  c :: rest = w ++ r /\ w <> [] /\ (forallb is_ws w = true \/ forallb (fun c => negb (is_ws c)) w = true) /\
  (forall x y, w = x ++ y -> x <> [] -> y <> [] -> cutb (rev x ++ b) (y ++ r) = false) /\ 
  match r with [] => True | d :: _ => (exists x e, w = x ++ [e] /\ is_ws e <> is_ws d) \/ cutb (rev w ++ b) r = true end.
Proof.
  intros S. unfold next_chunk. destruct (is_ws c) eqn:W.
  { pose proof (take_ws_spec (c :: rest)) as T. destruct (take_ws (c :: rest)) as [w r] eqn:E. destruct T as (T & F & N). split; [exact T|].
    assert (w <> []) as Nw by (intros ->; cbn in T; subst r; congruence). split; [exact Nw|]. split; [now left|]. split.
    - intros x y -> X Y. destruct (cutb (rev x ++ b) (y ++ r)) eqn:C; [|reflexivity]. apply cut_first in C as (d & v & V & D). destruct y as [|e y]; [congruence|]. cbn in V. injection V as -> _.
      rewrite forallb_app in F. cbn in F. rewrite D in F. rewrite andb_false_r in F. discriminate.
    - destruct r as [|d r]; [exact I|]. left. destruct (exists_last Nw) as (x & e & ->). exists x, e. split; [reflexivity|]. rewrite (forallb_last _ _ _ F). congruence. }
  destruct (after_punct b && em_dash (c :: rest)) eqn:E.
  { apply andb_prop in E as [P E]. pose proof E as E'. apply em_dash_iff in E' as (d & e & y & V & (D & L) & We). destruct (dashes_run d (e :: y) D (word_facts e We)) as [R1 R2].
    rewrite <- V in R1, R2. rewrite R2. assert (firstn (dashes (c :: rest)) (c :: rest) = d) as -> by (rewrite R1, V, firstn_app, firstn_all, Nat.sub_diag; cbn; apply app_nil_r).
    split; [exact V|]. split; [intros ->; cbn in L; lia|]. split.
    { right. apply forallb_forall. intros z Z. rewrite Forall_forall in D. now rewrite (D z Z). }
    split.
    - intros x z -> X Z. apply Forall_app in D as [D1 D2]. destruct z as [|z0 z]; [congruence|]. assert (z0 = "-"%char) as -> by now inversion D2. cbn [app].
      destruct (cutb (rev x ++ b) ("-"%char :: z ++ e :: y)) eqn:C; [|reflexivity]. apply cut_dash in C as [C _]. destruct (exists_last X) as (x' & q & ->).
      apply Forall_app in D1 as [_ D1]. assert (q = "-"%char) as -> by now inversion D1. rewrite rev_app_distr in C. discriminate.
    - right. unfold cutb. assert (undash (rev d ++ b) (e :: y) = true) as ->; [|now rewrite orb_true_r]. unfold undash. destruct b as [|p b]; [discriminate|]. cbn [after_punct] in P.
      destruct (dashes_run (rev d) (p :: b)) as [Q1 Q2]; [now apply Forall_rev|exact (proj1 (punct_facts p P))|]. rewrite Q2, Q1, rev_length. cbn [after_punct word_first]. rewrite P, We, !andb_true_r. now apply Nat.leb_le. }
  pose proof (starts_outside b c rest S E) as O. pose proof (starts_hyphen b c rest S) as H. pose proof (word_rest_spec rest (c :: b) O) as T. destruct (word_rest (c :: b) rest) as [w r].
  destruct T as (-> & F & N & K & R & Z). split; [reflexivity|]. split; [discriminate|]. split; [right; cbn; now rewrite W|]. split.
  - intros x y E' X Y. destruct x as [|c' x]; [congruence|]. cbn in E'. injection E' as <- ->. destruct x as [|d x].
    + cbn [rev app]. apply cutb_inner; [exact H| |exact O]. destruct y as [|d y]; [congruence|]. destruct K as [K|K]; [discriminate| |exact K].
      cbn [app] in K |- *. rewrite (hyphen_no_em _ _ K). apply andb_false_r.
    + specialize (N (d :: x) y eq_refl). cbn [rev] in *. rewrite <- !app_assoc in *. cbn [app] in *. apply N; [discriminate|exact Y].
  - destruct r as [|d r]; [exact I|]. destruct R as [R|R].
    + left. assert (forallb (fun c => negb (is_ws c)) (c :: w) = true) as F' by (cbn; now rewrite W). destruct (@exists_last _ (c :: w)) as (x & e & Q); [discriminate|]. rewrite Q in F' |- *. exists x, e. split; [reflexivity|].
      apply forallb_last in F'. destruct (is_ws e); [discriminate|]. congruence.
    + right. cbn [rev]. rewrite <- app_assoc. exact R.
Qed.
Lemma chunks_chopped n : forall b s, (List.length s <= n)%nat -> starts_at b s -> chopped b (chunks_from n b s) /\ List.concat (chunks_from n b s) = s.
Proof.
  induction n as [|n IH]; intros b s L S.
  - destruct s; [|cbn in L; lia]. split; [constructor|reflexivity].
  - destruct s as [|c rest]; [split; [constructor|reflexivity]|]. cbn [chunks_from]. pose proof (next_spec b c rest S) as T. destruct (next_chunk b c rest) as [w r].
    destruct T as (E & Nw & U & N & R). destruct (IH (rev w ++ b) r) as [C1 C2].
    + apply (f_equal (@List.length ascii)) in E. rewrite app_length in E. cbn in E, L. destruct w; [congruence|]. cbn in E. lia.
    + destruct r as [|d r]; [now destruct (rev w ++ b)|]. destruct (exists_last Nw) as (x & e & Q). rewrite Q, rev_app_distr. cbn [rev app starts_at]. destruct R as [(x' & e' & Q' & R)|R].
      * left. rewrite Q in Q'. apply app_inj_tail in Q' as [_ <-]. exact R.
      * right. rewrite Q, rev_app_distr in R. exact R.
    + split; [|cbn [List.concat]; rewrite C2; now symmetry]. constructor; [exact Nw|exact U| | |exact C1]; rewrite C2.
      * exact N.
      * intros d y ->. exact R.
Qed.
Lemma chunks_ok s : chopped [] (chunks s) /\ List.concat (chunks s) = s.
Proof. apply chunks_chopped; [lia|]. now destruct s. Qed.
