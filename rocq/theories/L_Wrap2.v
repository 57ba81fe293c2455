(** Lemmas about breaking lines: the lines. *)
From Coq Require Import List Bool Ascii String ZArith Lia.
From Verif Require Import PyBase PyFacts M_Wrap S_Wrap L_Wrap.
Import ListNotations.
Open Scope Z_scope.
Open Scope list_scope.

Lemma dropwhile_nil {A} (f : A -> bool) l : dropwhile f l = [] <-> forallb f l = true.
Proof. induction l as [|x l IH]; cbn; [tauto|]. destruct (f x); cbn; [exact IH|]. split; discriminate. Qed.
Lemma blank_iff s : blank_chunk s = true <-> all_blank s.
Proof.
  unfold blank_chunk, all_blank, strip, strip_by. rewrite str_eqb_eq. unfold lstrip_by, rstrip_by. split.
  - intros H. apply (f_equal (@rev ascii)) in H. rewrite rev_involutive in H. cbn in H. apply dropwhile_nil in H.
    destruct (forallb is_space s) eqn:F; [reflexivity|]. exfalso.
    assert (dropwhile is_space s <> []) as N by (intros D; apply dropwhile_nil in D; congruence).
    assert (forall c t, dropwhile is_space s = c :: t -> is_space c = false) as K.
    { clear. induction s as [|x s IH]; cbn; [discriminate|]. destruct (is_space x) eqn:X; [exact IH|]. intros c t [= <- _]. exact X. }
    destruct (dropwhile is_space s) as [|c t]; [congruence|]. specialize (K c t eq_refl). rewrite forallb_forall in H. rewrite (H c) in K; [discriminate|]. apply in_rev. rewrite rev_involutive. now left.
  - intros H. assert (dropwhile is_space s = []) as -> by now apply dropwhile_nil. reflexivity.
Qed.
Lemma blank_app x y : all_blank (x ++ y) <-> all_blank x /\ all_blank y.
Proof. unfold all_blank. rewrite forallb_app. now rewrite andb_true_iff. Qed.

(** * One line *)
Lemma fill_spec cs : forall n, let '(l, r) := fill_line n cs in
  cs = l ++ r /\ (l <> [] -> n + len (List.concat l) <= width) /\ match r with c :: _ => width < n + len (List.concat l) + len c | [] => True end.
Proof.
  induction cs as [|c cs IH]; intros n; cbn [fill_line]; [split; [reflexivity|]; split; [congruence|exact I]|].
  destruct (Z.leb_spec (n + len c) width) as [H|H].
  - specialize (IH (n + len c)). destruct (fill_line (n + len c) cs) as [l r]. destruct IH as (-> & L & R). split; [reflexivity|]. cbn [List.concat]. unfold len in *. rewrite app_length. split.
    + intros _. destruct l as [|d l]; [cbn; lia|]. specialize (L ltac:(discriminate)). lia.
    + destruct r; [exact I|]. lia.
  - split; [reflexivity|]. split; [congruence|]. cbn. unfold len in *. lia.
Qed.
(** The pieces of a line: those kept, a blank one that is dropped, and the others; and why it ends. *)
Lemma line_spec started cs line rest : cs <> [] -> one_line started cs = (line, rest) ->
  exists g d, cs = g ++ line ++ d ++ rest /\ (List.length rest < List.length cs)%nat /\
    (g = [] \/ exists c, g = [c] /\ all_blank c /\ started = true) /\ (d = [] \/ exists c, d = [c] /\ all_blank c) /\
    (started = true -> g = [] -> forall c y, cs = c :: y -> ~ all_blank c) /\
    (forall x c, line = x ++ [c] -> d = [] -> ~ all_blank c) /\
    (line <> [] -> (len (List.concat line) <= width /\ match rest with c :: _ => width < len (List.concat line) + len (List.concat d) + len c | [] => True end) \/
                   exists c, line = [c] /\ d = [] /\ width < len c).
Proof.
  intros N H. unfold one_line in H.
  set (cs' := match cs with c :: cs' => if blank_chunk c && started then cs' else cs | [] => [] end) in H.
  assert (exists g, cs = g ++ cs' /\ (g = [] \/ exists c, g = [c] /\ all_blank c /\ started = true) /\ (started = true -> g = [] -> forall c y, cs = c :: y -> ~ all_blank c)) as (g & G1 & G2 & G3).
  { unfold cs'. destruct cs as [|c cs]; [congruence|]. destruct (blank_chunk c && started) eqn:B.
    - apply andb_prop in B as [B S]. exists [c]. split; [reflexivity|]. split; [right; exists c; split; [reflexivity|]; split; [now apply blank_iff|exact S]|discriminate].
    - exists []. split; [reflexivity|]. split; [now left|]. intros -> _ c' y [= <- _] X. apply blank_iff in X. rewrite X in B. discriminate. }
  clearbody cs'. destruct (fill_line 0 cs') as [l r] eqn:F. pose proof (fill_spec cs' 0) as T. rewrite F in T. destruct T as (E & L & R).
  destruct (long_word l r) as [l' r'] eqn:W.
  assert (cs' = l' ++ r' /\ (cs' <> [] -> l' <> []) /\ (l' <> [] -> (len (List.concat l') <= width /\ match r' with c :: _ => width < len (List.concat l') + len c | [] => True end) \/ exists c, l' = [c] /\ width < len c)) as (E' & NE & D).
  { unfold long_word in W. destruct r as [|c r].
    - injection W as <- <-. split; [exact E|]. split; [intros X Y; subst l; cbn in E; congruence|]. intros X. left. split; [specialize (L X); lia|exact I].
    - destruct ((width <? len c) && match l with [] => true | _ => false end) eqn:B.
      + injection W as <- <-. apply andb_prop in B as [B1 B2]. destruct l; [|discriminate]. apply Z.ltb_lt in B1. split; [exact E|]. split; [discriminate|]. intros _. right. eauto.
      + injection W as <- <-. split; [exact E|]. split.
        * intros _ ->. cbv beta iota in R. assert (len (List.concat (@nil str)) = 0) as Z0 by reflexivity. rewrite andb_true_r in B. apply Z.ltb_ge in B. lia.
        * intros X. left. cbv beta iota in R. split; [specialize (L X); lia|lia]. }
  injection H as <- <-. unfold drop_last_blank. destruct (rev l') as [|c x] eqn:V.
  { apply (f_equal (@rev str)) in V. rewrite rev_involutive in V. cbn in V. subst l'. cbn in E'. subst r'.
    assert (cs' = []) as -> by (destruct cs'; [reflexivity|exfalso; now apply NE]).
    exists g, []. cbn [app]. split; [exact G1|]. split; [|split; [exact G2|split; [now left|split; [exact G3|split]]]].
    + rewrite G1, app_nil_r. destruct g; [rewrite G1 in N; now elim N|cbn; lia].
    + intros x' c' X. destruct x'; discriminate.
    + intros X. now elim X.
  }
  apply (f_equal (@rev str)) in V. rewrite rev_involutive in V. cbn in V.
  assert (l' <> []) as Nl by (rewrite V; now destruct (rev x)). specialize (D Nl).
  assert (List.length r' < List.length cs)%nat as Len by (rewrite G1, E', !app_length; destruct l'; [congruence|cbn; lia]).
  destruct (blank_chunk c) eqn:B.
  - exists g, [c]. split; [rewrite G1, E', V, <- !app_assoc; reflexivity|]. split; [exact Len|]. split; [exact G2|]. split; [right; exists c; split; [reflexivity|now apply blank_iff]|].
    split; [exact G3|]. split; [discriminate|]. intros Nx. destruct D as [[D1 D2]|(c' & D1 & D2)].
    + left. rewrite V, concat_app in D1, D2. cbn [List.concat] in *. rewrite app_nil_r in *. unfold len in *. rewrite app_length in D1, D2. split; [lia|]. destruct r'; [exact I|]. lia.
    + exfalso. rewrite V in D1. destruct (rev x) as [|y z]; [now elim Nx|]. destruct z; discriminate.
  - exists g, []. split; [rewrite G1, E'; reflexivity|]. split; [exact Len|]. split; [exact G2|]. split; [now left|]. split; [exact G3|]. split.
    + intros x' c' X _ Y. rewrite V in X. apply app_inj_tail in X as [_ <-]. apply blank_iff in Y. congruence.
    + intros _. destruct D as [[D1 D2]|(c' & D1 & D2)]; [left|right; now exists c']. split; [exact D1|]. cbn. unfold len in *. cbn. destruct r'; [exact I|]. lia.
Qed.

(** * All the lines *)
Lemma chopped_skip l1 : forall b l2, chopped b (l1 ++ l2) -> chopped (rev (List.concat l1) ++ b) l2.
Proof.
  induction l1 as [|w l1 IH]; intros b l2 H; [exact H|]. cbn [app] in H. inversion H as [|? ? _ _ _ _ C]; subst. apply IH in C. cbn [List.concat]. now rewrite rev_app_distr, <- app_assoc.
Qed.
Lemma chopped_ne l1 : forall b l2 w, chopped b (l1 ++ l2) -> In w l1 -> w <> [].
Proof.
  induction l1 as [|v l1 IH]; intros b l2 w H I; [destruct I|]. cbn [app] in H. inversion H as [|? ? N _ _ _ C]; subst. destruct I as [<-|I]; [exact N|]. now apply (IH _ _ _ C).
Qed.
Lemma ws_blank w : forallb is_ws w = true -> all_blank w.
Proof. unfold all_blank. rewrite !forallb_forall. intros H c C. now apply ws_space, H. Qed.
Lemma prefix_cases (x y d c r : str) : d ++ c ++ r = x ++ y -> (List.length d + List.length c <= List.length x)%nat \/ (exists z, d = x ++ z) \/ exists x' y', x = d ++ x' /\ c = x' ++ y' /\ y' <> [] /\ y = y' ++ r.
Proof.
  revert x. induction d as [|a d IH]; intros x E.
  - cbn [app List.length] in *. revert x E. induction c as [|a c IH]; intros x E; [left; cbn; lia|]. destruct x as [|b x].
    + right. right. exists [], (a :: c). cbn in E. subst y. repeat split. discriminate.
    + cbn in E. injection E as -> E. destruct (IH x E) as [L|[(z & Z)|(x' & y' & -> & -> & N & ->)]].
      * left. cbn. lia.
      * destruct x; [|discriminate]. destruct c as [|e c]; [left; cbn; lia|]. right. right. cbn in E. exists [b], (e :: c). subst y. repeat split. discriminate.
      * right. right. exists (b :: x'), y'. repeat split. exact N.
  - destruct x as [|b x]; [right; left; now exists (a :: d)|]. cbn in E. injection E as -> E. destruct (IH x E) as [L|[(z & ->)|(x' & y' & -> & -> & N & ->)]].
    + left. cbn. lia.
    + right. left. now exists z.
    + right. right. exists x', y'. repeat split. exact N.
Qed.
Lemma wrap_laid n : forall started cs u g, (List.length cs <= n)%nat -> chopped (rev (u ++ g)) cs -> all_blank g ->
  (started = false /\ u = []) \/ (started = true /\ (g <> [] \/ cs = [] \/ (exists c cs', cs = c :: cs' /\ forallb is_ws c = true) \/ cutb (rev u) (List.concat cs) = true)) ->
  laid_out u (g ++ List.concat cs) (wrap_chunks n started cs).
Proof.
  induction n as [|n IH]; intros started cs u g L C B K.
  { destruct cs; [|cbn in L; lia]. cbn. rewrite app_nil_r. now constructor. }
  destruct cs as [|c0 cs0]; [cbn; rewrite app_nil_r; now constructor|]. cbn [wrap_chunks]. set (cs := c0 :: cs0) in *.
  destruct (one_line started cs) as [line rest] eqn:O. destruct (line_spec started cs line rest ltac:(discriminate) O) as (g' & d & E & Len & G & D & F & La & W). clear O.
  assert (all_blank (List.concat g')) as Bg by (destruct G as [->|(c & -> & X & _)]; [reflexivity|cbn; now rewrite app_nil_r]).
  assert (all_blank (List.concat d)) as Bd by (destruct D as [->|(c & -> & X)]; [reflexivity|cbn; now rewrite app_nil_r]).
  assert (g' <> [] -> List.concat g' <> []) as Ng.
  { intros X. destruct G as [->|(c & -> & _)]; [congruence|]. rewrite E in C. assert (c <> []) as Y by (apply (chopped_ne [c] _ _ c C); now left). cbn. now rewrite app_nil_r. }
  assert (chopped (rev (u ++ (g ++ List.concat g'))) (line ++ d ++ rest)) as C1.
  { rewrite E in C. apply chopped_skip in C. now rewrite app_assoc, rev_app_distr. }
  destruct line as [|l0 line0] eqn:El.
  - assert (g ++ List.concat cs = (g ++ List.concat g' ++ List.concat d) ++ List.concat rest) as -> by (rewrite E, !concat_app; cbn; now rewrite <- !app_assoc).
    apply IH; [cbn in L; unfold cs in Len; cbn in Len; lia| | |].
    + cbn [app] in C1. apply chopped_skip in C1. rewrite <- rev_app_distr, <- !app_assoc in C1. exact C1.
    + apply blank_app. split; [exact B|]. apply blank_app. auto.
    + destruct K as [K|(S & K)]; [now left|]. right. split; [exact S|]. left. intros X. apply app_eq_nil in X as [_ X]. apply app_eq_nil in X as [X Y].
      destruct g' as [|c g']; [|now apply Ng]. destruct d as [|c d]; [|].
      * rewrite E in Len. cbn in Len. lia.
      * assert (c <> []) as Z by (apply (chopped_ne (c :: d) _ rest c C1); now left). cbn in Y. apply app_eq_nil in Y as [Y _]. contradiction.
  - assert (line <> []) as Nl by (rewrite El; discriminate). rewrite <- El in *. clear El l0 line0. specialize (W Nl).
    assert (g ++ List.concat cs = (g ++ List.concat g') ++ List.concat line ++ (List.concat d ++ List.concat rest)) as -> by (rewrite E, !concat_app, <- !app_assoc; reflexivity).
    assert (chopped (rev (u ++ (g ++ List.concat g') ++ List.concat line)) (d ++ rest)) as C2.
    { apply chopped_skip in C1. rewrite app_assoc, rev_app_distr. exact C1. }
    assert (chopped (rev ((u ++ (g ++ List.concat g') ++ List.concat line) ++ List.concat d)) rest) as C3 by (apply chopped_skip in C2; now rewrite rev_app_distr).
    constructor.
    + apply blank_app. auto.
    + destruct line as [|w line]; [congruence|]. assert (w <> []) as Z by (apply (chopped_ne (w :: line) _ (d ++ rest) w C1); now left). cbn. intros X. apply app_eq_nil in X as [X _]. contradiction.
    + destruct K as [[_ K]|(S & K)]; [now left|]. right. destruct g' as [|c g']; [|left; intros X; apply app_eq_nil in X as [_ X]; now apply Ng]. cbn [List.concat] in *. rewrite app_nil_r in *.
      destruct K as [K|[K|[(c & cs' & K & Z)|K]]]; [now left|discriminate| |].
      * exfalso. apply (F S eq_refl c cs' K). now apply ws_blank.
      * destruct g as [|a g]; [right|left; discriminate]. apply cutb_iff. rewrite E in K. cbn [app] in K. rewrite !concat_app in K. exact K.
    + destruct W as [[W _]|(c & -> & -> & W)]; [now left|]. right. intros x y X Nx Ny M. cbn in X. rewrite app_nil_r in X. subst c. cbn [app] in C1. inversion C1 as [|? ? _ U Nc _ _]; subst.
      assert (forallb (fun c => negb (is_ws c)) (x ++ y) = true) as U' by (destruct U as [U|U]; [exfalso; apply (La [] (x ++ y) eq_refl eq_refl); now apply ws_blank|exact U]).
      destruct M as [M|[(e & z & M & Be)|M]].
      * destruct y; [congruence|discriminate].
      * destruct y as [|e' y]; [congruence|]. cbn in M. injection M as -> _. apply is_ws_iff in Be. rewrite forallb_app in U'. cbn in U'. rewrite Be, andb_false_r in U'. discriminate.
      * apply cutb_iff in M. specialize (Nc x y eq_refl Nx Ny). cbn [List.concat app] in M. rewrite (app_assoc u), rev_app_distr in M. congruence.
    + intros x y X Nb M. destruct W as [[W1 W2]|(c & -> & -> & W)].
      2: { cbn. rewrite app_nil_r. unfold columns, width, len in *. lia. }
      destruct rest as [|c rest]; [exfalso; apply Nb; cbn [List.concat] in X; rewrite app_nil_r in X; rewrite X in Bd; now apply blank_app in Bd|]. cbn [List.concat] in X.
      destruct (prefix_cases _ _ _ _ _ X) as [P|[(z & P)|(x' & y' & -> & -> & Ny & ->)]].
      * unfold columns, width, len in *. lia.
      * exfalso. apply Nb. rewrite P in Bd. now apply blank_app in Bd.
      * exfalso. inversion C3 as [|? ? _ U Nc _ _]; subst. destruct x' as [|e x']; [rewrite app_nil_r in Nb; now apply Nb|].
        destruct M as [M|[(a & z & M & Ba)|M]].
        -- destruct y'; [congruence|discriminate].
        -- apply is_ws_iff in Ba. destruct y' as [|a' y']; [congruence|]. cbn in M. injection M as -> _. destruct U as [U|U].
           ++ apply Nb. apply blank_app. split; [exact Bd|]. apply ws_blank. rewrite forallb_app in U. now apply andb_prop in U.
           ++ rewrite forallb_app in U. cbn in U. rewrite Ba, andb_false_r in U. discriminate.
        -- apply cutb_iff in M. specialize (Nc (e :: x') y' eq_refl ltac:(discriminate) Ny). rewrite <- rev_app_distr in Nc. rewrite <- !app_assoc in Nc, M. repeat rewrite <- app_assoc in Nc. congruence.
    + apply IH; [cbn in L; unfold cs in Len; cbn in Len; lia|exact C3|exact Bd|]. right. split; [reflexivity|]. destruct D as [->|(c & -> & _)].
      2: { left. assert (c <> []) as Z by (apply (chopped_ne [c] _ rest c C2); now left). cbn. now rewrite app_nil_r. }
      right. destruct rest as [|c1 rest]; [now left|]. right. destruct (exists_last Nl) as (x & c & El). pose proof (La x c El eq_refl) as Nb.
      rewrite El in C1. rewrite <- app_assoc in C1. apply chopped_skip in C1. cbn [app] in C1. inversion C1 as [|? ? _ U _ Bo C4]; subst. inversion C4 as [|? ? N1 U1 _ _ _]; subst.
      destruct c1 as [|a c1]; [congruence|]. destruct (Bo a (c1 ++ List.concat rest) eq_refl) as [(z & e & -> & Z)|Z].
      * left. exists (a :: c1), rest. split; [reflexivity|]. destruct U1 as [U1|U1]; [exact U1|]. exfalso. cbn in U1. apply andb_prop in U1 as [U1 _].
        destruct U as [U|U]; [apply Nb; now apply ws_blank|]. apply forallb_last in U. destruct (is_ws e), (is_ws a); discriminate || now elim Z.
      * right. cbn [List.concat app]. rewrite !concat_app. cbn [List.concat]. rewrite app_nil_r, !rev_app_distr. rewrite !rev_app_distr in Z. rewrite <- !app_assoc in *. exact Z.
Qed.
