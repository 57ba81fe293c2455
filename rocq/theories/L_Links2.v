(** Lemmas about the search in a file system with links: it ends, and what it reads. *)
From Coq Require Import List Bool Ascii String ZArith Lia.
From Verif Require Import PyBase PyFacts M_Utils M_Elf M_Syscall M_Arch S_Elf S_Signature S_Location M_Search S_Search L_Search L_Search2 M_Links S_Links L_Links.
Import ListNotations.
Open Scope Z_scope.
Open Scope list_scope.

Lemma path_eqb_eq a b : path_eqb a b = true <-> a = b.
Proof.
  revert b. induction a as [|x a IH]; intros [|y b]; cbn [path_eqb]; try (split; [discriminate|discriminate]); [split; reflexivity|].
  rewrite andb_true_iff, IH, str_eqb_eq. split; [intros [-> ->]; reflexivity|intros [= -> ->]; auto].
Qed.
Lemma member_In ex x : member ex x = true <-> In x ex.
Proof.
  unfold member. rewrite existsb_exists. split.
  - intros (y & I & E). apply path_eqb_eq in E. now subst.
  - intros I. exists x. split; [assumption|]. now apply path_eqb_eq.
Qed.
Lemma member_no ex x : member ex x = false <-> ~ In x ex.
Proof. rewrite <- member_In. destruct (member ex x); split; congruence. Qed.

Lemma unhidden x : startswith x $"." = false -> str_eqb x $"." = false /\ str_eqb x $".." = false.
Proof. intros H. rewrite hidden_iff in H. split; apply neq_eqb; intros ->; [apply (H [])|apply (H $".")]; reflexivity. Qed.

(** Results gathered from a list. *)
Fixpoint collect (f : str -> result (list str)) (l : list str) : result (list str) :=
  match l with [] => Fine [] | x :: l' => out <-- f x ;; rest <-- collect f l' ;; Fine (out ++ rest) end.
Lemma collect_fine f l out : collect f l = Fine out ->
  (forall x, In x l -> exists o, f x = Fine o) /\ forall y, In y out <-> exists x o, In x l /\ f x = Fine o /\ In y o.
Proof.
  revert out. induction l as [|x l IH]; intros out; cbn [collect].
  - intros [= <-]. split; [intros ? []|]. intros y. split; [intros []|intros (? & ? & [] & _)].
  - destruct (f x) as [o| |] eqn:E; cbn [rbind]; try discriminate. destruct (collect f l) as [r| |]; cbn [rbind]; try discriminate.
    intros [= <-]. destruct (IH r eq_refl) as [A B]. split.
    + intros z [<-|I]; [eauto|auto].
    + intros y. rewrite in_app_iff, B. split.
      * intros [I|(z & o' & I & F & J)]; [exists x, o|exists z, o']; cbn [In]; auto.
      * intros (z & o' & [<-|I] & F & J); [left; congruence|right; eauto].
Qed.
Lemma collect_ok f l : (forall x, In x l -> exists o, f x = Fine o) -> exists out, collect f l = Fine out.
Proof.
  induction l as [|x l IH]; intros H; cbn [collect]; [eauto|]. destruct (H x (or_introl eq_refl)) as [o ->]. cbn [rbind].
  destruct IH as [r ->]; [intros z I; apply H; now right|]. cbn [rbind]. eauto.
Qed.

Section Search.
  Context (root : lnode) (limit : nat) (kdir : list str).
  Local Notation go rel := (follow root limit [] (kdir ++ rel)).
  Local Notation st := (stat root limit kdir).

  Lemma go_snoc cur x : startswith x $"." = false ->
    go (cur ++ [x]) = match go cur with At real more => follow root more real [x] | w => w end.
  Proof. intros H. apply unhidden in H as [H1 H2]. rewrite app_assoc. now apply follow_snoc. Qed.
  Lemma st_dir cur es : st cur = Some (LDir es) <-> exists real more, go cur = At real more /\ place root real = Some (LDir es).
  Proof.
    unfold stat. destruct (go cur) as [real more| |]; split; try discriminate; eauto.
    - intros (? & ? & [= <- <-] & H). exact H.
    - intros (? & ? & [=] & H).
    - intros (? & ? & [=] & H).
  Qed.

  (** One entry of a directory. *)
  Definition one (fuel : nat) exp ex cur (name : str) : result (list str) :=
    if startswith name $"." then Fine []
    else match st (cur ++ [name]) with
         | Some (LFile content) => if endswith name $".c" then Fine (grep_file exp (cur ++ [name]) content) else Fine []
         | Some (LDir _) =>
             x <-- resolve root limit kdir (cur ++ [name]) ;;
             if existsb (member ex) x then Fine [] else search_below root limit kdir fuel exp ex (cur ++ [name])
         | _ => Fine []
         end.
  Lemma search_eq fuel exp ex cur : search_below root limit kdir (S fuel) exp ex cur =
    rbind (iterdir root limit kdir cur) (collect (one fuel exp ex cur)).
  Proof.
    cbn [search_below]. destruct (iterdir root limit kdir cur) as [names| |]; [|reflexivity..]. cbn [rbind].
    induction names as [|x names IH]; [reflexivity|]. cbn [collect]. rewrite <- IH. reflexivity.
  Qed.
  Lemma one_dir fuel exp ex cur name real more es : startswith name $"." = false -> go (cur ++ [name]) = At real more ->
    place root real = Some (LDir es) -> one fuel exp ex cur name =
    if member ex real then Fine [] else search_below root limit kdir fuel exp ex (cur ++ [name]).
  Proof.
    intros H G P. unfold one, resolve, stat. rewrite H, G, P. cbn [rbind existsb]. now rewrite orb_false_r.
  Qed.

  (** *** The search ends *)
  Lemma search_ends exp ex : forall fuel cur real more es, go cur = At real more -> place root real = Some (LDir es) ->
    (more * S (height root) + height (LDir es) < fuel)%nat ->
    exists out, search_below root limit kdir fuel exp ex cur = Fine out.
  Proof.
    induction fuel as [|fuel IH]; intros cur real more es G P B; [lia|]. rewrite search_eq.
    assert (iterdir root limit kdir cur = Fine (map fst es)) as -> by (unfold iterdir, stat; now rewrite G, P).
    cbn [rbind]. apply collect_ok. intros x _. destruct (startswith x $".") eqn:Hx; [unfold one; rewrite Hx; eauto|].
    destruct (go (cur ++ [x])) as [real' more'| |] eqn:G'.
    2-3: unfold one, stat; rewrite Hx, G'; eauto.
    destruct (place root real') as [[c|es'|b t|]|] eqn:P'.
    - unfold one, stat. rewrite Hx, G', P'. destruct (endswith x $".c"); eauto.
    - rewrite (one_dir fuel exp ex cur x real' more' es' Hx G' P'). destruct (member ex real'); [eauto|].
      apply IH with real' more' es'; [assumption|assumption|]. rewrite go_snoc, G in G' by assumption.
      destruct (unhidden _ Hx) as [X1 X2].
      destruct (follow_step root more real x real' more' es X1 X2 G' P) as [(-> & -> & m & I & Pm)|[L _]].
      + rewrite Pm in P'. injection P' as ->. apply height_in in I. lia.
      + apply place_height in P'. assert (S more' * S (height root) <= more * S (height root))%nat by (apply Nat.mul_le_mono_r; lia).
        cbn [Nat.mul] in *. lia.
    - unfold one, stat. rewrite Hx, G', P'. eauto.
    - unfold one, stat. rewrite Hx, G', P'. eauto.
    - unfold one, stat. rewrite Hx, G', P'. eauto.
  Qed.

  (** *** What is read *)
  Context (ex : list (list str)).
  Inductive seen : list str -> list str -> bytes -> Prop :=
  | seen_file cur name content : startswith name $"." = false -> endswith name $".c" = true ->
      st (cur ++ [name]) = Some (LFile content) -> seen cur [name] content
  | seen_dir cur name real more es q content : startswith name $"." = false -> go (cur ++ [name]) = At real more ->
      place root real = Some (LDir es) -> member ex real = false -> seen (cur ++ [name]) q content ->
      seen cur (name :: q) content.

  Lemma entry_of cur es name real more : st cur = Some (LDir es) -> startswith name $"." = false ->
    go (cur ++ [name]) = At real more -> In name (map fst es).
  Proof.
    intros D H G. apply st_dir in D as (r & m & Gc & P). rewrite go_snoc, Gc in G by assumption.
    destruct (unhidden _ H) as [X1 X2]. apply in_map_iff.
    destruct (follow_step root m r name real more es X1 X2 G P) as [(_ & _ & n & I & _)|[_ [n I]]]; exists (name, n); auto.
  Qed.
  Lemma search_seen exp : forall fuel cur out, search_below root limit kdir fuel exp ex cur = Fine out ->
    forall y, In y out <-> exists q content, seen cur q content /\ In y (grep_file exp (cur ++ q) content).
  Proof.
    induction fuel as [|fuel IH]; intros cur out; [discriminate|]. rewrite search_eq.
    destruct (iterdir root limit kdir cur) as [names| |] eqn:D; [|discriminate..]. cbn [rbind]. intros C y.
    apply collect_fine in C as [Call C]. rewrite C. clear C.
    unfold iterdir in D. destruct (st cur) as [[c|es|b t|]|] eqn:Es; [discriminate| |discriminate..]. injection D as <-. split.
    - intros (x & o & I & F & J). destruct (startswith x $".") eqn:Hx; [unfold one in F; rewrite Hx in F; injection F as <-; destruct J|].
      destruct (st (cur ++ [x])) as [[c|es'|b t|]|] eqn:S'.
      + unfold one in F. rewrite Hx, S' in F. destruct (endswith x $".c") eqn:E; injection F as <-; [|destruct J].
        exists [x], c. split; [now constructor|assumption].
      + apply st_dir in S' as (real & more & G & P). rewrite (one_dir fuel exp ex cur x real more es' Hx G P) in F.
        destruct (member ex real) eqn:M; [injection F as <-; destruct J|]. apply (IH _ _ F) in J as (q & content & Sn & K).
        exists (x :: q), content. split; [now apply seen_dir with real more es'|]. rewrite <- app_assoc in K. exact K.
      + unfold one in F. rewrite Hx, S' in F. injection F as <-. destruct J.
      + unfold one in F. rewrite Hx, S' in F. injection F as <-. destruct J.
      + unfold one in F. rewrite Hx, S' in F. injection F as <-. destruct J.
    - intros (q & content & Sn & K). inversion Sn as [cur' name c H E S' |cur' name real more es' q' c H G P M Sn']; subst.
      + exists name, (grep_file exp (cur ++ [name]) content). split; [|split; [|assumption]].
        * unfold stat in S'. destruct (go (cur ++ [name])) as [real more| |] eqn:G; [|discriminate..]. now apply entry_of with cur real more.
        * unfold one. now rewrite H, S', E.
      + pose proof (entry_of _ _ _ _ _ Es H G) as I. destruct (Call _ I) as [o F]. exists name, o. split; [assumption|]. split; [assumption|].
        rewrite (one_dir fuel exp ex cur name real more es' H G P), M in F. apply (IH _ _ F). exists q', content. split; [assumption|].
        rewrite <- app_assoc. exact K.
  Qed.

  Lemma go_app cur suf : (forall c, In c suf -> startswith c $"." = false) ->
    go (cur ++ suf) = match go cur with At real more => follow root more real suf | w => w end.
  Proof.
    induction suf as [|x suf IH] using rev_ind; intros H.
    - rewrite !app_nil_r. destruct (go cur) as [real more| |]; [rewrite follow_eq|..]; reflexivity.
    - assert (startswith x $"." = false) as Hx by (apply H, in_or_app; right; now left).
      rewrite (app_assoc cur), go_snoc, IH by (assumption || (intros c I; apply H, in_or_app; now left)).
      destruct (go cur) as [real more| |]; [|reflexivity..]. destruct (unhidden _ Hx) as [X1 X2].
      symmetry. now apply follow_snoc.
  Qed.
  Lemma go_prefix cur x suf real more : (forall c, In c (x :: suf) -> startswith c $"." = false) ->
    go (cur ++ x :: suf) = At real more -> exists r m es, go cur = At r m /\ place root r = Some (LDir es).
  Proof.
    intros H G. rewrite go_app in G by assumption. destruct (go cur) as [r m| |]; [|discriminate..].
    destruct (unhidden x (H x (or_introl eq_refl))) as [X1 X2]. rewrite follow_eq, X1, X2, place_app in G.
    destruct (place root r) as [n|] eqn:P; [|discriminate]. destruct (child n x) as [k|] eqn:C; [|discriminate].
    apply child_in in C as (es & -> & _). exists r, m, es. auto.
  Qed.
  Lemma seen_iff : forall q cur content, seen cur q content <->
    (exists dirs name, q = dirs ++ [name ++ $".c"]) /\ (forall c, In c q -> startswith c $"." = false) /\
    st (cur ++ q) = Some (LFile content) /\
    (forall pre suf, q = pre ++ suf -> pre <> [] -> suf <> [] -> exists real more, go (cur ++ pre) = At real more /\ ~ In real ex).
  Proof.
    induction q as [|x q IH]; intros cur content.
    - split; [inversion 1|]. intros ((dirs & name & E) & _). destruct dirs; discriminate.
    - split.
      + inversion 1 as [cur' name c H1 E S' |cur' name real more es' q' c H1 G P M Sn']; subst.
        * split; [apply c_iff in E as [y ->]; exists [], y; reflexivity|]. split; [intros c [<-|[]]; assumption|].
          split; [assumption|]. intros [|z [|w pre]] [|s suf] Eq; try congruence; discriminate Eq.
        * apply IH in Sn' as ((dirs & name & ->) & Hh & Ss & Pr). rewrite <- app_assoc in Ss. cbn [app] in Ss.
          split; [exists (x :: dirs), name; reflexivity|]. split; [intros c [<-|I]; auto|]. split; [assumption|].
          intros [|z pre] suf Eq N1 N2; [congruence|]. injection Eq as <- Eq. destruct pre as [|w pre].
          -- exists real, more. split; [assumption|]. now apply member_no.
          -- destruct (Pr (w :: pre) suf Eq ltac:(discriminate) N2) as (r & m & G' & NI). rewrite <- app_assoc in G'. eauto.
      + intros ((dirs & name & E) & Hh & Ss & Pr). destruct q as [|y q].
        * destruct dirs as [|? [|? ?]]; try discriminate. injection E as ->. apply seen_file; [apply Hh; now left| |assumption].
          apply c_iff. eauto.
        * destruct (Pr [x] (y :: q) eq_refl ltac:(discriminate) ltac:(discriminate)) as (real & more & G & NI).
          assert (exists r m es, go (cur ++ [x]) = At r m /\ place root r = Some (LDir es)) as (r & m & es & G' & P).
          { unfold stat in Ss. destruct (go (cur ++ x :: y :: q)) as [r m| |] eqn:Gq; [|discriminate..].
            apply go_prefix with y q r m; [intros c I; apply Hh; now right|]. rewrite <- app_assoc. exact Gq. }
          rewrite G in G'. injection G' as <- <-. apply seen_dir with real more es; [apply Hh; now left|assumption|assumption|now apply member_no|].
          apply IH. destruct dirs as [|z dirs]; [discriminate|]. injection E as <- E. rewrite <- app_assoc.
          split; [eauto|]. split; [intros c I; apply Hh; now right|]. split; [assumption|].
          intros pre suf Eq N1 N2. destruct (Pr (x :: pre) suf ltac:(cbn [app]; now rewrite Eq) ltac:(discriminate) N2) as (r & m & G' & NI').
          rewrite <- app_assoc. eauto.
  Qed.
End Search.
