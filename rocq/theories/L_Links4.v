(** Lemmas about the search in a file system with links: without links it is the one of M_Search.v. *)
From Coq Require Import List Bool Ascii String ZArith Lia.
From Verif Require Import PyBase PyFacts M_Utils M_Elf M_Syscall M_Arch M_Config M_Location S_Elf S_Signature S_Location M_Search S_Search L_Search L_Search2 M_Links S_Links L_Links L_Links2 L_Links3.
Import ListNotations.
Open Scope Z_scope.
Open Scope list_scope.

Lemma unlinked_dir es : unlinked (NDir es) = LDir (map (fun x => (fst x, unlinked (snd x))) es).
Proof.
  cbn [unlinked]. f_equal. induction es as [|[x m] es IH]; [reflexivity|]. cbn [map fst snd]. now rewrite <- IH.
Qed.
Lemma unlinked_names es : map fst (map (fun x : str * node => (fst x, unlinked (snd x))) es) = map fst es.
Proof. rewrite map_map. reflexivity. Qed.
Lemma unlinked_child es x m : NoDup (map fst es) -> (child (unlinked (NDir es)) x = Some m <-> exists n, In (x, n) es /\ m = unlinked n).
Proof.
  intros N. rewrite unlinked_dir. cbn [child]. rewrite find_In by (now rewrite unlinked_names). rewrite in_map_iff. split.
  - intros ([y n] & [= <- <-] & I). eauto.
  - intros (n & I & ->). exists (x, n). auto.
Qed.
Lemma place_app2 n p q : place n (p ++ q) = match place n p with Some m => place m q | None => None end.
Proof.
  revert n. induction p as [|x p IH]; intros n; cbn [app place]; [reflexivity|]. destruct (child n x); [apply IH|reflexivity].
Qed.
Lemma collect_flat f (g : str * node -> list str) es : (forall x m, In (x, m) es -> f x = Fine (g (x, m))) ->
  collect f (map fst es) = Fine (flat_map g es).
Proof.
  induction es as [|[x m] es IH]; intros H; [reflexivity|]. cbn [map fst collect flat_map].
  rewrite (H x m) by (now left). cbn [rbind]. rewrite IH by (intros y n I; apply H; now right). reflexivity.
Qed.
(** Real paths lead to themselves. *)
Lemma follow_real root links (p : list str) : forall (here : list str) m, Forall (fun x : str => x <> $"." /\ x <> $"..") p -> place root (here ++ p) = Some m ->
  (forall b t, m <> LLink b t) -> follow root links here p = At (here ++ p) links.
Proof.
  induction p as [|x p IH]; intros here m F P NL; rewrite follow_eq; [now rewrite app_nil_r|].
  inversion F as [|? ? [X1 X2] F']; subst. rewrite (neq_eqb _ _ X1), (neq_eqb _ _ X2).
  change (here ++ x :: p) with (here ++ [x] ++ p) in *. rewrite app_assoc in P.
  pose proof P as P2. rewrite place_app2 in P2. destruct (place root (here ++ [x])) as [k|] eqn:K; [|discriminate].
  destruct p as [|y p].
  - cbn [place] in P2. injection P2 as ->. rewrite app_nil_r.
    destruct m as [c|es|b t|]; [reflexivity|rewrite follow_eq; reflexivity|now destruct (NL b t)|reflexivity].
  - cbn [place] in P2. destruct (child k y) as [k'|] eqn:C; [|discriminate]. apply child_in in C as (es & -> & _).
    rewrite (IH (here ++ [x]) m F' P NL). now rewrite app_assoc.
Qed.
Lemma follow_missing root links (p : list str) (x : str) : forall here : list str, Forall (fun x : str => x <> $"." /\ x <> $"..") (p ++ [x]) ->
  (forall m b t, place root (here ++ p) = Some m -> m <> LLink b t) ->
  place root (here ++ p ++ [x]) = None -> (exists m, place root (here ++ p) = Some m) -> follow root links here (p ++ [x]) = Nowhere.
Proof.
  intros here F NL N (m & P). apply Forall_app in F as [F1 F2]. inversion F2 as [|? ? [X1 X2] _]; subst.
  rewrite follow_snoc by (now apply neq_eqb). rewrite (follow_real root links p here m F1 P) by (intros b t; now apply NL).
  rewrite follow_eq, (neq_eqb _ _ X1), (neq_eqb _ _ X2), <- app_assoc, N. reflexivity.
Qed.
Lemma unlinked_not n b t : unlinked n <> LLink b t.
Proof. destruct n; discriminate. Qed.
Lemma place_unlinked n : forall rel m, place (unlinked n) rel = Some m -> tree_ok n -> exists k, m = unlinked k /\ tree_ok k.
Proof.
  induction n as [c| |es IH] using node_all; intros rel m P T.
  1: destruct rel; cbn [place] in P; [injection P as <-|discriminate]; exists (NFile c); auto.
  1: destruct rel; cbn [place] in P; [injection P as <-|discriminate]; exists NOther; auto.
  destruct rel as [|x rel]; cbn [place] in P; [injection P as <-; exists (NDir es); auto|].
  destruct (child (unlinked (NDir es)) x) as [k|] eqn:C; [|discriminate]. inversion T as [| |? N F]; subst.
  apply unlinked_child in C as (k' & I & ->); [|assumption]. rewrite Forall_forall in IH, F. exact (IH _ I rel m P (F _ I)).
Qed.

Section NoLinks.
  Context (root : lnode) (limit : nat) (kdir : list str) (a : arch) (es archs : list (str * node)).
  Local Notation sources := (NDir es).
  Context (T : tree_ok sources) (K : place root kdir = Some (unlinked sources)) (KD : Forall (fun x : str => x <> $"." /\ x <> $"..") kdir)
    (A : In ($"arch", NDir archs) es) (AD : forall x m, In (x, m) archs -> x <> $"." /\ x <> $"..").
  Local Notation go rel := (follow root limit [] (kdir ++ rel)).
  Local Notation plain := (Forall (fun x : str => x <> $"." /\ x <> $"..")).

  Lemma below rel : place root (kdir ++ rel) = place (unlinked sources) rel.
  Proof. now rewrite place_app2, K. Qed.
  Lemma go_at rel m : plain rel -> place (unlinked sources) rel = Some m -> go rel = At (kdir ++ rel) limit.
  Proof.
    intros F P. apply (follow_real root limit (kdir ++ rel) [] m).
    - apply Forall_app. auto.
    - cbn [app]. now rewrite below.
    - intros b t. destruct (place_unlinked _ _ _ P T) as (k & -> & _). apply unlinked_not.
  Qed.
  Lemma go_not rel x : plain (rel ++ [x]) -> place (unlinked sources) (rel ++ [x]) = None -> (exists m, place (unlinked sources) rel = Some m) ->
    go (rel ++ [x]) = Nowhere.
  Proof.
    intros F P (m & Pm). rewrite app_assoc. apply follow_missing.
    - rewrite <- app_assoc. apply Forall_app. auto.
    - intros k b t. cbn [app]. rewrite below. intros Pk. destruct (place_unlinked _ _ _ Pk T) as (k' & -> & _). apply unlinked_not.
    - cbn [app]. rewrite <- app_assoc. now rewrite below.
    - exists m. cbn [app]. now rewrite below.
  Qed.
  Lemma resolve_fine rels : (forall rel, In rel rels -> exists p x, rel = p ++ [x] /\ plain rel /\ exists m, place (unlinked sources) p = Some m) ->
    exists ex, resolve_all root limit kdir rels = Fine ex /\
      forall r, In r ex <-> exists rel, r = kdir ++ rel /\ In rel rels /\ place (unlinked sources) rel <> None.
  Proof.
    induction rels as [|rel rels IH]; intros H.
    - exists []. split; [reflexivity|]. intros r. split; [intros []|intros (? & _ & [] & _)].
    - destruct IH as (ex & E & I); [intros r J; apply H; now right|]. destruct (H rel (or_introl eq_refl)) as (p & x & -> & F & M).
      cbn [resolve_all]. unfold resolve. rewrite E. destruct (place (unlinked sources) (p ++ [x])) as [m|] eqn:P.
      + rewrite (go_at _ _ F P). cbn [rbind]. eexists. split; [reflexivity|]. intros r. cbn [app In]. rewrite I. split.
        * intros [<-|(rel & -> & J & Q)]; [exists (p ++ [x])|exists rel]; (split; [reflexivity|]); (split; [auto|congruence]).
        * intros (rel & -> & [<-|J] & Q); [now left|right; eauto].
      + rewrite (go_not _ _ F P M). cbn [rbind]. eexists. split; [reflexivity|]. intros r. cbn [app]. rewrite I. split.
        * intros (rel & -> & J & Q). exists rel. cbn [In]. auto.
        * intros (rel & -> & [<-|J] & Q); [congruence|eauto].
  Qed.

  Lemma arch_place : place (unlinked sources) [$"arch"] = Some (unlinked (NDir archs)).
  Proof.
    inversion T as [| |? N F]; subst. cbn [place]. assert (child (unlinked sources) $"arch" = Some (unlinked (NDir archs))) as ->; [|reflexivity].
    apply unlinked_child; [assumption|]. eauto.
  Qed.
  Lemma exclude_fine : exists ex, exclude_real root limit kdir a = Fine ex /\
    forall rel es', place (unlinked sources) rel = Some (LDir es') -> member ex (kdir ++ rel) = exclude a (map fst archs) rel.
  Proof.
    destruct (resolve_fine (map (fun d => [d]) excluded_top)) as (top & Et & It).
    { intros rel I. apply in_map_iff in I as (d & <- & I). exists [], d. split; [reflexivity|]. split; [|exists (unlinked sources); reflexivity].
      constructor; [|constructor]. split; intros ->; revert I; vm_compute; intuition congruence. }
    destruct (resolve_fine (map (fun x => [$"arch"; x]) (filter (fun x => negb (str_eqb x (class_name (a_class a)))) (map fst archs)))) as (xs & Ex & Ix).
    { intros rel I. apply in_map_iff in I as (x & <- & I). apply filter_In in I as [I _]. apply in_map_iff in I as ([y m] & E & I). cbn in E. subst y.
      exists [$"arch"], x. split; [reflexivity|]. split; [|exists (unlinked (NDir archs)); exact arch_place].
      constructor; [split; discriminate|]. constructor; [now apply (AD x m)|constructor]. }
    exists (top ++ xs). split.
    - unfold exclude_real. rewrite Et. cbn [rbind]. unfold iterdir, stat.
      rewrite (go_at [$"arch"] _ ltac:(constructor; [split; discriminate|constructor]) arch_place), below, arch_place, unlinked_dir, unlinked_names.
      cbn [rbind]. rewrite Ex. reflexivity.
    - intros rel es' P. apply eq_true_iff_eq. rewrite member_In, in_app_iff, It, Ix. split.
      + intros [(r & E & I & _)|(r & E & I & _)]; apply app_inv_head in E; subst r; apply in_map_iff in I as (x & <- & I).
        * cbn [exclude]. apply unsearched_iff. exact I.
        * apply filter_In in I as [I N]. cbn [exclude]. rewrite str_eqb_refl, N, andb_true_r. cbn [andb]. apply existsb_exists. exists x.
          split; [assumption|apply str_eqb_refl].
      + destruct rel as [|d [|x [|y rel]]]; cbn [exclude]; try discriminate.
        * intros U. left. exists [d]. split; [reflexivity|]. split; [|congruence]. apply in_map_iff. exists d. split; [reflexivity|].
          apply unsearched_iff in U. exact U.
        * rewrite !andb_true_iff. intros [[E I] N]. apply str_eqb_eq in E. subst d. apply existsb_exists in I as (z & I & E). apply str_eqb_eq in E. subst z.
          right. exists [$"arch"; x]. split; [reflexivity|]. split; [|intros Q; pose proof (eq_trans (eq_sym P) Q) as Z; discriminate Z]. apply in_map_iff. exists x. split; [reflexivity|].
          apply filter_In. auto.
  Qed.

  Lemma search_same exp ex : (forall rel es', place (unlinked sources) rel = Some (LDir es') -> member ex (kdir ++ rel) = exclude a (map fst archs) rel) ->
    forall n fuel cur, tree_ok n -> plain cur -> place (unlinked sources) cur = Some (unlinked n) -> (height (unlinked n) < fuel)%nat ->
    (exists l, n = NDir l) ->
    search_below root limit kdir fuel exp ex cur = Fine (grep_recursive exp (exclude a (map fst archs)) cur n).
  Proof.
    intros M. induction n as [c| |l IH] using node_all; intros fuel cur Tn F P H D; [destruct D; discriminate..|]. clear D.
    destruct fuel as [|fuel]; [lia|]. rewrite search_eq.
    assert (iterdir root limit kdir cur = Fine (map fst l)) as ->.
    { unfold iterdir, stat. rewrite (go_at _ _ F P), below, P, unlinked_dir, unlinked_names. reflexivity. }
    cbn [rbind]. rewrite grep_dir. inversion Tn as [| |? N Fo]; subst. rewrite Forall_forall in IH, Fo. apply collect_flat. intros x m I.
    unfold one, entry. cbn [fst snd]. destruct (startswith x $".") eqn:Hx; [reflexivity|].
    assert (place (unlinked sources) (cur ++ [x]) = Some (unlinked m)) as P'.
    { rewrite place_app, P. apply unlinked_child; [assumption|]. eauto. }
    destruct (unhidden _ Hx) as [X1 X2]. apply eqb_neq in X1, X2.
    assert (plain (cur ++ [x])) as F' by (apply Forall_app; split; [assumption|]; constructor; [auto|constructor]).
    pose proof (go_at _ _ F' P') as G. unfold stat, resolve. rewrite G, below, P'. destruct m as [c|l'|]; cbn [unlinked].
    - destruct (endswith x $".c"); reflexivity.
    - cbn [rbind existsb]. rewrite orb_false_r. rewrite (M (cur ++ [x]) _ P'). destruct (exclude a (map fst archs) (cur ++ [x])); [reflexivity|].
      apply (IH _ I); [exact (Fo _ I)|assumption|assumption| |eauto]. cbn [snd].
      assert (height (unlinked (NDir l')) < height (unlinked (NDir l)))%nat; [|lia]. rewrite (unlinked_dir l). apply height_in with x.
      apply in_map_iff. exists (x, NDir l'). split; [reflexivity|assumption]. all: cbn [snd]; eauto.
    - reflexivity.
  Qed.
End NoLinks.

Lemma linked_unlinked root limit kdir a sources out : tree_ok sources -> place root kdir = Some (unlinked sources) ->
  Forall (fun x : str => x <> $"." /\ x <> $"..") kdir ->
  (forall es archs x m, sources = NDir es -> In ($"arch", NDir archs) es -> In (x, m) archs -> x <> $"." /\ x <> $"..") ->
  python_search a sources = Ok out -> linked_search root limit kdir (enough root limit) a = Fine out.
Proof.
  intros T K KD AD P. apply search_ok in P as (es & archs & -> & A & ->); [|assumption].
  specialize (fun x m => AD es archs x m eq_refl A). unfold linked_search.
  destruct (exclude_fine root limit kdir a es archs T K KD A AD) as (ex & -> & M). cbn [rbind].
  apply (search_same root limit kdir a es archs T K KD AD (search_exp a) ex M); [assumption|constructor|reflexivity| |eauto].
  apply place_height in K. unfold enough. cbn [Nat.mul]. lia.
Qed.
