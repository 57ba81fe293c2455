(** Lemmas about paths with links. *)
From Coq Require Import List Bool Ascii String ZArith Lia.
From Verif Require Import PyBase PyFacts M_Utils M_Elf M_Syscall M_Arch S_Elf S_Signature S_Location M_Search S_Search L_Search L_Search2 M_Links S_Links.
Import ListNotations.
Open Scope Z_scope.
Open Scope list_scope.

Section LNodeInd.
  Context (P : lnode -> Prop) (HF : forall c, P (LFile c)) (HL : forall b t, P (LLink b t)) (HO : P LOther)
    (HD : forall es, Forall (fun x => P (snd x)) es -> P (LDir es)).
  Fixpoint lnode_all (n : lnode) : P n :=
    match n with
    | LFile c => HF c
    | LLink b t => HL b t
    | LOther => HO
    | LDir es => HD es ((fix go (l : list (str * lnode)) : Forall (fun x => P (snd x)) l :=
                           match l with [] => Forall_nil _ | x :: l' => Forall_cons _ (lnode_all (snd x)) (go l') end) es)
    end.
End LNodeInd.

Lemma find_In (es : list (str * lnode)) x m : NoDup (map fst es) ->
  (option_map snd (find (fun y => str_eqb (fst y) x) es) = Some m <-> In (x, m) es).
Proof.
  induction es as [|[y n] es IH]; intros N; cbn [find option_map]; [split; [discriminate|intros []]|].
  cbn in N. inversion N as [|? ? N1 N2]; subst. cbn [fst]. destruct (str_eqb y x) eqn:E; cbn [option_map snd].
  - apply str_eqb_eq in E. subst y. split; [intros [= <-]; now left|]. intros [[= <-]|I]; [reflexivity|].
    destruct N1. apply in_map_iff. exists (x, m). auto.
  - rewrite IH by assumption. split; [now right|]. intros [[= -> ->]|I]; [|assumption].
    rewrite str_eqb_refl in E. discriminate.
Qed.

Lemma place_located n : sane n -> forall real m, place n real = Some m <-> located n real m.
Proof.
  induction n as [c|b t| |es IH] using lnode_all; intros S real m.
  1-3: destruct real as [|x real]; cbn [place child]; split;
    [intros [= <-]; constructor|inversion 1; reflexivity|discriminate|inversion 1].
  inversion S as [| | |? N F]; subst. destruct real as [|x real]; cbn [place].
  - split; [intros [= <-]; constructor|inversion 1; reflexivity].
  - cbn [child]. split.
    + destruct (option_map snd (find (fun y => str_eqb (fst y) x) es)) as [n|] eqn:E; [|discriminate].
      apply find_In in E; [|assumption]. intros P. apply lo_in with n; [assumption|].
      rewrite Forall_forall in IH, F. apply (IH _ E (F _ E)). exact P.
    + inversion 1 as [|? ? n ? ? I L]; subst. pose proof I as I'. apply find_In in I'; [|assumption]. rewrite I'.
      rewrite Forall_forall in IH, F. apply (IH _ I (F _ I)). exact L.
Qed.

Lemma place_app n real x : place n (real ++ [x]) = match place n real with Some m => child m x | None => None end.
Proof.
  revert n. induction real as [|y real IH]; intros n; cbn [app place].
  - destruct (child n x); reflexivity.
  - destruct (child n y); [apply IH|reflexivity].
Qed.

Lemma follow_eq root links here todo : follow root links here todo =
  match todo with
  | [] => At here links
  | x :: rest =>
      if str_eqb x $"." then follow root links here rest
      else if str_eqb x $".." then follow root links (removelast here) rest
      else match place root (here ++ [x]) with
           | Some (LDir _) => follow root links (here ++ [x]) rest
           | Some (LLink from_root target) =>
               match links with
               | S links' => follow root links' (if from_root then [] else here) (target ++ rest)
               | O => Loop
               end
           | Some _ => match rest with [] => At (here ++ [x]) links | _ => Nowhere end
           | None => Nowhere
           end
  end.
Proof. destruct links, todo; reflexivity. Qed.

Lemma neq_eqb (x y : str) : x <> y -> str_eqb x y = false.
Proof. intros H. destruct (str_eqb x y) eqn:E; [|reflexivity]. apply str_eqb_eq in E. contradiction. Qed.
Lemma eqb_neq (x y : str) : str_eqb x y = false -> x <> y.
Proof. intros H ->. rewrite str_eqb_refl in H. discriminate. Qed.

Lemma follow_leads root : sane root -> forall links todo here real left,
  follow root links here todo = At real left <-> exists n, leads root here todo real n /\ (n + left = links)%nat.
Proof.
  intros S. pose proof (place_located root S) as PL. split.
  - revert todo here real left. induction links as [|links IHl]; (induction todo as [|x todo IH]; intros here real left);
      rewrite follow_eq; try (intros [= <- <-]; exists O; split; [constructor|reflexivity]);
      (destruct (str_eqb x $".") eqn:E1; [apply str_eqb_eq in E1; subst x; intros (n & L & E)%IH; exists n; split; [now constructor|assumption]|]);
      (destruct (str_eqb x $"..") eqn:E2;
        [apply str_eqb_eq in E2; subst x; intros (n & L & E)%IH; exists n; split; [|assumption];
         destruct here as [|y here _] using rev_ind; [now apply le_top|];
         rewrite removelast_last in L; now apply le_up with here y|]);
      apply eqb_neq in E1, E2;
      (destruct (place root (here ++ [x])) as [[c|es|b t|]|] eqn:P; [| | | |discriminate]; apply PL in P).
    + destruct todo; [|discriminate]. intros [= <- <-]. exists O. split; [|reflexivity]. now apply le_file with c.
    + intros (n & L & E)%IH. exists n. split; [|assumption]. now apply le_dir with es.
    + discriminate.
    + destruct todo; [|discriminate]. intros [= <- <-]. exists O. split; [|reflexivity]. now apply le_other.
    + destruct todo; [|discriminate]. intros [= <- <-]. exists O. split; [|reflexivity]. now apply le_file with c.
    + intros (n & L & E)%IH. exists n. split; [|assumption]. now apply le_dir with es.
    + intros (n & L & E)%IHl. exists (Datatypes.S n). split; [|lia]. now apply le_link with b t.
    + destruct todo; [|discriminate]. intros [= <- <-]. exists O. split; [|reflexivity]. now apply le_other.
  - intros (n & L & E). revert links E. induction L as [here|here todo real n L IH|here up x todo real n -> L IH|todo real n L IH
      |here x es todo real n N1 N2 P L IH|here x c N1 N2 P|here x N1 N2 P|here x b t todo real n N1 N2 P L IH]; intros links E; rewrite follow_eq.
    + f_equal. lia.
    + rewrite str_eqb_refl. now apply IH.
    + change (str_eqb $".." $".") with false. cbv iota. rewrite str_eqb_refl, removelast_last. now apply IH.
    + change (str_eqb $".." $".") with false. cbv iota. rewrite str_eqb_refl. now apply IH.
    + rewrite (neq_eqb _ _ N1), (neq_eqb _ _ N2). apply PL in P. rewrite P. now apply IH.
    + rewrite (neq_eqb _ _ N1), (neq_eqb _ _ N2). apply PL in P. rewrite P. f_equal. lia.
    + rewrite (neq_eqb _ _ N1), (neq_eqb _ _ N2). apply PL in P. rewrite P. f_equal. lia.
    + rewrite (neq_eqb _ _ N1), (neq_eqb _ _ N2). apply PL in P. rewrite P. destruct links; [lia|]. apply IH. lia.
Qed.

(** A path is walked one name after the other. *)
Lemma follow_snoc root x : str_eqb x $"." = false -> str_eqb x $".." = false -> forall links todo here,
  follow root links here (todo ++ [x]) =
  match follow root links here todo with At real more => follow root more real [x] | w => w end.
Proof.
  intros X1 X2. induction links as [|links IHl]; (induction todo as [|y todo IH]; intros here; [reflexivity|]);
    cbn [app]; rewrite (follow_eq root _ here (y :: todo)), (follow_eq root _ here (y :: todo ++ [x]));
    (destruct (str_eqb y $"."); [apply IH|]); (destruct (str_eqb y $".."); [apply IH|]);
    (destruct (place root (here ++ [y])) as [[c|es|b t|]|] eqn:P; [|apply IH| | |reflexivity]).
  1, 3, 4, 6: destruct todo as [|z todo]; cbn [app]; [|reflexivity]; rewrite follow_eq, X1, X2, place_app, P; reflexivity.
  - reflexivity.
  - rewrite app_assoc. apply IHl.
Qed.
Lemma follow_less root links : forall todo here real left, follow root links here todo = At real left -> (left <= links)%nat.
Proof.
  induction links as [|links IHl]; (induction todo as [|y todo IH]; intros here real left); rewrite follow_eq;
    try (intros [= <- <-]; lia);
    (destruct (str_eqb y $"."); [apply IH|]); (destruct (str_eqb y $".."); [apply IH|]);
    (destruct (place root (here ++ [y])) as [[c|es|b t|]|] eqn:P; [|apply IH| | |discriminate]).
  1, 3, 4, 6: destruct todo; [intros [= <- <-]; lia|discriminate].
  - discriminate.
  - intros H. apply IHl in H. lia.
Qed.

(** Heights. *)
Lemma height_in es x m : In (x, m) es -> (height m < height (LDir es))%nat.
Proof.
  cbn [height]. set (go := fix go (l : list (str * lnode)) : nat := match l with [] => O | (_, m) :: l' => Nat.max (height m) (go l') end).
  induction es as [|[y n] es IH]; intros I; [destruct I|]. destruct I as [[= -> ->]|I].
  - change (go ((x, m) :: es)) with (Nat.max (height m) (go es)). lia.
  - specialize (IH I). change (go ((y, n) :: es)) with (Nat.max (height n) (go es)). lia.
Qed.
Lemma child_in n x m : child n x = Some m -> exists es, n = LDir es /\ In (x, m) es.
Proof.
  destruct n as [c|es|b t|]; cbn [child]; try discriminate.
  destruct (find (fun y => str_eqb (fst y) x) es) as [[y n]|] eqn:E; [|discriminate]. apply find_some in E as [I E].
  cbn in E. apply str_eqb_eq in E. subst y. intros [= <-]. exists es. auto.
Qed.
Lemma place_height n : forall real m, place n real = Some m -> (height m <= height n)%nat.
Proof.
  intros real. revert n. induction real as [|x real IH]; intros n m; cbn [place]; [intros [= <-]; lia|].
  destruct (child n x) as [m'|] eqn:E; [|discriminate]. intros H. apply IH in H.
  apply child_in in E as (es & -> & I). apply height_in in I. lia.
Qed.
Lemma follow_step root left real x real' left' es : str_eqb x $"." = false -> str_eqb x $".." = false ->
  follow root left real [x] = At real' left' -> place root real = Some (LDir es) ->
  real' = real ++ [x] /\ left' = left /\ (exists m, In (x, m) es /\ place root real' = Some m) \/
  (left' < left)%nat /\ exists m, In (x, m) es.
Proof.
  intros X1 X2 F P. rewrite follow_eq, X1, X2, place_app, P in F.
  destruct (child (LDir es) x) as [m|] eqn:C; [|discriminate]. pose proof C as C'. apply child_in in C' as (? & [= <-] & I).
  destruct m as [c|es'|b t|].
  - injection F as <- <-. left. split; [reflexivity|]. split; [reflexivity|]. exists (LFile c). rewrite place_app, P. auto.
  - rewrite follow_eq in F. injection F as <- <-. left. split; [reflexivity|]. split; [reflexivity|]. exists (LDir es'). rewrite place_app, P. auto.
  - destruct left; [discriminate|]. apply follow_less in F. right. split; [lia|]. eauto.
  - injection F as <- <-. left. split; [reflexivity|]. split; [reflexivity|]. exists LOther. rewrite place_app, P. auto.
Qed.
