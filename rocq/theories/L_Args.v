(** Lemmas about the command line (C100): words. *)
From Coq Require Import List Bool Ascii String ZArith Lia.
From Verif Require Import PyBase PyFacts M_Main M_Args S_Elf S_Signature S_Args.
Import ListNotations.
Open Scope Z_scope.
Open Scope list_scope.

(** * The table *)
Lemma lookup_In s o : dget str_eqb s option_string_actions = Some o -> In (s, o) option_string_actions.
Proof. apply dget_In. exact str_eqb_eq. Qed.
Ltac cases I := cbn in I; repeat match type of I with _ \/ _ => destruct I as [I|I] end; try contradiction.
Lemma letter_lookup o c : letter o c <-> dget str_eqb [dash; c] option_string_actions = Some o.
Proof.
  split.
  - intros (n & b & I). cases I; injection I as; subst; try discriminate; vm_compute; reflexivity.
  - intros H. apply lookup_In in H. cases H; injection H as; subst; try discriminate; (eexists _, _; cbn; tauto).
Qed.
Lemma named_lookup o n : named o n <-> dget str_eqb ($"--" ++ n) option_string_actions = Some o.
Proof.
  split.
  - intros (c & s & b & I & ->). cases I; injection I as; subst; vm_compute; reflexivity.
  - intros H. apply lookup_In in H. cases H; injection H as; subst; try discriminate; (eexists _, _, _; split; [cbn; tauto|reflexivity]).
Qed.
Lemma valued_stores o : valued o <-> stores o = true.
Proof.
  split.
  - intros (c & n & I). cases I; injection I as; subst; try discriminate; reflexivity.
  - destruct o; intros H; try discriminate; (eexists _, _; cbn; tauto).
Qed.
Lemma flag_stores o : flag o <-> stores o = false.
Proof.
  split.
  - intros (c & n & I). cases I; injection I as; subst; try discriminate; reflexivity.
  - destruct o; intros H; try discriminate; (eexists _, _; cbn; tauto).
Qed.
Lemma letter_ok o c : letter o c -> c <> "-"%char /\ c <> "="%char.
Proof. intros (n & b & I). cases I; injection I as; subst; split; discriminate. Qed.
Lemma letter_fun o o' c : letter o c -> letter o' c -> o = o'.
Proof. rewrite !letter_lookup. congruence. Qed.
Lemma named_name o n n' : named o n -> named o n' -> n = n'.
Proof.
  intros (c & s & b & I & ->) (c' & s' & b' & I' & ->). cases I; injection I as; subst; cases I'; injection I' as; subst; try discriminate; reflexivity.
Qed.
Lemma named_ok o n : named o n -> n <> [] /\ no_equals n.
Proof.
  intros (c & s & b & I & ->). cases I; injection I as; subst; (split; [discriminate|]); intros X; cbn in X; repeat destruct X as [X|X]; discriminate || contradiction.
Qed.
Lemma table_In s o : In (s, o) option_string_actions <-> (exists c, s = [dash; c] /\ letter o c) \/ exists n, s = $"--" ++ n /\ named o n.
Proof.
  split.
  - intros I. assert (dget str_eqb s option_string_actions = Some o) as D by (cases I; injection I as; subst; vm_compute; reflexivity).
    assert ((exists c, s = [dash; c] /\ c <> dash) \/ exists n, s = $"--" ++ n) as [(c & E & _)|(n & E)].
    { clear D. cases I; injection I as; subst; first [left; eexists; split; [reflexivity|discriminate]|right; eexists; reflexivity]. }
    + left. exists c. split; [exact E|]. apply letter_lookup. now rewrite <- E.
    + right. exists n. split; [exact E|]. apply named_lookup. now rewrite <- E.
  - intros [(c & -> & L)|(n & -> & L)]; [apply letter_lookup in L|apply named_lookup in L]; now apply lookup_In.
Qed.
Lemma table_nodup : NoDup (map fst option_string_actions).
Proof.
  assert (forall l : list str, (if (fix nd (l : list str) : bool := match l with [] => true | x :: l' => negb (existsb (str_eqb x) l') && nd l' end) l then True else False) -> NoDup l) as H.
  { induction l as [|x l IH]; intros H; constructor.
    - intros I. assert (existsb (str_eqb x) l = true) as E by (apply existsb_exists; exists x; split; [exact I|now apply str_eqb_eq]). rewrite E in H. exact H.
    - apply IH. destruct (existsb (str_eqb x) l); [contradiction|exact H]. }
  apply H. vm_compute. exact I.
Qed.

(** * Cutting at "=" *)
Lemma partition_none p : no_equals p -> partition_eq p = (p, None).
Proof.
  intros N. induction p as [|c p IH]; [reflexivity|]. cbn [partition_eq]. destruct (Ascii.eqb_spec c "="%char) as [->|E]; [elim N; now left|].
  rewrite IH; [reflexivity|]. intros I. apply N. now right.
Qed.
Lemma partition_some p v : no_equals p -> partition_eq (p ++ $"=" ++ v) = (p, Some v).
Proof.
  intros N. induction p as [|c p IH]; [reflexivity|]. cbn [partition_eq app]. destruct (Ascii.eqb_spec c "="%char) as [->|E]; [elim N; now left|].
  change (p ++ "="%char :: v) with (p ++ $"=" ++ v). rewrite IH; [reflexivity|]. intros I. apply N. now right.
Qed.
Lemma partition_cases s : (exists p v, s = p ++ $"=" ++ v /\ no_equals p) \/ no_equals s.
Proof.
  induction s as [|c s IH]; [right; intros []|]. destruct (ascii_dec c "="%char) as [->|E]; [left; now exists [], s|].
  destruct IH as [(p & v & -> & N)|N]; [left; exists (c :: p), v; split; [reflexivity|]|right]; intros [X|X]; now auto.
Qed.
Lemma long_no_equals p : no_equals p -> no_equals ($"--" ++ p).
Proof. intros N [X|[X|X]]; [discriminate|discriminate|now apply N]. Qed.

(** * Names *)
Definition matching (p : str) : list (str * opt) := filter (fun x => startswith (fst x) ($"--" ++ p)) option_string_actions.
Lemma matching_In p s o : In (s, o) (matching p) <-> exists r, s = $"--" ++ p ++ r /\ named o (p ++ r).
Proof.
  unfold matching. rewrite filter_In. cbn [fst]. rewrite startswith_iff, table_In. split.
  - intros [[(c & -> & L)|(n & -> & L)] (t & E)].
    + apply letter_ok in L as [L _]. injection E as E _. now elim L.
    + exists t. apply (app_inv_head ($"--")) in E. subst n. split; [reflexivity|exact L].
  - intros (r & -> & N). split; [right; now exists (p ++ r)|]. exists r. reflexivity.
Qed.
Lemma NoDup_filter {A} (f : A -> bool) l : NoDup l -> NoDup (filter f l).
Proof. apply NoDup_filter. Qed.
Lemma matching_cases p :
  (matching p = [] /\ forall o, ~ begins p o) \/
  (exists s o, matching p = [(s, o)] /\ (exists x, s = $"--" ++ x) /\ begins p o /\ forall o', begins p o' -> o' = o) \/
  (exists x y l, matching p = x :: y :: l /\ exists o o', begins p o /\ begins p o' /\ o <> o').
Proof.
  destruct (matching p) as [|(s & o) [|(s' & o') l]] eqn:E.
  - left. split; [reflexivity|]. intros o (r & N). assert (In ($"--" ++ p ++ r, o) (matching p)) as I by (apply matching_In; now exists r). rewrite E in I. exact I.
  - right. left. exists s, o. split; [reflexivity|]. assert (In (s, o) (matching p)) as I by (rewrite E; now left). apply matching_In in I as (r & -> & N).
    split; [eexists; reflexivity|]. split; [now exists r|]. intros o' (r' & N'). assert (In ($"--" ++ p ++ r', o') (matching p)) as I' by (apply matching_In; now exists r'). rewrite E in I'.
    destruct I' as [X|[]]. now injection X.
  - right. right. eexists _, _, _. split; [reflexivity|]. exists o, o'.
    assert (In (s, o) (matching p)) as I by (rewrite E; now left). assert (In (s', o') (matching p)) as I' by (rewrite E; right; now left).
    apply matching_In in I as (r & E1 & N). apply matching_In in I' as (r' & E2 & N'). split; [now exists r|]. split; [now exists r'|]. intros ->.
    pose proof (named_name _ _ _ N N') as X. assert (s = s') as -> by congruence.
    assert (NoDup (matching p)) as D by (apply NoDup_filter; apply (NoDup_map_inv fst); exact table_nodup). rewrite E in D. inversion D as [|? ? D1 _]. apply D1. now left.
Qed.
Definition name_tuple (e : option str) (x : str * opt) : option_tuple :=
  (Some (snd x), fst x, match e with Some _ => Some $"=" | None => None end, e).
Lemma tuples_long p t e : no_equals p -> (t = [] /\ e = None \/ exists v, t = $"=" ++ v /\ e = Some v) ->
  get_option_tuples ($"--" ++ p ++ t) = map (name_tuple e) (matching p).
Proof.
  intros N T. assert (partition_eq ($"--" ++ p ++ t) = ($"--" ++ p, e)) as P.
  { destruct T as [[-> ->]|(v & -> & ->)]; [rewrite app_nil_r; now apply partition_none, long_no_equals|].
    rewrite app_assoc. now apply partition_some, long_no_equals. }
  unfold get_option_tuples. change ($"--" ++ p ++ t) with ("-"%char :: "-"%char :: (p ++ t)) at 1. cbv iota beta zeta.
  change (is_dash "-"%char) with true. cbv iota. change ("-"%char :: "-"%char :: p ++ t) with ($"--" ++ p ++ t). rewrite P. unfold matching.
  generalize option_string_actions. intros l. induction l as [|(s & o) l IH]; [reflexivity|]. cbn [flat_map filter fst].
  destruct (startswith s ($"--" ++ p)); [cbn [map app fst snd]; now rewrite IH|exact IH].
Qed.
Lemma tuples_short c r : c <> "-"%char -> r <> [] \/ (forall o, ~ letter o c) ->
  get_option_tuples ("-"%char :: c :: r) = match dget str_eqb [dash; c] option_string_actions with Some o => [(Some o, [dash; c], Some [], Some r)] | None => [] end.
Proof.
  intros N R. unfold get_option_tuples. destruct (Ascii.eqb_spec c dash) as [->|_]; [now elim N|]. unfold is_dash. destruct (Ascii.eqb_spec c dash) as [->|_]; [now elim N|].
  assert (forall s o, In (s, o) option_string_actions -> str_eqb s [dash; c] = false -> startswith s ("-"%char :: c :: r) = false) as F.
  { intros s o I E. destruct (startswith s _) eqn:S; [|reflexivity]. exfalso. apply startswith_iff in S as (t & ->). apply table_In in I as [(d & X & L)|(n & X & L)].
    - injection X as <- X. destruct R as [R|R]; [|now apply (R o)]. destruct r; [now apply R|discriminate X].
    - injection X as X _. now apply N. }
  pose proof table_nodup as D. revert F D. generalize option_string_actions. intros l F D.
  induction l as [|(s & o) l IH]; [reflexivity|]. cbn [flat_map dget].
  cbn [map fst] in D. inversion D as [|? ? D1 D2]; subst. 
  destruct (str_eqb s [dash; c]) eqn:E.
  - apply str_eqb_eq in E as ->. rewrite (proj2 (str_eqb_eq [dash; c] [dash; c]) eq_refl). cbn [app]. f_equal.
    clear IH. assert (forall x, In x l -> str_eqb (fst x) [dash; c] = false) as Q.
    { intros x I. destruct (str_eqb (fst x) _) eqn:X; [|reflexivity]. apply str_eqb_eq in X. elim D1. rewrite <- X. now apply in_map. }
    clear D D1 D2. induction l as [|(s & o') l IH]; [reflexivity|]. cbn [flat_map]. pose proof (Q (s, o') (or_introl eq_refl)) as Q1. cbn [fst] in Q1. rewrite Q1.
    rewrite (F s o'); [|right; now left|exact Q1]. apply IH; [|intros x I; apply Q; now right]. intros s' o2 [I|I]; apply (F s' o2); [now left|right; now right].
  - rewrite (F s o); [|now left|exact E]. assert (str_eqb [dash; c] s = false) as ->.
    { destruct (str_eqb [dash; c] s) eqn:X; [|reflexivity]. apply str_eqb_eq in X as <-. rewrite (proj2 (str_eqb_eq [dash; c] [dash; c]) eq_refl) in E. discriminate. }
    apply IH; [|exact D2]. intros s' o2 I. apply (F s' o2). now right.
Qed.
