(** Lemmas about the command line (C100): what a word is. *)
From Coq Require Import List Bool Ascii String ZArith Lia.
From Verif Require Import PyBase PyFacts M_Main M_Args S_Elf S_Signature S_Args L_Args.
Import ListNotations.
Open Scope Z_scope.
Open Scope list_scope.

(** * Numbers and spaces *)
Lemma skip_digits_spec s : exists a, s = a ++ skip_digits s /\ forallb is_dec a = true /\ match skip_digits s with [] => True | c :: _ => is_dec c = false end.
Proof.
  induction s as [|c s (a & IH1 & IH2 & IH3)]; [now exists []|]. cbn [skip_digits]. destruct (is_dec c) eqn:D.
  - exists (c :: a). cbn [app forallb]. rewrite D, IH2. split; [now f_equal|auto].
  - exists []. auto.
Qed.
Lemma skip_digits_app a t : forallb is_dec a = true -> match t with [] => True | c :: _ => is_dec c = false end -> skip_digits (a ++ t) = t.
Proof.
  intros A T. induction a as [|c a IH]; cbn [app].
  - destruct t as [|c t]; [reflexivity|]. cbn [skip_digits]. now rewrite T.
  - cbn [forallb] in A. apply andb_true_iff in A as [A1 A2]. cbn [skip_digits]. rewrite A1. now apply IH.
Qed.
Lemma at_end_iff s : at_end s = true <-> s = [] \/ s = [NL].
Proof.
  destruct s as [|c [|d s]]; cbn; [tauto| |].
  - rewrite Ascii.eqb_eq. split; [intros ->; now right|intros [H|H]; [discriminate|now injection H]].
  - split; [discriminate|intros [H|H]; discriminate].
Qed.
Lemma digits_to_end_iff s : digits_to_end s = true <-> exists a n, s = a ++ n /\ some_of is_dec a /\ (n = [] \/ n = [NL]).
Proof.
  split.
  - intros H. destruct (skip_digits_spec s) as (a & E & A & T). exists a, (skip_digits s). split; [exact E|]. unfold digits_to_end in H. destruct s as [|c s]; [discriminate|].
    apply andb_true_iff in H as [D H]. apply at_end_iff in H. split; [|exact H]. split; [|exact A]. intros ->. cbn [app] in E. rewrite <- E in T. congruence.
  - intros (a & n & -> & (N & A) & E). destruct a as [|c a]; [congruence|]. unfold digits_to_end. cbn [app]. change (c :: a ++ n) with ((c :: a) ++ n).
    rewrite skip_digits_app; [|exact A|destruct E as [-> | ->]; [exact I|reflexivity]]. apply andb_true_iff. split; [cbn in A; now apply andb_true_iff in A as [A _]|now apply at_end_iff].
Qed.
Lemma number_iff w : negative_number w = true <-> number w.
Proof.
  split.
  - unfold negative_number. destruct w as [|c w]; [discriminate|]. intros H. apply andb_true_iff in H as [D H]. apply Ascii.eqb_eq in D as ->. apply orb_true_iff in H as [H|H].
    + apply digits_to_end_iff in H as (a & n & -> & (N & A) & E). exists a, [], n. auto 10.
    + destruct (skip_digits_spec w) as (a & Ew & A & _). destruct (skip_digits w) as [|d s]; [discriminate|]. apply andb_true_iff in H as [D H]. apply Ascii.eqb_eq in D as ->.
      apply digits_to_end_iff in H as (b & n & -> & B & E). exists a, ($"." ++ b), n. rewrite Ew. split; [now rewrite <- app_assoc|]. split; [exact E|]. split; [exact A|]. right. now exists b.
  - intros (a & b & n & -> & E & A & B). unfold negative_number. cbn [app list_ascii_of_string]. apply andb_true_iff. split; [reflexivity|]. apply orb_true_iff.
    destruct B as [[N ->]|(d & -> & D)].
    + left. apply digits_to_end_iff. exists a, n. repeat split; auto.
    + right. rewrite <- app_assoc. rewrite skip_digits_app; [|exact A|reflexivity]. cbn [app list_ascii_of_string]. apply andb_true_iff. split; [reflexivity|]. apply digits_to_end_iff. now exists d, n.
Qed.
Lemma spaced_iff w : contains w $" " = true <-> spaced w.
Proof.
  rewrite contains_iff. unfold spaced. split.
  - intros (a & b & ->). apply in_or_app. right. now left.
  - intros I. apply in_split in I as (a & b & ->). now exists a, b.
Qed.

(** * parse_optional *)
Lemma lookup_letter c r : c <> "-"%char -> r <> [] -> dget str_eqb ("-"%char :: c :: r) option_string_actions = None.
Proof.
  intros N R. destruct (dget _ _ _) as [o|] eqn:D; [|reflexivity]. apply lookup_In, table_In in D as [(d & E & _)|(n & E & _)].
  - injection E as _ E. now elim R.
  - injection E as E _. now elim N.
Qed.
Definition letter_tuple (o : opt) (c : ascii) (r : str) : option_tuple :=
  match r with
  | [] => (Some o, [dash; c], None, None)
  | d :: v => if Ascii.eqb d "="%char then (Some o, [dash; c], Some $"=", Some v) else (Some o, [dash; c], Some [], Some r)
  end.
Lemma po_letter o c r : letter o c -> parse_optional ("-"%char :: c :: r) = inr (Some (letter_tuple o c r)).
Proof.
  intros L. pose proof (proj1 (letter_lookup o c) L) as D. pose proof (letter_ok _ _ L) as [N1 N2]. unfold parse_optional. change (is_dash "-"%char) with true. cbn [negb].
  destruct r as [|d r]; [change ["-"%char; c] with [dash; c]; now rewrite D|]. rewrite lookup_letter; [|exact N1|discriminate].
  unfold letter_tuple. destruct (Ascii.eqb_spec d "="%char) as [->|E].
  - change ("-"%char :: c :: "="%char :: r) with ([dash; c] ++ $"=" ++ r). rewrite partition_some; [now rewrite D|]. intros [X|[X|[]]]; [discriminate X|now apply N2].
  - assert (match partition_eq ("-"%char :: c :: d :: r) with (s, Some e) => dget str_eqb s option_string_actions | _ => None end = None) as P.
    { destruct (partition_cases (d :: r)) as [(p & v & X & P)|P].
      - change ("-"%char :: c :: d :: r) with ([dash; c] ++ d :: r). rewrite X, app_assoc. rewrite partition_some.
        + destruct p as [|d' p]; [injection X as X _; now elim E|]. apply lookup_letter; [exact N1|discriminate].
        + intros I. apply in_app_or in I as [[I|[I|[]]]|I]; [discriminate I|now apply N2|now apply P].
      - rewrite partition_none; [reflexivity|]. intros [X|[X|X]]; [discriminate X|now apply N2|now apply P]. }
    assert (other_word ("-"%char :: c :: d :: r) = inr (Some (Some o, [dash; c], Some [], Some (d :: r)))) as O.
    { unfold other_word. rewrite tuples_short; [now rewrite D|exact N1|left; discriminate]. }
    destruct (partition_eq _) as (s & [e|]); [now rewrite P|exact O].
Qed.
Lemma odd_iff w : odd_word w = inr None <-> number w \/ spaced w.
Proof. rewrite <- number_iff, <- spaced_iff. unfold odd_word. destruct (negative_number w), (contains w $" "); split; auto; try discriminate; intros [H|H]; discriminate. Qed.
Lemma odd_cases w : odd_word w = inr None \/ odd_word w = inr (Some (None, w, None, None)) /\ ~ number w /\ ~ spaced w.
Proof. rewrite <- number_iff, <- spaced_iff. unfold odd_word. destruct (negative_number w), (contains w $" "); auto. Qed.
Lemma po_no_letter c r : c <> "-"%char -> (forall o, ~ letter o c) ->
  parse_optional ("-"%char :: c :: r) = odd_word ("-"%char :: c :: r).
Proof.
  intros N L. unfold parse_optional. change (is_dash "-"%char) with true. cbn [negb].
  assert (dget str_eqb [dash; c] option_string_actions = None) as D by (destruct (dget _ _ _) as [o|] eqn:X; [elim (L o); now apply letter_lookup|reflexivity]).
  assert (forall t, dget str_eqb ("-"%char :: c :: t) option_string_actions = None) as D'.
  { intros [|d t]; [exact D|]. apply lookup_letter; [exact N|discriminate]. }
  rewrite D'. assert (other_word ("-"%char :: c :: r) = odd_word ("-"%char :: c :: r)) as O by (unfold other_word; rewrite tuples_short, D; [reflexivity|exact N|now right]).
  assert (forall s (e : option str), partition_eq ("-"%char :: c :: r) = (s, e) -> e <> None -> dget str_eqb s option_string_actions = None) as P.
  { intros s e X Y. cbn [partition_eq] in X. change (Ascii.eqb "-" "=") with false in X. cbv iota in X. destruct (Ascii.eqb c "=").
    - injection X as <- <-. vm_compute. reflexivity.
    - destruct (partition_eq r) as (a & b). injection X as <- <-. apply D'. }
  destruct (partition_eq ("-"%char :: c :: r)) as (s & [e|]) eqn:X; [|exact O]. rewrite (P s (Some e)); [exact O|reflexivity|discriminate].
Qed.
Definition cut (t : str) (e : option str) : Prop := t = [] /\ e = None \/ exists v, t = $"=" ++ v /\ e = Some v.
Lemma po_long p t e : no_equals p -> cut t e -> p <> [] \/ e <> None ->
  parse_optional ($"--" ++ p ++ t) =
  match dget str_eqb ($"--" ++ p) option_string_actions with
  | Some o => inr (Some (name_tuple e ($"--" ++ p, o)))
  | None => match matching p with
            | _ :: _ :: _ => inl SError
            | [x] => inr (Some (name_tuple e x))
            | [] => odd_word ($"--" ++ p ++ t)
            end
  end.
Proof.
  intros N T Ne. pose proof (tuples_long p t e N T) as Tu.
  unfold parse_optional. change ($"--" ++ p ++ t) with ("-"%char :: "-"%char :: (p ++ t)) at 1. cbv iota beta. change (negb (is_dash "-"%char)) with false. cbv iota.
  change ("-"%char :: "-"%char :: p ++ t) with ($"--" ++ p ++ t).
  assert (other_word ($"--" ++ p ++ t) =
    match matching p with _ :: _ :: _ => inl SError | [x] => inr (Some (name_tuple e x)) | [] => odd_word ($"--" ++ p ++ t) end) as Q.
  { unfold other_word. rewrite Tu. destruct (matching p) as [|x [|y l]]; reflexivity. }
  rewrite Q. clear Q Tu. destruct T as [[-> ->]|(v & -> & ->)].
  - rewrite app_nil_r. rewrite partition_none by now apply long_no_equals.
    destruct (dget str_eqb ($"--" ++ p) option_string_actions); reflexivity.
  - rewrite app_assoc. rewrite partition_some by now apply long_no_equals.
    assert (dget str_eqb (($"--" ++ p) ++ $"=" ++ v) option_string_actions = None) as ->; [|reflexivity].
    destruct (dget str_eqb (($"--" ++ p) ++ $"=" ++ v) option_string_actions) as [o|] eqn:D; [|reflexivity]. exfalso. rewrite <- app_assoc in D. apply named_lookup in D. apply named_ok in D as [_ D]. apply D.
    apply in_or_app. right. now left.
Qed.

(** * Kinds of words *)
Lemma abbreviates_ne p o : abbreviates p o -> p <> [].
Proof.
  intros (_ & [N|(_ & U)]) ->; [now apply named_ok in N as [N _]|]. assert (OKdir = OArch) as X; [|discriminate]. transitivity o; [|symmetry]; apply U.
  - exists $"kdir". eexists _, _, _. split; [cbn; tauto|reflexivity].
  - exists $"arch". eexists _, _, _. split; [cbn; tauto|reflexivity].
Qed.
Lemma several_begins p : several p <-> (forall o, ~ named o p) /\ exists o o', begins p o /\ begins p o' /\ o <> o'.
Proof. reflexivity. Qed.
Lemma po_strange w : strange w -> parse_optional w = odd_word w.
Proof.
  intros [(c & t & -> & N & L)|(p & t & -> & N & T & B)]; [exact (po_no_letter c t N L)|].
  assert (exists e, cut t e /\ (p <> [] \/ e <> None)) as (e & C & X).
  { destruct T as [(-> & Np)|(v & ->)]; [exists None; split; [now left|now left]|exists (Some v); split; [right; now exists v|right; discriminate]]. }
  rewrite (po_long p t e N C X). destruct (dget _ _ _) as [o|] eqn:D; [apply named_lookup in D; elim (B o); exists []; now rewrite app_nil_r|].
  destruct (matching_cases p) as [(-> & _)|[(s & o & _ & _ & Bo & _)|(x & y & l & _ & o & o' & Bo & _)]]; [reflexivity|now elim (B o)|now elim (B o)].
Qed.
Lemma po_argument w : argument w -> parse_optional w = inr None.
Proof.
  intros [|c t N| |w' S O]; [reflexivity| |vm_compute; reflexivity|].
  - cbn [parse_optional]. unfold is_dash. destruct (Ascii.eqb_spec c dash) as [->|_]; [now elim N|reflexivity].
  - rewrite po_strange by exact S. now apply odd_iff.
Qed.
Lemma po_unknown w : unknown w -> parse_optional w = inr (Some (None, w, None, None)).
Proof.
  intros (S & N1 & N2). rewrite po_strange by exact S. destruct (odd_cases w) as [O|[O _]]; [|exact O]. apply odd_iff in O as [O|O]; contradiction.
Qed.
Lemma po_ambiguous w : ambiguous w -> parse_optional w = inl SError.
Proof.
  intros (p & t & -> & N & T & (E & o & o' & B & B' & Ne)).
  assert (exists e, cut t e /\ (p <> [] \/ e <> None)) as (e & C & X).
  { destruct T as [(-> & Np)|(v & ->)]; [exists None; split; [now left|now left]|exists (Some v); split; [right; now exists v|right; discriminate]]. }
  rewrite (po_long p t e N C X). destruct (dget _ _ _) as [q|] eqn:D; [apply named_lookup in D; now elim (E q)|].
  destruct (matching_cases p) as [(_ & Bn)|[(s & q & _ & _ & _ & U)|(x & y & l & -> & _)]]; [now elim (Bn o)| |reflexivity].
  elim Ne. rewrite (U o B). symmetry. now apply U.
Qed.
Lemma po_name p o t e : abbreviates p o -> cut t e -> exists x, parse_optional ($"--" ++ p ++ t) = inr (Some (name_tuple e ($"--" ++ x, o))).
Proof.
  intros A C. pose proof (abbreviates_ne _ _ A) as Ne. destruct A as (N & A). rewrite (po_long p t e N C (or_introl Ne)).
  destruct (dget _ _ _) as [q|] eqn:D.
  - apply named_lookup in D. exists p. destruct A as [A|(_ & U)].
    + apply named_lookup in A, D. rewrite D in A. now injection A as ->.
    + rewrite (U q); [reflexivity|]. exists []. now rewrite app_nil_r.
  - destruct A as [A|(B & U)]; [apply named_lookup in A; congruence|].
    destruct (matching_cases p) as [(_ & Bn)|[(s & q & -> & (x & ->) & Bq & _)|(x & y & l & _ & q & q' & Bq & Bq' & X)]]; [now elim (Bn o)| |].
    + exists x. now rewrite (U q Bq).
    + elim X. rewrite (U q Bq). symmetry. now apply U.
Qed.
Inductive kind : str -> result (option option_tuple) -> Prop :=
| k_arg w : argument w -> kind w (inr None)
| k_letter o c r : letter o c -> kind ("-"%char :: c :: r) (inr (Some (letter_tuple o c r)))
| k_name p o t e x : abbreviates p o -> cut t e -> kind ($"--" ++ p ++ t) (inr (Some (name_tuple e ($"--" ++ x, o))))
| k_unknown w : unknown w -> kind w (inr (Some (None, w, None, None)))
| k_ambiguous w : ambiguous w -> kind w (inl SError).
Lemma po_kind w : w <> $"--" -> kind w (parse_optional w).
Proof.
  intros Nd. assert (forall w, strange w -> kind w (parse_optional w)) as St.
  { intros x S. rewrite po_strange by exact S. destruct (odd_cases x) as [O|(O & N1 & N2)]; rewrite O.
    - apply k_arg, arg_odd; [exact S|now apply odd_iff].
    - apply k_unknown. now split. }
  destruct w as [|c w]; [apply k_arg, arg_empty|]. destruct (ascii_dec c "-"%char) as [->|N]; [|rewrite po_argument by (now apply arg_plain); now apply k_arg, arg_plain].
  destruct w as [|c w]; [apply k_arg, arg_dash|]. destruct (ascii_dec c "-"%char) as [->|N].
  - assert (exists p t e, w = p ++ t /\ no_equals p /\ cut t e /\ (p <> [] \/ e <> None)) as (p & t & e & -> & P & C & X).
    { destruct (partition_cases w) as [(p & v & -> & P)|P].
      - exists p, ($"=" ++ v), (Some v). split; [reflexivity|]. split; [exact P|]. split; [right; now exists v|right; discriminate].
      - exists w, [], None. split; [now rewrite app_nil_r|]. split; [exact P|]. split; [now left|left]. intros ->. now apply Nd. }
    assert (t = [] /\ p <> [] \/ exists v, t = $"=" ++ v) as T.
    { destruct C as [[-> ->]|(v & -> & ->)]; [left; split; [reflexivity|]; destruct X; congruence|right; now exists v]. }
    change ("-"%char :: "-"%char :: p ++ t) with ($"--" ++ p ++ t).
    destruct (dget str_eqb ($"--" ++ p) option_string_actions) as [o|] eqn:D.
    + rewrite (po_long p t e P C X), D. apply named_lookup in D. apply (k_name p o t e p); [|exact C]. split; [exact P|now left].
    + destruct (matching_cases p) as [(M & B)|[(s & o & M & (x & ->) & B & U)|(x & y & l & M & o & o' & B & B' & U)]].
      * apply St. right. exists p, t. auto.
      * rewrite (po_long p t e P C X), D, M. apply (k_name p o t e x); [|exact C]. split; [exact P|right; now split].
      * rewrite (po_long p t e P C X), D, M. apply k_ambiguous. exists p, t. split; [reflexivity|]. split; [exact P|]. split; [exact T|]. split; [|now exists o, o'].
        intros q Q. apply named_lookup in Q. congruence.
  - destruct (dget str_eqb [dash; c] option_string_actions) as [o|] eqn:D.
    + apply letter_lookup in D. rewrite (po_letter o c w D). now apply k_letter.
    + apply St. left. exists c, w. split; [reflexivity|]. split; [exact N|]. intros o L. apply letter_lookup in L. congruence.
Qed.
Lemma argument_not_dashes w : argument w -> w <> $"--".
Proof. intros A ->. apply po_argument in A. vm_compute in A. discriminate. Qed.
