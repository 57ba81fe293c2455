(** Lemmas about editing the kernel's configuration. *)
From Coq Require Import List Bool Ascii String ZArith Lia.
From Verif Require Import PyBase PyFacts M_Utils M_KconfigTables M_Arch M_Kconfig M_Build M_Config S_Utils S_Config L_Utils.
Import ListNotations.
Open Scope Z_scope.
Open Scope list_scope.

(** ** Options *)

Lemma asks_iff o name val : split_char1 EQ o = Some (name, val) <-> asks o name val.
Proof. unfold asks. apply split_char1_Some. Qed.
Lemma asks_fun o n v n' v' : asks o n v -> asks o n' v' -> n = n' /\ v = v'.
Proof. rewrite <- !asks_iff. intros -> [= -> ->]. auto. Qed.
Lemma asks_or o : (exists n v, asks o n v) \/ ~ In "="%char o.
Proof.
  destruct (split_char1 EQ o) as [[n v]|] eqn:E; [left; exists n, v; now apply asks_iff|right].
  now apply split_char1_None in E.
Qed.
Lemma asks_in o n v : asks o n v -> In "="%char o.
Proof. intros [-> _]. apply in_or_app. right. now left. Qed.

Lemma written_iff o args : option_argv o = Ok args <-> written o args.
Proof.
  unfold option_argv. split.
  - destruct (split_char1 EQ o) as [[n v]|] eqn:E; [|discriminate]. apply asks_iff in E.
    destruct (str_eqb v $"y") eqn:Y; [apply str_eqb_eq in Y; subst; intros [= <-]; now constructor|].
    destruct (str_eqb v $"n") eqn:N; [apply str_eqb_eq in N; subst; intros [= <-]; now constructor|].
    destruct (str_eqb v $"m") eqn:M; [apply str_eqb_eq in M; subst; intros [= <-]; now constructor|].
    apply str_eqb_neq in Y, N, M. intros [= <-]. now constructor.
  - intros [o0 n A|o0 n A|o0 n A|o0 n v A Y N M]; apply asks_iff in A; rewrite A; try reflexivity.
    apply str_eqb_neq in Y, N, M. now rewrite Y, N, M.
Qed.
Lemma option_argv_fail o : ~ In "="%char o -> option_argv o = Raise ValueError.
Proof. intros H. unfold option_argv. apply (split_char1_None EQ) in H. now rewrite H. Qed.
Lemma written_ok o : In "="%char o -> exists args, option_argv o = Ok args.
Proof.
  intros H. unfold option_argv. destruct (split_char1 EQ o) as [[n v]|] eqn:E; [eauto|].
  apply split_char1_None in E. contradiction.
Qed.

Lemma ensure_must ev argv cwd stdin h : exists res,
  ensure ev argv cwd stdin h = (h ++ [Ran (Command argv cwd None)], res) /\
  match e_run ev h (Command argv cwd None) with
  | None => res = Exit 127
  | Some (rc, out) => (rc = 0 /\ res = Ok out) \/ (rc <> 0 /\ res = Exit 1)
  end.
Proof.
  unfold ensure, received. eexists. split; [reflexivity|]. unfold ensure_command.
  destruct (e_run ev h _) as [[rc out]|]; [|reflexivity].
  destruct (Z.eqb_spec rc 0); auto.
Qed.

Lemma edit_nothing ev kdir f h : edit_config ev kdir f [] h = (h, Ok tt).
Proof. reflexivity. Qed.

Lemma Forall2_imp {A B} (P Q : A -> B -> Prop) l m : (forall x y, P x y -> Q x y) -> Forall2 P l m -> Forall2 Q l m.
Proof. intros H. induction 1; constructor; auto. Qed.
Lemma mapM_written options argss : Forall2 written options argss <-> mapM option_argv options = Ok argss.
Proof. rewrite mapM_Ok. split; apply Forall2_imp; intros x y; apply written_iff. Qed.


Lemma edit_command ev kdir f options c h : options <> [] -> applies kdir f options c ->
  exists res, edit_config ev kdir f options h = (h ++ [Ran c], res) /\ must_succeed (e_run ev h c) tt res.
Proof.
  intros N (argss & F & ->). apply mapM_written in F. unfold edit_config. destruct options as [|o os]; [congruence|].
  unfold io_bind at 1, io_ret at 1. rewrite F. unfold io_bind, run_config_script.
  destruct (ensure_must ev ([$"./scripts/config"; $"--file"; str_of_path f] ++ List.concat argss) kdir None h) as (r & E & H).
  rewrite E. unfold script, must_succeed. cbn [app] in H |- *.
  destruct (e_run ev h _) as [[rc out]|]; [|subst r; eexists; split; reflexivity].
  destruct H as [[R ->]|[R ->]]; eexists; (split; [reflexivity|]); auto.
Qed.

Lemma applies_or kdir f options : (exists c, applies kdir f options c) \/ exists o, In o options /\ ~ In "="%char o.
Proof.
  induction options as [|o os IH].
  - left. exists (script kdir f []), []. split; [constructor|reflexivity].
  - destruct (asks_or o) as [(n & v & A)|A]; [|right; exists o; split; [now left|exact A]].
    destruct IH as [(c & argss & F & _)|(o' & I & A')]; [left|right; exists o'; split; [now right|exact A']].
    destruct (written_ok o (asks_in _ _ _ A)) as [a W]. apply written_iff in W.
    exists (script kdir f (List.concat (a :: argss))), (a :: argss). split; [now constructor|reflexivity].
Qed.
Lemma applies_not kdir f options o c : In o options -> ~ In "="%char o -> ~ applies kdir f options c.
Proof.
  intros I N (argss & F & _). revert I. induction F as [|x y l m W F IH]; [intros []|].
  intros [->|I]; [|auto]. destruct W as [o' n A|o' n A|o' n A|o' n v A ? ? ?]; exact (N (asks_in _ _ _ A)).
Qed.

Lemma mapM_argv_fail options o : In o options -> ~ In "="%char o -> mapM option_argv options = Raise ValueError.
Proof.
  induction options as [|x l IH]; [intros []|]. intros I N. cbn [mapM].
  destruct (asks_or x) as [(n & v & A)|A].
  - destruct (written_ok x (asks_in _ _ _ A)) as [a ->]. cbn [bind].
    destruct I as [->|I]; [exfalso; exact (N (asks_in _ _ _ A))|]. now rewrite (IH I N).
  - now rewrite (option_argv_fail x A).
Qed.
Lemma edit_malformed ev kdir f options o h : In o options -> ~ In "="%char o ->
  edit_config ev kdir f options h = (h, Raise ValueError).
Proof.
  intros I N. unfold edit_config. destruct options as [|x l]; [destruct I|].
  unfold io_bind, io_ret. now rewrite (mapM_argv_fail _ o I N).
Qed.

(** ** Lines *)

Lemma blank_forallb s : blank s <-> forallb is_space s = true.
Proof. unfold blank. rewrite forallb_forall, Forall_forall. reflexivity. Qed.
Lemma ends_tight x : no_blank_ends is_space x <-> (forall c t, x = c :: t -> is_space c = false) /\ tight_end x.
Proof.
  unfold no_blank_ends, tight_end. split; intros [H1 H2]; split.
  - intros c t ->. exact H1.
  - intros t c ->. rewrite rev_app_distr in H2. exact H2.
  - destruct x as [|c t]; [exact I|exact (H1 c t eq_refl)].
  - destruct (rev x) as [|c t] eqn:R; [exact I|]. apply (H2 (rev t) c).
    apply (f_equal (@rev ascii)) in R. now rewrite rev_involutive in R.
Qed.
Lemma strip_tight l : no_blank_ends is_space (strip l).
Proof.
  unfold strip, strip_by, lstrip_by, rstrip_by. destruct (dropwhile_spec is_space l) as (a & E1 & E2 & E5).
  destruct (dropwhile_spec is_space (rev (dropwhile is_space l))) as (b & E3 & E4 & E6).
  set (m := dropwhile is_space l) in *. set (r := dropwhile is_space (rev m)) in *. split; [|now rewrite rev_involutive].
  apply (f_equal (@rev ascii)) in E3. rewrite rev_involutive, rev_app_distr in E3.
  destruct (rev r) as [|c t] eqn:R; [exact I|]. rewrite E3 in E5. exact E5.
Qed.
Lemma strip_pads l : exists a b, blank a /\ blank b /\ l = a ++ strip l ++ b.
Proof.
  unfold strip, strip_by, lstrip_by, rstrip_by. destruct (dropwhile_spec is_space l) as (a & E1 & E2 & _).
  destruct (dropwhile_spec is_space (rev (dropwhile is_space l))) as (b & E3 & E4 & _).
  exists a, (rev b). split; [now apply blank_forallb|]. split.
  { unfold blank. apply Forall_forall. intros c Hc. rewrite forallb_forall in E4. apply E4. now apply in_rev. }
  apply (f_equal (@rev ascii)) in E3. rewrite rev_involutive, rev_app_distr in E3. rewrite <- E3. exact E1.
Qed.
Lemma strip_iff l x : strip l = x <->
  exists a b, blank a /\ blank b /\ l = a ++ x ++ b /\ (forall c t, x = c :: t -> is_space c = false) /\ tight_end x.
Proof.
  split.
  - intros <-. destruct (strip_pads l) as (a & b & A & B & E). exists a, b. do 3 (split; [assumption|]).
    apply ends_tight. apply strip_tight.
  - intros (a & b & A & B & -> & T). apply strip_by_pad; [now apply blank_forallb|now apply blank_forallb|now apply ends_tight].
Qed.

Lemma tight_end_snoc s c : is_space c = false -> tight_end (s ++ [c]).
Proof. intros H t c' E. apply app_inj_tail in E as [_ <-]. exact H. Qed.
Lemma tight_end_app a b : b <> [] -> tight_end b -> tight_end (a ++ b).
Proof.
  intros N T t c E. destruct (exists_last N) as (b' & d & ->). rewrite app_assoc in E. apply app_inj_tail in E as [_ <-].
  exact (T b' d eq_refl).
Qed.
Lemma tight_end_drop a b : tight_end (a ++ b) -> tight_end b.
Proof. intros T t c ->. apply (T (a ++ t) c). now rewrite app_assoc. Qed.

Lemma strip_nl l : strip (l ++ [NL]) = strip l.
Proof.
  apply strip_iff. destruct (strip_pads l) as (a & b & A & B & E). exists a, (b ++ [NL]). split; [exact A|]. split.
  { apply Forall_app. split; [exact B|]. now repeat constructor. }
  split; [rewrite E at 1; now rewrite <- !app_assoc|]. apply ends_tight. apply strip_tight.
Qed.

Lemma universal_line l t : ~ In CR l -> universal (l ++ t) = l ++ universal t.
Proof.
  induction l as [|c l IH]; intros N; [reflexivity|]. cbn [app universal].
  destruct (Ascii.eqb_spec c CR) as [->|_]; [exfalso; apply N; now left|]. rewrite IH by (intros X; apply N; now right). reflexivity.
Qed.
Lemma lines_keep_line l r : ~ In NL l -> lines_keep (l ++ NL :: r) = (l ++ [NL]) :: lines_keep r.
Proof.
  induction l as [|c l IH]; intros H; [reflexivity|]. cbn [app lines_keep]. destruct (Ascii.eqb_spec c NL) as [->|N]; [exfalso; apply H; now left|].
  rewrite IH by (intros X; apply H; now right). reflexivity.
Qed.
Lemma lines_keep_last l : l <> [] -> ~ In NL l -> lines_keep l = [l].
Proof.
  induction l as [|c l IH]; intros N H; [congruence|]. cbn [lines_keep].
  destruct (Ascii.eqb_spec c NL) as [->|X]; [exfalso; apply H; now left|].
  destruct l as [|d l]; [reflexivity|]. rewrite IH; [reflexivity|discriminate|intros Y; apply H; now right].
Qed.
Lemma stripped_lines text ls : text_lines text ls -> map strip (lines_keep (universal text)) = map strip ls.
Proof.
  induction 1 as [|l N H1 H2|l t ls H1 H2 T IH|l t ls H1 H2 T IH|l t ls H1 H2 Hd T IH]; [reflexivity|..].
  - rewrite <- (app_nil_r l) at 1. rewrite universal_line by exact H2. rewrite app_nil_r, (lines_keep_last l N H1). reflexivity.
  - rewrite universal_line by exact H2. change (universal (NL :: t)) with (NL :: universal t).
    rewrite lines_keep_line by exact H1. cbn [map]. now rewrite strip_nl, IH.
  - rewrite universal_line by exact H2. change (universal (CR :: NL :: t)) with (NL :: universal t).
    rewrite lines_keep_line by exact H1. cbn [map]. now rewrite strip_nl, IH.
  - rewrite universal_line by exact H2. assert (universal (CR :: t) = NL :: universal t) as ->.
    { cbn [universal]. change (Ascii.eqb CR CR) with true. cbn [negb]. destruct t as [|d t]; [reflexivity|].
      destruct (Ascii.eqb_spec d NL) as [->|_]; [exfalso; now apply Hd|reflexivity]. }
    rewrite lines_keep_line by exact H1. cbn [map]. now rewrite strip_nl, IH.
Qed.
Lemma text_lines_push c t ls : c <> NL -> c <> CR -> text_lines t ls -> exists ls', text_lines (c :: t) ls'.
Proof.
  intros N1 N2 [|l N H1 H2|l t' ls' H1 H2 T|l t' ls' H1 H2 T|l t' ls' H1 H2 Hd T].
  - exists [[c]]. apply tl_last; [discriminate|..]; intros [->|[]]; congruence.
  - exists [c :: l]. apply tl_last; [discriminate|..]; intros [->|X]; auto.
  - exists ((c :: l) :: ls'). apply (tl_nl (c :: l)); [..|exact T]; intros [->|X]; auto.
  - exists ((c :: l) :: ls'). apply (tl_crnl (c :: l)); [..|exact T]; intros [->|X]; auto.
  - exists ((c :: l) :: ls'). apply (tl_cr (c :: l)); [..|exact Hd|exact T]; intros [->|X]; auto.
Qed.
Lemma text_lines_total text : exists ls, text_lines text ls.
Proof.
  assert (forall n text, (List.length text <= n)%nat -> exists ls, text_lines text ls) as H; [|exact (H _ text (Nat.le_refl _))].
  clear text. intros n. induction n as [|n IH]; intros [|c t] L; try (exists []; constructor); cbn in L; [lia|].
  destruct (IH t) as [ls T]; [lia|].
  destruct (Ascii.eqb_spec c NL) as [->|N1]; [exists ([] :: ls); now apply (tl_nl [])|].
  destruct (Ascii.eqb_spec c CR) as [->|N2]; [|now apply (text_lines_push c t ls)].
  destruct t as [|d t]; [exists ([] :: ls); apply (tl_cr []); auto; discriminate|].
  destruct (Ascii.eqb_spec d NL) as [->|N3].
  - destruct (IH t) as [ls' T']; [cbn in L; lia|]. exists ([] :: ls'). now apply (tl_crnl []).
  - exists ([] :: ls). apply (tl_cr []); auto. change (Some d <> Some NL). congruence.
Qed.

(** ** Meaning of a line *)

Lemma ignored_strip l : ignored l <-> strip l = [] \/ startswith (strip l) $"#" = true.
Proof.
  split.
  - intros [l0 B|b t B].
    + left. apply strip_iff. exists l0, []. repeat split; [exact B|constructor|now rewrite app_nil_r|discriminate|intros [|? ?] ? X; discriminate X].
    + right. destruct (strip_pads ("#"%char :: t)) as (a & b' & A & B' & E). set (x := strip ("#"%char :: t)) in *.
      destruct a as [|c a].
      2: { cbn in E. injection E as E _. subst c. inversion A; subst. discriminate. }
      cbn [app] in E. assert (strip (b ++ "#"%char :: t) = x) as ->.
      { apply strip_iff. exists b, b'. split; [exact B|]. split; [exact B'|]. split; [now rewrite E|]. apply ends_tight, strip_tight. }
      destruct x as [|c x].
      { cbn in E. subst b'. inversion B'; subst. discriminate. }
      cbn in E. injection E as <- _. reflexivity.
  - intros [H|H].
    + constructor. destruct (strip_pads l) as (a & b & A & B & E). rewrite H in E. cbn in E. subst l. now apply Forall_app.
    + destruct (strip_pads l) as (a & b & A & B & E). apply startswith_iff in H as [x X]. rewrite X in E. subst l.
      change ($"#" ++ x) with ("#"%char :: x). cbn [app]. now constructor.
Qed.

Lemma line_sets_strip l n v : line_sets l n v <-> strip l = $"CONFIG_" ++ n ++ "="%char :: v /\ ~ In "="%char n.
Proof.
  split.
  - intros [b n0 v0 b' B B' N T]. split; [|exact N]. apply strip_iff. exists b, b'. split; [exact B|]. split; [exact B'|].
    split; [now rewrite <- !app_assoc|]. split; [intros c t E; injection E as <- _; reflexivity|].
    destruct v0 as [|d v0]; [rewrite app_assoc; now apply tight_end_snoc|].
    rewrite app_assoc. apply tight_end_app; [discriminate|]. change ("="%char :: d :: v0) with (["="%char] ++ (d :: v0)).
    apply tight_end_app; [discriminate|exact T].
  - intros [S N]. destruct (strip_pads l) as (a & b & A & B & E). rewrite S in E. rewrite E.
    replace (a ++ ($"CONFIG_" ++ n ++ "="%char :: v) ++ b) with (a ++ $"CONFIG_" ++ n ++ "="%char :: v ++ b) by (now rewrite <- !app_assoc).
    constructor; [exact A|exact B|exact N|].
    pose proof (strip_tight l) as T. apply ends_tight in T as [_ T]. rewrite S in T.
    apply (tight_end_drop ($"CONFIG_" ++ n ++ ["="%char])). now rewrite <- !app_assoc.
Qed.
Lemma line_sets_fun l n v n' v' : line_sets l n v -> line_sets l n' v' -> n = n' /\ v = v'.
Proof.
  intros [E N]%line_sets_strip [E' N']%line_sets_strip. rewrite E in E'. apply app_inv_head in E'.
  apply (asks_fun (n ++ "="%char :: v)); split; auto.
Qed.

Definition meaning (l : str) : Prop := ignored l \/ exists n v, line_sets l n v.

Definition keep (l : str) : bool := negb (str_eqb l []) && negb (startswith l $"#").
Lemma keep_ignored l : keep (strip l) = false <-> ignored l.
Proof.
  unfold keep. rewrite ignored_strip, andb_false_iff, !negb_false_iff, str_eqb_eq. reflexivity.
Qed.
Lemma parse_line_ok d l n v : line_sets l n v -> keep (strip l) = true /\ parse_line d (strip l) = Ok (dset str_eqb n v d).
Proof.
  intros [E N]%line_sets_strip. rewrite E. split; [reflexivity|]. unfold parse_line.
  assert (split_char1 EQ ($"CONFIG_" ++ n ++ "="%char :: v) = Some ($"CONFIG_" ++ n, v)) as ->; [|reflexivity].
  apply split_char1_Some. split; [now rewrite <- app_assoc|]. intros X. apply in_app_or in X as [X|X]; [|contradiction].
  cbn in X. intuition discriminate.
Qed.
Lemma line_unsplit_err d l : line_unsplit l -> keep (strip l) = true /\ parse_line d (strip l) = Raise ValueError.
Proof.
  intros [I N]. split.
  - destruct (keep (strip l)) eqn:K; [reflexivity|]. now apply keep_ignored in K.
  - unfold parse_line. assert (split_char1 EQ (strip l) = None) as ->; [|reflexivity]. apply split_char1_None. intros X. apply N.
    destruct (strip_pads l) as (a & b & _ & _ & ->). apply in_or_app. right. apply in_or_app. now left.
Qed.
Lemma line_foreign_err d l : line_foreign l -> keep (strip l) = true /\ parse_line d (strip l) = Raise AssertionError.
Proof.
  intros (I & X & N). split.
  - destruct (keep (strip l)) eqn:K; [reflexivity|]. now apply keep_ignored in K.
  - unfold parse_line. destruct (split_char1 EQ (strip l)) as [[n v]|] eqn:S.
    + destruct (startswith n $"CONFIG_") eqn:P; [|reflexivity]. exfalso. apply startswith_iff in P as [m ->].
      apply split_char1_Some in S as [S S']. apply (N m v). apply line_sets_strip. split; [now rewrite S, <- app_assoc|].
      intros Y. apply S'. apply in_or_app. now right.
    + exfalso. apply split_char1_None in S. apply S. destruct (strip_pads l) as (a & b & A & B & E). rewrite E in X.
      apply in_app_or in X as [X|X]; [|apply in_app_or in X as [X|X]; [exact X|]].
      * unfold blank in A. rewrite Forall_forall in A. discriminate (A _ X).
      * unfold blank in B. rewrite Forall_forall in B. discriminate (B _ X).
Qed.

Lemma line_cases l : ignored l \/ (exists n v, line_sets l n v) \/ line_unsplit l \/ line_foreign l.
Proof.
  destruct (keep (strip l)) eqn:K; [|left; now apply keep_ignored].
  assert (~ ignored l) as NI by (intros I; apply keep_ignored in I; congruence). right.
  destruct (in_dec ascii_dec "="%char l) as [I|N]; [|right; left; now split].
  destruct (split_char1 EQ (strip l)) as [[n v]|] eqn:S.
  - apply split_char1_Some in S as [S S']. destruct (startswith n $"CONFIG_") eqn:P.
    + apply startswith_iff in P as [m ->]. left. exists m, v. apply line_sets_strip. split; [now rewrite S, <- app_assoc|].
      intros Y. apply S'. apply in_or_app. now right.
    + right. right. split; [exact NI|]. split; [exact I|]. intros m w [E N]%line_sets_strip.
      assert (split_char1 EQ (strip l) = Some ($"CONFIG_" ++ m, w)) as E2.
      { rewrite E. apply split_char1_Some. split; [now rewrite <- app_assoc|]. intros X. apply in_app_or in X as [X|X]; [|contradiction].
        cbn in X. intuition discriminate. }
      assert (split_char1 EQ (strip l) = Some (n, v)) as E3 by (apply split_char1_Some; auto).
      rewrite E3 in E2. injection E2 as -> ->. rewrite (proj2 (startswith_iff _ _)) in P; [discriminate|exists m; reflexivity].
  - right. right. split; [exact NI|]. split; [exact I|]. intros m w [E N]%line_sets_strip.
    apply split_char1_None in S. apply S. rewrite E. apply in_or_app. right. apply in_or_app. right. now left.
Qed.

(** ** Files *)

Definition parse_lines (d : dict str str) (ls : list str) : outcome (dict str str) :=
  foldM parse_line d (filter keep (map strip ls)).

Lemma parse_text_lines text ls : text_lines text ls -> parse_config_text text = parse_lines [] ls.
Proof. intros T. unfold parse_config_text, parse_lines. now rewrite (stripped_lines text ls T). Qed.

Lemma parse_lines_ignored d l ls : ignored l -> parse_lines d (l :: ls) = parse_lines d ls.
Proof. intros I. apply keep_ignored in I. unfold parse_lines. cbn [map filter]. now rewrite I. Qed.
Lemma parse_lines_sets d l ls n v : line_sets l n v -> parse_lines d (l :: ls) = parse_lines (dset str_eqb n v d) ls.
Proof.
  intros S. destruct (parse_line_ok d l n v S) as [K P]. unfold parse_lines. cbn [map filter]. rewrite K. cbn [foldM]. now rewrite P.
Qed.
Lemma ignored_not_sets l n v : ignored l -> ~ line_sets l n v.
Proof. intros I S. apply keep_ignored in I. destruct (parse_line_ok [] l n v S) as [K _]. congruence. Qed.

Lemma file_sets_nil n v : ~ file_sets [] n v.
Proof. intros ([|? ?] & ? & ? & E & _); discriminate E. Qed.
Lemma file_sets_cons l ls n v : file_sets (l :: ls) n v <->
  file_sets ls n v \/ (line_sets l n v /\ forall l' v', In l' ls -> ~ line_sets l' n v').
Proof.
  split.
  - intros ([|x l1] & y & l2 & E & S & N); injection E as -> ->; [right; auto|left]. exists l1, y, l2. auto.
  - intros [(l1 & y & l2 & -> & S & N)|[S N]]; [exists (l :: l1), y, l2; auto|exists [], l, ls; auto].
Qed.
Lemma file_sets_dec ls n : Forall meaning ls -> (exists v, file_sets ls n v) \/ forall l v, In l ls -> ~ line_sets l n v.
Proof.
  induction 1 as [|l ls M F IH]; [right; intros ? ? []|].
  destruct IH as [[v S]|N]; [left; exists v; apply file_sets_cons; now left|].
  destruct M as [I|(m & w & S)].
  - right. intros l' v [<-|X]; [now apply ignored_not_sets|now apply N].
  - destruct (list_eq_dec ascii_dec m n) as [->|D].
    + left. exists w. apply file_sets_cons. right. auto.
    + right. intros l' v [<-|X] S'; [|exact (N l' v X S')]. destruct (line_sets_fun _ _ _ _ _ S S') as [E _]. congruence.
Qed.
Lemma file_sets_fun ls n v w : file_sets ls n v -> file_sets ls n w -> v = w.
Proof.
  induction ls as [|l ls IH]; [intros X; destruct (file_sets_nil _ _ X)|].
  rewrite !file_sets_cons. intros [A|[A N]] [B|[B N']]; auto.
  - destruct A as (l1 & y & l2 & -> & S & _). exfalso. apply (N' y v); [apply in_or_app; right; now left|exact S].
  - destruct B as (l1 & y & l2 & -> & S & _). exfalso. apply (N y w); [apply in_or_app; right; now left|exact S].
  - now destruct (line_sets_fun _ _ _ _ _ A B).
Qed.

Lemma parse_lines_ok ls : Forall meaning ls -> forall d, exists d', parse_lines d ls = Ok d' /\
  forall n v, dget str_eqb n d' = Some v <->
    file_sets ls n v \/ ((forall l w, In l ls -> ~ line_sets l n w) /\ dget str_eqb n d = Some v).
Proof.
  induction 1 as [|l ls M F IH]; intros d.
  - exists d. split; [reflexivity|]. intros n v. split; [intros H; right; split; [intros ? ? []|exact H]|].
    intros [X|[_ H]]; [destruct (file_sets_nil _ _ X)|exact H].
  - destruct M as [I|(m & w & S)].
    + rewrite (parse_lines_ignored d l ls I). destruct (IH d) as (d' & E & H). exists d'. split; [exact E|].
      intros n v. rewrite H, file_sets_cons. split.
      * intros [A|[A B]]; [now left; left|right]. split; [|exact B]. intros l' x [<-|X]; [now apply ignored_not_sets|now apply A].
      * intros [[A|[A _]]|[A B]]; [now left|destruct (ignored_not_sets _ _ _ I A)|right]. split; [|exact B].
        intros l' x X. apply A. now right.
    + rewrite (parse_lines_sets d l ls m w S). destruct (IH (dset str_eqb m w d)) as (d' & E & H). exists d'. split; [exact E|].
      intros n v. rewrite H, file_sets_cons. destruct (list_eq_dec ascii_dec n m) as [->|D].
      * rewrite (dget_dset_eq str_eqb str_eqb_eq). split.
        -- intros [A|[A [= <-]]]; [now left; left|left; right]. auto.
        -- intros [[A|[A B]]|[A _]]; [now left|right|destruct (A l w (or_introl eq_refl) S)].
           split; [exact B|]. now destruct (line_sets_fun _ _ _ _ _ S A) as [_ <-].
      * rewrite (dget_dset_neq str_eqb str_eqb_eq) by exact D. split.
        -- intros [A|[A B]]; [now left; left|right]. split; [|exact B]. intros l' x [<-|X] S'; [|exact (A l' x X S')].
           destruct (line_sets_fun _ _ _ _ _ S S'). congruence.
        -- intros [[A|[A _]]|[A B]]; [now left|destruct (line_sets_fun _ _ _ _ _ S A); congruence|right].
           split; [|exact B]. intros l' x X. apply A. now right.
Qed.

Lemma config_parsed text ls : text_lines text ls -> Forall meaning ls ->
  exists d, parse_config_text text = Ok d /\ forall n v, dget str_eqb n d = Some v <-> file_sets ls n v.
Proof.
  intros T F. rewrite (parse_text_lines text ls T). destruct (parse_lines_ok ls F []) as (d & E & H). exists d. split; [exact E|].
  intros n v. rewrite H. split; [intros [A|[_ A]]; [exact A|discriminate A]|now left].
Qed.
Lemma parse_lines_app ls l1 : Forall meaning l1 -> forall d, exists d', parse_lines d (l1 ++ ls) = parse_lines d' ls.
Proof.
  induction 1 as [|l l1 M F IH]; intros d; [now exists d|]. cbn [app]. destruct M as [I|(m & w & S)].
  - rewrite (parse_lines_ignored d l _ I). apply IH.
  - rewrite (parse_lines_sets d l _ m w S). apply IH.
Qed.
Lemma config_unsplit text l1 l l2 : text_lines text (l1 ++ l :: l2) -> Forall meaning l1 -> line_unsplit l ->
  parse_config_text text = Raise ValueError.
Proof.
  intros T F U. rewrite (parse_text_lines _ _ T). destruct (parse_lines_app (l :: l2) l1 F []) as [d ->].
  destruct (line_unsplit_err d l U) as [K P]. unfold parse_lines. cbn [map filter]. rewrite K. cbn [foldM]. now rewrite P.
Qed.
Lemma config_foreign text l1 l l2 : text_lines text (l1 ++ l :: l2) -> Forall meaning l1 -> line_foreign l ->
  parse_config_text text = Raise AssertionError.
Proof.
  intros T F U. rewrite (parse_text_lines _ _ T). destruct (parse_lines_app (l :: l2) l1 F []) as [d ->].
  destruct (line_foreign_err d l U) as [K P]. unfold parse_lines. cbn [map filter]. rewrite K. cbn [foldM]. now rewrite P.
Qed.
(** Whether the parser succeeds tells whether every line means something. *)
Lemma config_ok_meaning text ls d : text_lines text ls -> parse_config_text text = Ok d -> Forall meaning ls.
Proof.
  intros T E. apply Forall_forall. intros l I.
  assert (forall l1 l2, ls = l1 ++ l2 -> Forall meaning l1 -> Forall meaning ls) as H.
  { intros l1 l2. revert l1. induction l2 as [|x l2 IH]; intros l1 -> F; [now rewrite app_nil_r|].
    destruct (line_cases x) as [X|[X|[X|X]]].
    - apply (IH (l1 ++ [x])); [now rewrite <- app_assoc|]. apply Forall_app. split; [exact F|]. constructor; [now left|constructor].
    - apply (IH (l1 ++ [x])); [now rewrite <- app_assoc|]. apply Forall_app. split; [exact F|]. constructor; [now right|constructor].
    - rewrite (config_unsplit text l1 x l2 T F X) in E. discriminate.
    - rewrite (config_foreign text l1 x l2 T F X) in E. discriminate. }
  pose proof (H [] ls eq_refl (Forall_nil _)) as G. rewrite Forall_forall in G. auto.
Qed.
