(** Lemmas about what the two searches print. *)
From Coq Require Import List Bool Ascii String ZArith Lia.
From Verif Require Import PyBase PyFacts Regex RegexFacts RegexDen M_Utils M_Elf M_Syscall M_Arch M_Config M_Location
  S_Elf S_Signature S_Location L_Utils L_ElfText L_Kernel L_Location L_Location2 L_Location5 L_Location6 M_Search S_Search L_Search L_Search2 S_Rows.
Import ListNotations.
Open Scope Z_scope.
Open Scope list_scope.

(** Lines that count the same. *)
Definition alike (kdir : path) (a : arch) (l l' : str) : Prop :=
  grep_key a l = grep_key a l' /\ (forall name, grep_hit a name l <-> grep_hit a name l') /\ grep_loc kdir l = grep_loc kdir l'.

Section Alike.
  Context (kdir : path) (a : arch).
  Local Notation R := (alike kdir a).

  Lemma insert_alike x x' l l' : R x x' -> Forall2 R l l' ->
    Forall2 R (insert_sorted (fun x y => grep_key a y <=? grep_key a x) x l) (insert_sorted (fun x y => grep_key a y <=? grep_key a x) x' l').
  Proof.
    intros X. induction 1 as [|y y' l l' Y F IH]; cbn; [constructor; [exact X|constructor]|].
    rewrite (proj1 X), (proj1 Y). destruct (_ <=? _); constructor; auto.
  Qed.
  Lemma sort_alike l l' : Forall2 R l l' -> Forall2 R (sort_by_rev Z.leb (grep_key a) l) (sort_by_rev Z.leb (grep_key a) l').
  Proof. unfold sort_by_rev, sort_stable. induction 1 as [|x x' l l' X F IH]; cbn [fold_right]; [constructor|]. now apply insert_alike. Qed.
  Lemma search_alike l l' name : R l l' -> (re_search (grep_exp a name) l = None <-> re_search (grep_exp a name) l' = None).
  Proof.
    intros (_ & H & _). specialize (H name). rewrite <- !grep_exp_spec in H.
    destruct (re_search (grep_exp a name) l), (re_search (grep_exp a name) l'); intuition congruence.
  Qed.
  Lemma take_alike {A} l l' (exps : list (A * re)) : R l l' -> Forall (fun e => exists name, snd e = grep_exp a name) exps ->
    take_match l exps = take_match l' exps.
  Proof.
    intros X. induction 1 as [|(s & r) exps (name & N) F IH]; [reflexivity|]. cbn [snd] in N. subst r. cbn [take_match]. rewrite IH.
    pose proof (search_alike l l' name X) as H. destruct (re_search (grep_exp a name) l), (re_search (grep_exp a name) l'); try reflexivity.
    - discriminate (proj2 H eq_refl).
    - discriminate (proj1 H eq_refl).
  Qed.
  Lemma take_rest {A} l (exps : list (A * re)) x rest P : take_match l exps = Some (x, rest) -> Forall P exps -> Forall P rest.
  Proof.
    revert x rest. induction exps as [|(s & r) exps IH]; intros x rest; [discriminate|]. cbn [take_match]. intros H F. inversion F; subst.
    destruct (re_search r l); [injection H as <- <-; assumption|]. destruct (take_match l exps) as [(y & o)|]; [|discriminate].
    injection H as <- <-. constructor; [assumption|]. now apply (IH y o).
  Qed.
  Lemma lines_alike {A} ls ls' : Forall2 R ls ls' -> forall exps : list (A * re), Forall (fun e => exists name, snd e = grep_exp a name) exps ->
    grep_lines kdir exps ls = grep_lines kdir exps ls'.
  Proof.
    induction 1 as [|l l' ls ls' X F IH]; intros exps E; [reflexivity|]. cbn [grep_lines]. rewrite (take_alike l l' exps X E).
    destruct (take_match l' exps) as [(s & rest)|] eqn:T; [|now apply IH]. rewrite (proj2 (proj2 X)), IH; [reflexivity|]. now apply (take_rest _ _ _ _ _ T).
  Qed.
  Lemma grep_alike {A} w w' (scs : list (A * syscall)) ls ls' : w_grep w = Ok ls -> w_grep w' = Ok ls' -> Forall2 R ls ls' ->
    grep_kernel_sources w kdir a scs = grep_kernel_sources w' kdir a scs.
  Proof.
    intros E E' F. unfold grep_kernel_sources. rewrite E, E'. cbn [bind]. apply lines_alike; [now apply sort_alike|].
    apply Forall_map, Forall_forall. intros x _. cbn [snd]. eauto.
  Qed.
End Alike.

(** * The blanks at the end do not count *)
Lemma solid_end (s w u q : str) c : bblanks w -> is_bspace c = false -> s ++ w = u ++ c :: q -> exists t, s = u ++ c :: t.
Proof.
  intros W C. revert u. induction s as [|d s IH]; intros u E.
  - exfalso. cbn in E. subst w. unfold bblanks in W. rewrite forallb_app in W. cbn [forallb] in W. rewrite C, andb_false_r in W. discriminate.
  - destruct u as [|e u]; cbn in E; [injection E as <- _; now exists s|]. injection E as <- E. destruct (IH u E) as (t & ->). now exists t.
Qed.
Lemma contains_blank (l w i : str) c : bblanks w -> is_bspace c = false -> contains (l ++ w) (i ++ [c]) = contains l (i ++ [c]).
Proof.
  intros W C. apply eq_true_iff_eq. rewrite !contains_iff. split.
  - intros (p & q & E). rewrite <- app_assoc in E. cbn [app] in E. rewrite app_assoc in E. apply (solid_end l w _ q c W C) in E as (t & ->).
    exists p, t. now rewrite <- !app_assoc.
  - intros (p & q & ->). exists p, (q ++ w). now rewrite <- !app_assoc.
Qed.
Lemma starts_blank (l w i : str) c : bblanks w -> is_bspace c = false -> startswith (l ++ w) (i ++ [c]) = startswith l (i ++ [c]).
Proof.
  intros W C. apply eq_true_iff_eq. rewrite !startswith_iff. split.
  - intros (q & E). rewrite <- app_assoc in E. cbn [app] in E. apply (solid_end l w _ q c W C) in E as (t & ->). exists t. now rewrite <- !app_assoc.
  - intros (q & ->). exists (q ++ w). now rewrite <- !app_assoc.
Qed.
Lemma key_blank a l w : bblanks w -> grep_key a (l ++ w) = grep_key a l.
Proof.
  intros W. unfold grep_key.
  change $"COMPAT" with ($"COMPA" ++ ["T"%char]). change $"SYSCALL32" with ($"SYSCALL3" ++ ["2"%char]). change $"arch" with ($"arc" ++ ["h"%char]).
  rewrite !contains_blank, starts_blank by (exact W || reflexivity). reflexivity.
Qed.
Lemma macro_line_less a name s w : bblanks w -> macro_line blanks a name (s ++ w) -> macro_line blanks a name s.
Proof.
  intros W (p & c & b & d & v & m & e & t & S & P & C & B & D & V & E & L).
  assert (exists ch, e = [ch] /\ is_bspace ch = false) as (ch & -> & Hc) by (destruct E as [-> | ->]; eexists; split; reflexivity).
  assert (s ++ w = (p ++ c ++ $"SYSCALL" ++ b ++ $"_DEFINE" ++ [d] ++ v ++ $"(" ++ m) ++ ch :: t) as L' by (rewrite L, <- !app_assoc; reflexivity).
  apply (solid_end s w _ t ch W Hc) in L' as (t' & ->). exists p, c, b, d, v, m, [ch], t'. conj. now rewrite <- !app_assoc.
Qed.
Lemma loc_report kdir rel n s s' : Forall plain_name rel -> 0 <= n -> grep_loc kdir (report rel n s) = grep_loc kdir (report rel n s').
Proof.
  intros F N. destruct (number_plain n N) as (P & _). unfold grep_loc, report.
  assert (forall x, split_char ":"%char (join $"/" rel ++ $":" ++ str_of_int n ++ $":" ++ x) = join $"/" rel :: str_of_int n :: split_char ":"%char x) as E; [|now rewrite !E].
  intros x. change ($":" ++ str_of_int n ++ $":" ++ x) with (":"%char :: str_of_int n ++ ":"%char :: x).
  rewrite split_char_app by now apply join_no_colon. now rewrite split_char_app by exact P.
Qed.
Lemma report_alike kdir a rel n s w : Forall plain_name rel -> 0 <= n -> bblanks w -> alike kdir a (report rel n (s ++ w)) (report rel n s).
Proof.
  intros F N W. split; [|split].
  - replace (report rel n (s ++ w)) with (report rel n s ++ w) by (unfold report; now rewrite <- !app_assoc). now apply key_blank.
  - intros name. rewrite !report_hit by assumption. split; [now apply macro_line_less|apply macro_line_more].
  - now apply loc_report.
Qed.

(** * Lines as they are printed *)
Lemma join_row rel : Forall row rel -> row (join $"/" rel).
Proof.
  induction 1 as [|x rel X F IH]; [constructor|]. cbn [join]. destruct rel as [|y rel]; [exact X|]. apply row_app. split; [exact X|]. apply row_app. split; [now apply row_literal|exact IH].
Qed.
Lemma raw_row x : plain_hit x -> row_hit x -> row (raw_line x).
Proof.
  destruct x as ((rel & n) & text). intros (_ & _ & R & N) T. cbn [raw_line]. unfold report.
  apply row_app. split; [now apply join_row|]. apply row_app. split; [now apply row_literal|]. apply row_app. split; [now apply row_digits|]. apply row_app. split; [now apply row_literal|exact T].
Qed.
Lemma same_places {A} w w' kdir a (scs : list (A * syscall)) hits own : Forall plain_hit hits -> Forall row_hit hits ->
  w_grep w = Ok (splitlines (unlines (map raw_line hits))) -> w_grep w' = Ok own -> Forall2 own_line hits own ->
  grep_kernel_sources w kdir a scs = grep_kernel_sources w' kdir a scs.
Proof.
  intros P R G G' O. rewrite splitlines_unlines in G.
  - apply (grep_alike kdir a w w' scs _ _ G G'). clear G G' R. induction O as [|x l hits own X O IH]; [constructor|]. inversion P; subst. constructor; [|now apply IH].
    destruct x as ((rel & n) & text). destruct X as (s & (b & -> & B & _) & ->). destruct H1 as (_ & F & _ & N). now apply report_alike.
  - apply Forall_map. rewrite Forall_forall in *. intros x I. apply raw_row; auto.
Qed.
