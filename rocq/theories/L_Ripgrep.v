(** Lemmas for C104. *)
From Coq Require Import List Bool Ascii String ZArith Lia.
From Verif Require Import PyBase PyFacts M_Utils M_Elf M_Syscall M_Arch M_Config M_Pattern M_Program M_Ripgrep S_Search S_Ripgrep.
Import ListNotations.
Open Scope Z_scope.
Open Scope list_scope.

Lemma any_suffix_spec f s : any_suffix f s = true <-> exists x y, s = x ++ y /\ f y = true.
Proof.
  induction s as [|c s IH]; cbn [any_suffix]; rewrite orb_true_iff.
  - split; [intros [H|H]; [exists [], []; auto|discriminate]|]. intros (x & y & E & H). symmetry in E. apply app_eq_nil in E as (-> & ->). auto.
  - rewrite IH. split.
    + intros [H|(x & y & -> & H)]; [exists [], (c :: s); auto|exists (c :: x), y; auto].
    + intros (x & y & E & H). destruct x as [|c' x]; cbn in E; [left; now subst y|]. injection E as -> ->. right. eauto.
Qed.
(** Without a star the text itself *)
Lemma wild_plain p : ~ In "*"%char p -> forall s, wild p s = true <-> s = p.
Proof.
  induction p as [|c p IH]; intros N s; cbn [wild]; [destruct s; split; congruence|].
  destruct (Ascii.eqb_spec c "*"%char) as [->|Nc]; [exfalso; apply N; now left|]. destruct s as [|d s]; [split; discriminate|].
  rewrite andb_true_iff, Ascii.eqb_eq, IH by (intros I; apply N; now right). split; [intros (-> & ->); reflexivity|intros [= -> ->]; auto].
Qed.
Lemma wild_star s : wild $"*" s = true.
Proof. cbn [wild]. cbn. apply any_suffix_spec. exists s, []. rewrite app_nil_r. auto. Qed.
Lemma wild_c s : wild $"*.c" s = true <-> c_name s.
Proof.
  change (wild $"*.c" s) with (any_suffix (wild $".c") s). rewrite any_suffix_spec. unfold c_name. split.
  - intros (x & y & -> & H). apply wild_plain in H as ->; [eauto|]. cbn. intuition discriminate.
  - intros (x & ->). exists x, $".c". split; [reflexivity|]. apply wild_plain; [cbn; intuition discriminate|reflexivity].
Qed.

Definition excluding : list str := [$"Documentation"; $"drivers"; $"lib"; $"samples"; $"sound"; $"tools"; $"usr"; $"arch"].
Lemma search_text_not a : str_eqb (search_text a) $"--glob" = false.
Proof. unfold search_text, base_text. destruct (odd_text a), (a_compat a), (a_bits32 a); reflexivity. Qed.
Lemma globs_argv a : globs (rg_argv a) =
  map (fun d => Glob true true [d; $"*"]) excluding ++ [Glob false true [$"arch"; arch_dir (a_class a)]; Glob false false [$"*.c"]].
Proof.
  unfold rg_argv. set (t := search_text a). assert (str_eqb t $"--glob" = false) as N by apply search_text_not. clearbody t.
  destruct (a_class a); unfold class_name, arch_dir; cbn [globs app]; rewrite N; reflexivity.
Qed.

Lemma verdict_app g1 g2 rel : verdict (g1 ++ g2) rel = match verdict g2 rel with Some b => Some b | None => verdict g1 rel end.
Proof.
  induction g1 as [|g g1 IH]; cbn [app verdict]; [now destruct (verdict g2 rel)|]. rewrite IH. now destruct (verdict g2 rel).
Qed.
Lemma selects_excluding d rel : ~ In "*"%char d -> selects (Glob true true [d; $"*"]) rel = true <-> exists n, rel = [d; n].
Proof.
  intros N. unfold selects. cbn [gl_anchored gl_parts]. destruct rel as [|x [|y [|z r]]]; cbn [wilds].
  - split; [discriminate|intros (n & [=])].
  - rewrite andb_false_r. split; [discriminate|intros (n & [=])].
  - rewrite wild_star. cbn [andb]. rewrite andb_true_r, wild_plain by exact N. split; [intros ->; eauto|intros (n & [= -> ->]); reflexivity].
  - rewrite !andb_false_r. split; [discriminate|intros (n & [=])].
Qed.
Lemma verdict_excluding l rel : Forall (fun d => ~ In "*"%char d) l ->
  verdict (map (fun d => Glob true true [d; $"*"]) l) rel = Some false /\ (exists d n, rel = [d; n] /\ In d l) \/
  verdict (map (fun d => Glob true true [d; $"*"]) l) rel = None /\ ~ (exists d n, rel = [d; n] /\ In d l).
Proof.
  induction 1 as [|d l N F IH]; [right; split; [reflexivity|intros (d & n & _ & [])]|]. cbn [map verdict]. destruct IH as [(-> & d' & n & E & I)|(-> & IH)].
  - left. split; [reflexivity|]. exists d', n. split; [exact E|now right].
  - pose proof (selects_excluding d rel N) as S. destruct (selects _ rel).
    + left. split; [reflexivity|]. destruct (proj1 S eq_refl) as (n & ->). exists d, n. split; [reflexivity|now left].
    + right. split; [reflexivity|]. intros (d' & n & -> & [->|I]); [enough (false = true) by discriminate; apply S; eauto|apply IH; eauto].
Qed.
Lemma no_star k : ~ In "*"%char (arch_dir k).
Proof. destruct k; cbn; intuition discriminate. Qed.
Lemma verdict_argv a above d :
  (c_name d /\ verdict (globs (rg_argv a)) (above ++ [d]) = Some true) \/
  (above = [$"arch"] /\ d = arch_dir (a_class a) /\ verdict (globs (rg_argv a)) (above ++ [d]) = Some true) \/
  (~ c_name d /\ ~ (above = [$"arch"] /\ d = arch_dir (a_class a)) /\
     ((exists x, above = [x] /\ In x excluding) /\ verdict (globs (rg_argv a)) (above ++ [d]) = Some false \/
      ~ (exists x, above = [x] /\ In x excluding) /\ verdict (globs (rg_argv a)) (above ++ [d]) = None)).
Proof.
  rewrite globs_argv, verdict_app. cbn [verdict].
  assert (selects (Glob false false [$"*.c"]) (above ++ [d]) = wild $"*.c" d) as ->.
  { unfold selects. cbn [gl_anchored gl_parts]. now rewrite rev_app_distr. }
  pose proof (wild_c d) as C. destruct (wild $"*.c" d); [left; split; [now apply C|reflexivity]|].
  assert (~ c_name d) as Nc by (intros X; apply C in X; discriminate).
  assert (selects (Glob false true [$"arch"; arch_dir (a_class a)]) (above ++ [d]) = true <-> above = [$"arch"] /\ d = arch_dir (a_class a)) as A.
  { unfold selects. cbn [gl_anchored gl_parts]. destruct above as [|x [|y r]]; cbn [app wilds].
    - rewrite andb_false_r. split; [discriminate|intros ([=] & _)].
    - rewrite andb_true_r, andb_true_iff, wild_plain, wild_plain by (apply no_star || (cbn; intuition discriminate)). split; [intros (-> & ->); auto|intros ([= ->] & ->); auto].
    - destruct (r ++ [d]) eqn:E; [now destruct r|]. rewrite !andb_false_r. split; [discriminate|intros ([=] & _)]. }
  destruct (selects (Glob false true _) _); [right; left; destruct (proj1 A eq_refl); auto|].
  assert (~ (above = [$"arch"] /\ d = arch_dir (a_class a))) as Na by (intros X; apply A in X; discriminate).
  right. right. split; [exact Nc|]. split; [exact Na|].
  assert (Forall (fun d => ~ In "*"%char d) excluding) as F by (repeat constructor; cbn; intuition discriminate).
  destruct (verdict_excluding excluding (above ++ [d]) F) as [(-> & x & n & E & I)|(-> & N)].
  - left. split; [|reflexivity]. exists x. destruct above as [|y [|z r]]; try (destruct r; discriminate); [discriminate|]. injection E as -> ->. auto.
  - right. split; [|reflexivity]. intros (x & -> & I). apply N. exists x, d. auto.
Qed.
Lemma excluding_spec x : In x excluding <-> unsearched x \/ x = $"arch".
Proof. unfold excluding, unsearched. cbn [In]. intuition. Qed.
Lemma hidden_spec above d : hidden (above ++ [d]) = true <-> dot_name d.
Proof.
  unfold hidden. rewrite rev_app_distr. cbn [rev app]. rewrite startswith_iff. reflexivity.
Qed.

Lemma enters_spec a ignored above d : enters (globs (rg_argv a)) ignored (above ++ [d]) = true <-> entered (a_class a) ignored above d.
Proof.
  unfold enters. destruct (verdict_argv a above d) as [(C & ->)|[(A1 & A2 & ->)|(Nc & Na & [((x & Ex & I) & ->)|(N & ->)])]].
  - split; [intros _; now apply et_c|reflexivity].
  - split; [intros _; now apply et_arch|reflexivity].
  - split; [discriminate|]. intros [C|A1 A2|H _ _]; [contradiction|exfalso; apply Na; auto|]. destruct (H x Ex) as (H1 & H2). apply excluding_spec in I as [I|I]; contradiction.
  - rewrite andb_true_iff, !negb_true_iff. split.
    + intros (H1 & H2). apply et_other; [|intros D; apply (hidden_spec above) in D; congruence|exact H2].
      intros x E. split; intros X; apply N; exists x; (split; [exact E|]); apply excluding_spec; auto.
    + intros [C|A1 A2|H D G]; [contradiction|exfalso; apply Na; auto|]. split; [|exact G]. apply not_true_is_false. now rewrite hidden_spec.
Qed.
Lemma reads_spec a ignored above d : reads (globs (rg_argv a)) ignored (above ++ [d]) = true <-> c_name d \/ (above = [$"arch"] /\ d = arch_dir (a_class a)).
Proof.
  unfold reads. destruct (verdict_argv a above d) as [(C & ->)|[(A1 & A2 & ->)|(Nc & Na & [((x & Ex & I) & ->)|(N & ->)])]]; try tauto.
  - split; [discriminate|tauto].
  - rewrite globs_argv. cbn. split; [discriminate|tauto].
Qed.
Lemma visits_spec a ignored rel : forall cur, visits (globs (rg_argv a)) ignored cur rel = true <->
  (exists dirs name, rel = dirs ++ [name] /\ (c_name name \/ (cur ++ dirs = [$"arch"] /\ name = arch_dir (a_class a)))) /\
  forall above d m l, rel = above ++ d :: m :: l -> entered (a_class a) ignored (cur ++ above) d.
Proof.
  induction rel as [|d rel IH]; intros cur.
  - cbn. split; [discriminate|]. intros ((dirs & name & E & _) & _). now destruct dirs.
  - destruct rel as [|m rel].
    + cbn [visits]. rewrite reads_spec. split.
      * intros H. split; [exists [], d; rewrite app_nil_r; auto|]. intros above x y l E. destruct above as [|z [|? ?]]; discriminate.
      * intros ((dirs & name & E & H) & _). destruct dirs as [|x [|? ?]]; try discriminate. injection E as <-. now rewrite app_nil_r in H.
    + change (visits (globs (rg_argv a)) ignored cur (d :: m :: rel)) with (enters (globs (rg_argv a)) ignored (cur ++ [d]) && visits (globs (rg_argv a)) ignored (cur ++ [d]) (m :: rel)).
      rewrite andb_true_iff, enters_spec, IH. split.
      * intros (H1 & (dirs & name & E & H2) & H3). split.
        -- exists (d :: dirs), name. rewrite E. rewrite <- app_assoc in H2. auto.
        -- intros above x y l E'. destruct above as [|z above]; cbn in E'.
           ++ injection E' as <- _ _. now rewrite app_nil_r.
           ++ injection E' as <- E'. specialize (H3 above x y l E'). now rewrite <- app_assoc in H3.
      * intros ((dirs & name & E & H2) & H3). split; [specialize (H3 [] d m rel eq_refl); now rewrite app_nil_r in H3|]. split.
        -- destruct dirs as [|z dirs]; [discriminate|]. injection E as <- E. exists dirs, name. rewrite <- app_assoc. auto.
        -- intros above x y l E'. specialize (H3 (d :: above) x y l). rewrite <- app_assoc. apply H3. now rewrite E'.
Qed.
Lemma rg_reads_spec a ignored rel : rg_reads a ignored rel = true <-> read_by_ripgrep (a_class a) ignored rel.
Proof. unfold rg_reads, read_by_ripgrep. rewrite visits_spec. reflexivity. Qed.

Lemma unsearched_dec s : unsearched s \/ ~ unsearched s.
Proof. unfold unsearched. destruct (in_dec (list_eq_dec ascii_dec) s [$"Documentation"; $"drivers"; $"lib"; $"samples"; $"sound"; $"tools"; $"usr"]); auto. Qed.
(** What the own search looks through, ripgrep reads, if nothing is ignored. *)
Lemma searched_read k ignored rel : (forall r, ignored r = false) -> searched k rel -> read_by_ripgrep k ignored rel.
Proof.
  intros G ((dirs & name & ->) & H1 & H2 & H3). split; [exists dirs, (name ++ $".c"); split; [reflexivity|left; now exists name]|].
  intros above d m l E. rewrite E in *.
  assert (above = [$"arch"] -> d = arch_dir k) as A by (intros ->; now apply (H3 d m l)).
  destruct (list_eq_dec (list_eq_dec ascii_dec) above [$"arch"]) as [->|Na]; [now apply et_arch, A|].
  apply et_other; [|intros (x & ->); apply (H1 ("."%char :: x) x); [apply in_or_app; right; now left|reflexivity]|apply G].
  intros x ->. split; [now apply (H2 x d (m :: l))|intros ->; now apply Na].
Qed.
(** What ripgrep reads in addition lies in a directory that should be left out, unless names are unusual. *)
Lemma read_not_searched k ignored rel : usual rel -> read_by_ripgrep k ignored rel ->
  searched k rel \/ (exists d name, rel = [d; name] /\ unsearched d /\ c_name name) \/ rel = [$"arch"; arch_dir k].
Proof.
  intros (U1 & U2) ((dirs & name & -> & [C|(-> & ->)]) & H); [|auto].
  destruct C as (x & ->).
  assert (forall above d m l, dirs ++ [x ++ $".c"] = above ++ d :: m :: l -> (above = [$"arch"] /\ d = arch_dir k) \/ ((forall y, above = [y] -> ~ unsearched y /\ y <> $"arch") /\ ~ dot_name d)) as H'.
  { intros above d m l E. destruct (H above d m l E) as [C|A1 A2|A1 A2 _]; [exfalso; exact (U1 above d m l E C)|auto|auto]. }
  assert (forall c y, In c (dirs ++ [x ++ $".c"]) -> c <> "."%char :: y) as ND.
  { intros c y I. apply in_app_or in I as [I|[<-|[]]].
    - intros ->. apply in_split in I as (l1 & l2 & ->).
      assert (exists m l, l2 ++ [x ++ $".c"] = m :: l) as (m & l & E) by (destruct l2; cbn; eauto).
      destruct (H' l1 ("."%char :: y) m l) as [(_ & D)|(_ & D)]; [rewrite <- app_assoc; cbn [app]; now rewrite E|destruct k; discriminate|apply D; now exists y].
    - intros E. apply (U2 dirs (x ++ $".c") eq_refl). now exists y. }
  destruct dirs as [|d [|d2 dirs]].
  - left. split; [exists [], x; reflexivity|]. split; [exact ND|]. split; intros; discriminate.
  - destruct (unsearched_dec d) as [U|U]; [right; left; exists d, (x ++ $".c"); repeat split; [exact U|now exists x]|].
    left. split; [exists [d], x; reflexivity|]. split; [exact ND|]. split; [intros d' m l [= <- _ _]; exact U|intros; discriminate].
  - left. assert (exists m l, dirs ++ [x ++ $".c"] = m :: l) as (m & l & E) by (destruct dirs; cbn; eauto).
    destruct (H' [d] d2 m l) as [([= ->] & ->)|(N & D)]; [cbn [app]; now rewrite E| |].
    + split; [eexists _, x; reflexivity|]. split; [exact ND|]. split.
      * intros d' m' l' [= <- _ _]. unfold unsearched. cbn. intuition discriminate.
      * intros x' m' l' [= <- _]. reflexivity.
    + destruct (N d eq_refl) as (N1 & N2). split; [eexists _, x; reflexivity|]. split; [exact ND|]. split.
      * intros d' m' l' [= <- _ _]. exact N1.
      * intros x' m' l' Q. apply (f_equal (fun r => hd [] r)) in Q. cbn in Q. now elim N2.
Qed.
(** And all C sources directly in such a directory are read. *)
Lemma unsearched_read k ignored d name : (forall r, ignored r = false) -> unsearched d -> c_name name -> read_by_ripgrep k ignored [d; name] /\ ~ searched k [d; name].
Proof.
  intros G U C. split.
  - split; [exists [d], name; auto|]. intros above x m l E. destruct above as [|y [|z r]]; cbn in E; try discriminate; [|destruct r; discriminate]. injection E as <- _ _.
    apply et_other; [intros; discriminate| |apply G]. intros (y & ->). unfold unsearched in U. cbn in U. intuition discriminate.
  - intros (_ & _ & H & _). now apply (H d name []).
Qed.
