(** Lemmas about the search in a file system with links: the directories left out, the whole search, and
    the search without links. *)
From Coq Require Import List Bool Ascii String ZArith Lia.
From Verif Require Import PyBase PyFacts M_Utils M_Elf M_Syscall M_Arch S_Elf S_Signature S_Location M_Search S_Search L_Search L_Search2 M_Links S_Links L_Links L_Links2.
Import ListNotations.
Open Scope Z_scope.
Open Scope list_scope.

Section Whole.
  Context (root : lnode) (limit : nat) (kdir : list str) (a : arch) (S : sane root).
  Local Notation go rel := (follow root limit [] (kdir ++ rel)).

  Lemma go_reaches p real : reaches root limit p real <-> exists more, follow root limit [] p = At real more.
  Proof.
    unfold reaches. split.
    - intros (n & L & H). exists (limit - n)%nat. apply (follow_leads root S). exists n. split; [assumption|lia].
    - intros (more & H). apply (follow_leads root S) in H as (n & H & E). exists n. split; [lia|assumption].
  Qed.
  Lemma resolve_all_fine rels ex : resolve_all root limit kdir rels = Fine ex ->
    forall real, In real ex <-> exists rel, In rel rels /\ reaches root limit (kdir ++ rel) real.
  Proof.
    revert ex. induction rels as [|rel rels IH]; intros ex; cbn [resolve_all].
    - intros [= <-] real. split; [intros []|intros (? & [] & _)].
    - unfold resolve. destruct (go rel) as [r m| |] eqn:G; cbn [rbind]; try discriminate;
        (destruct (resolve_all root limit kdir rels) as [xs| |] eqn:R; cbn [rbind]; try discriminate); intros [= <-] real;
        specialize (IH xs eq_refl real); cbn [app In]; rewrite IH; split.
      + intros [<-|(x & I & H)]; [exists rel|exists x]; split; auto. apply go_reaches. eauto.
      + intros (x & [<-|I] & H); [|right; eauto]. apply go_reaches in H as [m' H]. rewrite G in H. injection H as -> _. now left.
      + intros (x & I & H). exists x. auto.
      + intros (x & [<-|I] & H); [|eauto]. apply go_reaches in H as [m' H]. rewrite G in H. discriminate.
  Qed.
  Lemma resolve_all_error rels e : resolve_all root limit kdir rels = Error e ->
    e = LoopError /\ exists rel, In rel rels /\ go rel = Loop.
  Proof.
    induction rels as [|rel rels IH]; cbn [resolve_all]; [discriminate|].
    unfold resolve. destruct (go rel) as [r m| |] eqn:G; cbn [rbind].
    1-2: destruct (resolve_all root limit kdir rels) as [xs| |]; cbn [rbind]; try discriminate; intros H; destruct (IH H) as (E & x & I & L);
      split; [assumption|]; exists x; split; [now right|assumption].
    intros [= <-]. split; [reflexivity|]. exists rel. split; [now left|assumption].
  Qed.
  Lemma resolve_all_ends rels : resolve_all root limit kdir rels <> Endless.
  Proof.
    induction rels as [|rel rels IH]; cbn [resolve_all]; [discriminate|].
    unfold resolve. destruct (go rel); cbn [rbind]; try discriminate;
      destruct (resolve_all root limit kdir rels); cbn [rbind]; congruence.
  Qed.

  Lemma exclude_avoided ex : exclude_real root limit kdir a = Fine ex ->
    (exists real archs, reaches root limit (kdir ++ [$"arch"]) real /\ located root real (LDir archs)) /\
    forall real, In real ex <-> avoided root limit kdir (a_class a) real.
  Proof.
    unfold exclude_real. destruct (resolve_all root limit kdir (map (fun d => [d]) excluded_top)) as [top| |] eqn:T; cbn [rbind]; try discriminate.
    unfold iterdir. destruct (stat root limit kdir [$"arch"]) as [[c|archs|b t|]|] eqn:D; cbn [rbind]; try discriminate.
    set (names := filter _ _). destruct (resolve_all root limit kdir (map (fun x => [$"arch"; x]) names)) as [xs| |] eqn:X; cbn [rbind]; try discriminate.
    intros [= <-]. apply st_dir in D as (rarch & more & G & P). pose proof (proj1 (place_located root S _ _) P) as L.
    assert (reaches root limit (kdir ++ [$"arch"]) rarch) as R by (apply go_reaches; eauto).
    split; [eauto|]. intros real. rewrite in_app_iff, (resolve_all_fine _ _ T real), (resolve_all_fine _ _ X real).
    unfold avoided, to_avoid. split.
    - intros [(rel & I & H)|(rel & I & H)]; exists rel; (split; [|assumption]); apply in_map_iff in I as (x & <- & I).
      + left. exists x. split; [exact I|reflexivity].
      + right. unfold names in I. apply filter_In in I as [I N]. apply in_map_iff in I as ([y m] & E & I). cbn in E. subst y.
        exists rarch, archs, x, m. split; [assumption|]. split; [assumption|]. split; [assumption|]. split; [|reflexivity].
        rewrite <- class_dir. apply negb_true_iff in N. now apply eqb_neq.
    - intros (rel & [(d & U & ->)|(ra & ar & x & m & Ra & La & I & N & ->)] & H).
      + left. exists [d]. split; [|assumption]. apply in_map_iff. exists d. split; [reflexivity|exact U].
      + right. exists [$"arch"; x]. split; [|assumption]. apply in_map_iff. exists x. split; [reflexivity|]. unfold names. apply filter_In.
        apply go_reaches in Ra as (m' & Ga). rewrite G in Ga. injection Ga as <- <-.
        apply (place_located root S) in La. rewrite P in La. injection La as <-. split.
        * apply in_map_iff. exists (x, m). auto.
        * apply negb_true_iff. rewrite class_dir. now apply neq_eqb.
  Qed.

  Lemma kdir_dir ex : exclude_real root limit kdir a = Fine ex ->
    exists real more es, go [] = At real more /\ place root real = Some (LDir es).
  Proof.
    intros E. apply exclude_avoided in E as [(real & archs & R & _) _]. apply go_reaches in R as (more & R).
    apply (go_prefix root limit kdir [] $"arch" [] real more); [|exact R]. intros c [<-|[]]. reflexivity.
  Qed.

  (** What the search prints. *)
  Lemma linked_all out : linked_search root limit kdir (enough root limit) a = Fine out ->
    forall line, In line out <-> exists rel n text s, visited_line root limit kdir (a_class a) rel n text /\
      candidate a text /\ stripped text s /\ line = report rel n s.
  Proof.
    unfold linked_search. destruct (exclude_real root limit kdir a) as [ex| |] eqn:E; cbn [rbind]; try discriminate.
    intros F line. rewrite (search_seen root limit kdir ex _ _ _ _ F line). cbn [app].
    pose proof (proj2 (exclude_avoided _ E)) as A.
    assert (V : forall rel content, seen root limit kdir ex [] rel content <-> visited root limit kdir (a_class a) rel content).
    { intros rel content. rewrite seen_iff. unfold visited. cbn [app]. split.
      - intros (C & H & St & Pr). split; [exact C|]. split; [intros c x I; now apply hidden_iff; apply H|]. split.
        + unfold stat in St. destruct (go rel) as [real more| |] eqn:G; try discriminate. exists real. split; [apply go_reaches; eauto|].
          now apply (place_located root S).
        + intros pre suf Eq N1 N2. destruct (Pr pre suf Eq N1 N2) as (real & more & G & NI). exists real. split; [apply go_reaches; eauto|].
          now rewrite <- A.
      - intros (C & H & (real & R & L) & Pr). split; [exact C|]. split; [intros c I; apply hidden_iff; intros x; now apply H|]. split.
        + apply go_reaches in R as (more & G). unfold stat. rewrite G. now apply (place_located root S).
        + intros pre suf Eq N1 N2. destruct (Pr pre suf Eq N1 N2) as (r & R' & NI). apply go_reaches in R' as (more & G).
          exists r, more. split; [assumption|]. now rewrite A. }
    split.
    - intros (rel & content & Sn & I). apply V in Sn. apply grep_file_spec in I as (ls & n & text & s & I1 & I2 & I3 & I4 & I5 & I6).
      exists rel, n, text, s. split; [|auto]. exists content, ls. auto.
    - intros (rel & n & text & s & (content & ls & Vi & I1 & I2 & I3) & I4 & I5 & I6). exists rel, content. split; [now apply V|].
      apply grep_file_spec. exists ls, n, text, s. auto 7.
  Qed.

  (** It ends; what can go wrong. *)
  Lemma linked_ends : linked_search root limit kdir (enough root limit) a <> Endless /\
    forall e, linked_search root limit kdir (enough root limit) a = Error e ->
      e = LoopError /\ (exists rel, (to_avoid root limit kdir (a_class a) rel) /\ go rel = Loop) \/
      e <> LoopError /\ forall real archs, reaches root limit (kdir ++ [$"arch"]) real -> ~ located root real (LDir archs).
  Proof.
    unfold linked_search. destruct (exclude_real root limit kdir a) as [ex|e|] eqn:E; cbn [rbind].
    - destruct (kdir_dir _ E) as (real & more & es & G & P).
      destruct (search_ends root limit kdir (search_exp a) ex (enough root limit) [] real more es G P) as [out ->].
      + apply follow_less in G. apply place_height in P. unfold enough.
        assert (more * Datatypes.S (height root) <= limit * Datatypes.S (height root))%nat by (apply Nat.mul_le_mono_r; lia).
        change (Datatypes.S limit * Datatypes.S (height root))%nat with (Datatypes.S (height root) + limit * Datatypes.S (height root))%nat. lia.
      + split; [discriminate|]. intros e [=].
    - split; [discriminate|]. intros e' [= <-]. unfold exclude_real in E.
      destruct (resolve_all root limit kdir (map (fun d => [d]) excluded_top)) as [top|e0|] eqn:T; cbn [rbind] in E; try discriminate.
      2:{ injection E as <-. apply resolve_all_error in T as (-> & rel & I & L). left. split; [reflexivity|]. exists rel. split; [|assumption].
          left. apply in_map_iff in I as (d & <- & I). exists d. split; [exact I|reflexivity]. }
      unfold iterdir in E. destruct (stat root limit kdir [$"arch"]) as [n|] eqn:D.
      + assert (forall real archs, reaches root limit (kdir ++ [$"arch"]) real -> located root real (LDir archs) -> n = LDir archs) as U.
        { intros real archs R L. apply go_reaches in R as (m & G). unfold stat in D. rewrite G in D.
          apply (place_located root S) in L. congruence. }
        destruct n as [c|archs|b t|]; cbn [rbind] in E; try (injection E as <-; right; split; [discriminate|]; intros real ar R L; specialize (U real ar R L); discriminate U).
        set (names := filter _ _) in E. destruct (resolve_all root limit kdir (map (fun x => [$"arch"; x]) names)) as [xs|e0|] eqn:X; cbn [rbind] in E; try discriminate.
        injection E as <-. apply resolve_all_error in X as (-> & rel & I & L). left. split; [reflexivity|]. exists rel. split; [|assumption].
        right. apply in_map_iff in I as (x & <- & I). unfold names in I. apply filter_In in I as [I N]. apply in_map_iff in I as ([y m] & Ey & I). cbn in Ey. subst y.
        apply st_dir in D as (rarch & more & G & P). exists rarch, archs, x, m. split; [apply go_reaches; eauto|].
        split; [now apply (place_located root S)|]. split; [assumption|]. split; [|reflexivity].
        rewrite <- class_dir. apply negb_true_iff in N. now apply eqb_neq.
      + cbn [rbind] in E. injection E as <-. right. split; [discriminate|]. intros real archs R L. apply go_reaches in R as (m & G).
        unfold stat in D. rewrite G in D. apply (place_located root S) in L. congruence.
    - exfalso. revert E. unfold exclude_real.
      destruct (resolve_all root limit kdir (map (fun d => [d]) excluded_top)) as [top|e0|] eqn:T; cbn [rbind]; try discriminate; [|now apply resolve_all_ends in T].
      unfold iterdir. destruct (stat root limit kdir [$"arch"]) as [[c|archs|b t|]|]; cbn [rbind]; try discriminate.
      set (names := filter _ _). destruct (resolve_all root limit kdir (map (fun x => [$"arch"; x]) names)) as [xs|e0|] eqn:X; cbn [rbind]; try discriminate.
      now apply resolve_all_ends in X.
  Qed.
End Whole.
