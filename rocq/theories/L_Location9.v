(** Lemmas for C75: the whole extraction, with the search through the sources. *)
From Coq Require Import List Bool Ascii String ZArith Lia Permutation Sorted.
From Verif Require Import PyBase PyFacts Regex M_Utils M_Elf M_Syscall M_Arch M_Location
  S_Elf S_Signature S_Location L_Utils L_ElfText L_Signature3 L_Location L_Location2 L_Location3 L_Location4 L_Location5 L_Location6 L_Location7.
Import ListNotations.
Open Scope Z_scope.
Open Scope list_scope.

Lemma place_grep_loc kdir line f n : grep_place kdir line f n -> grep_loc kdir line = Ok (f, n).
Proof.
  intros (file & num & t & -> & T & N & (Ne & D) & -> & ->). unfold grep_loc. change ($":" ++ num ++ t) with (":"%char :: num ++ t).
  rewrite split_char_app by exact N. 
  assert (~ In ":"%char num) as C by (intros I; rewrite forallb_forall in D; specialize (D _ I); discriminate).
  assert (exists r, split_char ":"%char (num ++ t) = num :: r) as (r & ->).
  { destruct T as [->|(t' & ->)]; [rewrite app_nil_r, split_char_no by exact C; eauto|]. change ($":" ++ t') with (":"%char :: t'). rewrite split_char_app by exact C. eauto. }
  apply str_eqb_neq in Ne. rewrite Ne, D. reflexivity.
Qed.
Definition honest (w : world) (kdir : path) (line : str) : Prop :=
  exists f n content ls, grep_place kdir line f n /\ w_file w f = Some content /\ lines_of content ls /\ n <= len ls + 1.
Definition fits (w : world) (x : path * Z) : Prop := forall a s, exists g, good_location w (fst x) (snd x) a s = Ok g.
Lemma honest_fits w kdir line : honest w kdir line -> exists l, grep_loc kdir line = Ok l /\ fits w l.
Proof.
  intros (f & n & content & ls & P & W & L & B). exists (f, n). split; [now apply place_grep_loc|]. intros a s. cbn [fst snd]. unfold good_location. rewrite W. change bytes with str. rewrite (lines_of_keep content ls L).
  destruct (Nat.ltb_spec (List.length ls) (Z.to_nat (n - 1))) as [X|X]; [|eauto]. unfold len, str in *. lia.
Qed.
Lemma grep_lines_calm {A} w kdir out : Forall (honest w kdir) out -> forall (exps : list (A * Regex.re)),
  exists r, grep_lines kdir exps out = Ok r /\ Forall (fun x => match snd x with Some l => fits w l | None => True end) r.
Proof.
  induction 1 as [|line out H F IH]; intros exps; cbn [grep_lines].
  - eexists. split; [reflexivity|]. apply Forall_map, Forall_forall. intros e _. exact I.
  - destruct (take_match line exps) as [(s & exps')|]; [|apply IH]. destruct (honest_fits _ _ _ H) as (l & -> & Fl). destruct (IH exps') as (r & -> & Fr). cbn [bind]. eexists. split; [reflexivity|]. now constructor.
Qed.
Lemma step4_calm w a l : Forall (fun x : nat * option (path * Z) => match snd x with Some l => fits w l | None => True end) l ->
  forall scs, exists r, step4 w a scs l = Ok r.
Proof.
  induction 1 as [|(i & [(f & n)|]) l H F IH]; intros scs; cbn [step4]; [eauto| |apply IH]. destruct (H a (at_ scs i)) as (g & G). cbn [fst snd] in G. rewrite G. cbn [bind]. apply IH.
Qed.
Lemma extract_calm w ans have elf kdir rdir a kres scs out : addr2line_says (w_addr2line w) ans -> w_grep w = Ok out -> Forall (honest w kdir) out ->
  all_steady w ans elf kdir rdir scs -> calm (extract_syscall_locations w have a elf (Some kdir) rdir kres scs).
Proof.
  intros S G H St. unfold extract_syscall_locations. destruct have; cbn [negb]; [|apply calm_Ok]. apply calm_bind; [now apply (search_calm w ans)|]. intros (scs' & st) _. cbn [fst snd].
  destruct st; try apply calm_Ok. unfold grep_kernel_sources. rewrite G. cbn [bind].
  assert (Forall (honest w kdir) (sort_by_rev Z.leb (grep_key a) out)) as H'.
  { apply Forall_forall. intros x X. unfold sort_by_rev in X. apply sort_in in X. rewrite Forall_forall in H. now apply H. }
  destruct (grep_lines_calm w kdir _ H' (map (fun x : nat * syscall => (fst x, grep_exp a (sc_origname (snd x)))) (map (fun i => (i, at_ scs' i)) l))) as (r & -> & Fr). cbn [bind].
  destruct (step4_calm w a (sort_grepped scs' r)) with (scs := scs') as (r' & ->); [|apply calm_Ok].
  apply Forall_forall. intros x X. unfold sort_grepped in X. apply sort_by_in in X. rewrite Forall_forall in Fr. now apply Fr.
Qed.

(** * In terms of the specifications *)
Lemma parent_eq p dir : parent_of p dir -> path_parent p = dir.
Proof. intros (name & ->). unfold path_parent. cbn. rewrite removelast_last. now destruct dir. Qed.
Lemma each_one w : answers_each (w_addr2line w) -> one_answer w.
Proof.
  intros H addrs answers E. unfold ask in E. apply bind_Ok in E as (out & O & E). injection E as <-. destruct (H _ _ O) as (ls & -> & L & F). now rewrite splitlines_unlines.
Qed.
Lemma says_each run ans : addr2line_says run ans -> answers_each run.
Proof.
  intros (O & S) addrs out H. rewrite S in H. injection H as <-. eexists. split; [reflexivity|]. split; [now rewrite map_length|].
  apply Forall_map, Forall_forall. intros v _. now apply text_row.
Qed.
Lemma handed_over w a elf kdir rdir kres scs scs' l : answers_each (w_addr2line w) -> Forall fresh_syscall scs ->
  search_locations w a elf (Some kdir) rdir kres scs = Ok (scs', Grep l) ->
  List.length scs' = List.length scs /\ NoDup l /\ (forall i, In i l -> (i < List.length scs')%nat) /\
  (forall i s, nth_error scs' i = Some s -> (In i l <-> missing s)).
Proof.
  intros H F E. apply each_one in H. destruct (search_grep w a elf kdir rdir kres scs scs' _ H F E) as (L & N & B & M). split; [exact L|]. split; [exact N|]. split; [exact B|].
  intros i s Hs. assert (at_ scs' i = s) as <- by (unfold at_; now apply nth_error_nth). apply M. apply nth_error_Some. congruence.
Qed.
Lemma skipped w ans a elf dir kdir rdir kres scs scs' st : addr2line_says (w_addr2line w) ans -> parent_of elf dir -> Forall fresh_syscall scs ->
  search_locations w a elf (Some kdir) rdir kres scs = Ok (scs', st) -> (forall l, st <> Grep l) ->
  (st = AllBad /\ scs <> [] /\ Forall (fun s => missing s /\ 1 < sym_size (sc_symbol s)) scs') \/
  (st = Outside /\ exists s f n, In s scs /\ place_of dir kdir rdir (ans (sym_real (sc_symbol s))) f n /\ w_file w f <> None /\ forall t, f <> path_join kres (Path [] t)).
Proof.
  intros S P F E N. destruct (search_grep w a elf kdir rdir kres scs scs' st (each_one w (says_each _ _ S)) F E) as (_ & M). destruct st; [contradiction|left; auto| |now elim (N l)]. right. split; [reflexivity|].
  destruct M as (answers & d & l & f & n & A & I & Sm & R & Sn & W & O). rewrite (ask_says w ans _ S) in A. injection A as <-. apply in_map_iff in I as (v & <- & I). apply in_map_iff in I as (s & <- & I).
  exists s, f, n. split; [exact I|]. split; [|split; [exact W|exact O]]. rewrite <- (parent_eq elf dir P). apply (place_text w elf kdir rdir _ l (Some f) f n (proj1 S _) Sm R). unfold usable. rewrite Sn. now destruct (w_file w f).
Qed.
Lemma provenance w ans a elf dir kdir rdir kres scs r : addr2line_says (w_addr2line w) ans -> parent_of elf dir -> Forall (fun s => sc_good s = false) scs ->
  extract_syscall_locations w true a elf (Some kdir) rdir kres scs = Ok r ->
  Forall2 (fun s s' => same_but_location s s' /\ (sc_good s' = true -> sc_grepped s' = false -> traced (w_file w) ans dir kdir rdir s')) scs r.
Proof. intros S P F E. rewrite <- (parent_eq elf dir P). exact (extract_ok w ans elf kdir rdir a S kres scs r F E). Qed.
Lemma no_panic w ans have elf dir kdir rdir a kres scs out : addr2line_says (w_addr2line w) ans -> parent_of elf dir -> w_grep w = Ok out -> Forall (honest_line (w_file w) kdir) out ->
  Forall (fun s => steady_symbol (w_file w) ans dir kdir rdir (sc_symbol s)) scs ->
  (exists r, extract_syscall_locations w have a elf (Some kdir) rdir kres scs = Ok r) \/ extract_syscall_locations w have a elf (Some kdir) rdir kres scs = Exit 1.
Proof. intros S P G H St. rewrite <- (parent_eq elf dir P) in St. exact (extract_calm w ans have elf kdir rdir a kres scs out S G H St). Qed.

(** Answers that are not understood. *)
Lemma discriminator w a elf rdir kres s f n m : f <> $"??" -> ~ In ":"%char f -> row f -> 0 <= n -> 0 <= m ->
  w_addr2line w [sym_real (sc_symbol s)] = Ok (f ++ $":" ++ str_of_int n ++ $" (discriminator " ++ str_of_int m ++ $")" ++ [NL]) ->
  exists s', extract_syscall_locations w true a elf None rdir kres [s] = Ok [s'] /\ sc_file s' = Some (path_of_str f) /\ sc_line s' = None.
Proof.
  intros N C L Hn Hm E. unfold extract_syscall_locations, search_locations, ask. cbn [negb map]. rewrite E. cbn [bind].
  assert (forall k, 0 <= k -> forallb is_dec (str_of_int k) = true) as D by (intros k K; rewrite str_of_int_digits by exact K; apply digits_dec_b).
  assert (forall k c, 0 <= k -> is_dec c = false -> ~ In c (str_of_int k)) as DI by (intros k c K Hc I; specialize (D k K); rewrite forallb_forall in D; rewrite (D c I) in Hc; discriminate).
  set (d := f ++ $":" ++ str_of_int n ++ $" (discriminator " ++ str_of_int m ++ $")").
  replace (f ++ $":" ++ str_of_int n ++ $" (discriminator " ++ str_of_int m ++ $")" ++ [NL]) with (unlines [d]) by (unfold d, unlines; cbn [map List.concat]; rewrite app_nil_r, <- !app_assoc; reflexivity).
  rewrite splitlines_unlines.
  - cbn [mapM]. unfold smart_loc, parse_loc, d. change ($":" ++ str_of_int n ++ $" (discriminator " ++ str_of_int m ++ $")") with (":"%char :: str_of_int n ++ $" (discriminator " ++ str_of_int m ++ $")").
    rewrite split_char_app by exact C. rewrite split_char_no.
    + apply str_eqb_neq in N. rewrite N. assert (isdigit (str_of_int n ++ $" (discriminator " ++ str_of_int m ++ $")") = false) as ->.
      { assert (forallb is_digit (str_of_int n ++ $" (discriminator " ++ str_of_int m ++ $")") = false) as X by (rewrite forallb_app; cbn; apply andb_false_r).
        revert X. generalize (str_of_int n ++ $" (discriminator " ++ str_of_int m ++ $")"). intros x X. destruct x; [reflexivity|exact X]. }
      cbn. eauto.
    + rewrite !in_app_iff. intros [I|[I|[I|I]]]; [now apply (DI n ":"%char)| |now apply (DI m ":"%char)|]; cbn in I; repeat destruct I as [I|I]; try discriminate; contradiction.
  - constructor; [|constructor]. unfold d. rewrite !row_app. repeat split; try (now apply row_literal); try (now apply row_digits). exact L.
Qed.
Lemma colon w a elf kdir rdir kres s f n : In ":"%char f -> row f -> 0 <= n ->
  w_addr2line w [sym_real (sc_symbol s)] = Ok (f ++ $":" ++ str_of_int n ++ [NL]) ->
  extract_syscall_locations w true a elf kdir rdir kres [s] = Raise ValueError.
Proof.
  intros C L Hn E. unfold extract_syscall_locations, search_locations, ask. cbn [negb map]. rewrite E. cbn [bind].
  assert (forallb is_dec (str_of_int n) = true) as D by (rewrite str_of_int_digits by exact Hn; apply digits_dec_b).
  assert (forall c, is_dec c = false -> ~ In c (str_of_int n)) as DI by (intros c Hc I; rewrite forallb_forall in D; rewrite (D c I) in Hc; discriminate).
  set (d := f ++ $":" ++ str_of_int n).
  replace (f ++ $":" ++ str_of_int n ++ [NL]) with (unlines [d]) by (unfold d, unlines; cbn [map List.concat]; rewrite app_nil_r, <- !app_assoc; reflexivity).
  rewrite splitlines_unlines.
  - cbn [mapM]. unfold smart_loc, parse_loc, d. apply in_split in C as (f1 & f2 & ->).
    assert (exists x y z r, split_char ":"%char ((f1 ++ ":"%char :: f2) ++ $":" ++ str_of_int n) = x :: y :: z :: r) as (x & y & z & r & ->); [|reflexivity].
    rewrite <- app_assoc. cbn [app]. assert (forall g t, exists u v, split_char ":"%char (g ++ ":"%char :: t) = u :: v /\ v <> []) as G.
    { induction g as [|c g IH]; intros t; cbn [app split_char]; [rewrite ascii_eqb_refl; exists [], (split_char ":"%char t); split; [reflexivity|apply split_char_ne]|].
      destruct (IH t) as (u & v & -> & V). destruct (Ascii.eqb c ":"%char); eauto. exists [], (u :: v). split; [reflexivity|discriminate]. }
    assert (forall g t, exists u v, split_char ":"%char (g ++ ":"%char :: t) = u :: v /\ exists p, v = p ++ split_char ":"%char t) as G2.
    { induction g as [|c g IH]; intros t; cbn [app split_char]; [rewrite ascii_eqb_refl; exists [], (split_char ":"%char t); split; [reflexivity|now exists []]|].
      destruct (IH t) as (u & v & -> & p & ->). destruct (Ascii.eqb c ":"%char).
      - exists [], (u :: p ++ split_char ":"%char t). split; [reflexivity|]. now exists (u :: p).
      - exists (c :: u), (p ++ split_char ":"%char t). split; [reflexivity|]. now exists p. }
    destruct (G2 f1 (f2 ++ $":" ++ str_of_int n)) as (u & v & E1 & p & E2). rewrite E1, E2. destruct (G f2 (str_of_int n)) as (u' & v' & E3 & V). change (f2 ++ $":" ++ str_of_int n) with (f2 ++ ":"%char :: str_of_int n). rewrite E3.
    destruct v' as [|z v']; [contradiction|]. destruct p as [|p1 [|p2 p]]; cbn; eauto 10.
  - constructor; [|constructor]. unfold d. rewrite !row_app. repeat split; try (now apply row_literal); try (now apply row_digits). exact L.
Qed.
Lemma found_words w have a elf kdir rdir kres scs r : Forall (fun s => sc_good s = false) scs ->
  extract_syscall_locations w have a elf kdir rdir kres scs = Ok r ->
  forall s, In s r -> sc_good s = true -> word_names s ->
  exists f l content text, sc_file s = Some f /\ sc_line s = Some l /\ w_file w f = Some content /\ line_text content l text /\
    (defines a (sc_origname s) text \/ defines a (sc_name s) text).
Proof.
  intros B H s I G (N1 & N2). pose proof (extract_found w have a elf kdir rdir kres scs r B H) as F.
  assert (exists s0, found w a s0 s) as (s0 & _ & Wl).
  { clear -F I. induction F as [|x y l m Q F IH]; [destruct I|]. destruct I as [->|I]; eauto. }
  destruct (Wl G) as (f & l & content & text & E1 & E2 & E3 & T & D). exists f, l, content, text. repeat (split; [assumption|]).
  destruct D as [D|D]; [left|right]; now apply (accepts_defines a text).
Qed.
Lemma points_to_run w ans dir kdir rdir a s v f n l : place_of dir kdir rdir (ans v) f n ->
  adjust_line w f n = Ok l -> good_location w f l a s = Ok true -> points_to (w_file w) ans dir kdir rdir a s v.
Proof.
  intros P A G. apply adjust_found in A as (content & ls & W & L & A). apply good_location_spec in G as (c & text & W' & (ls' & L' & T) & D).
  assert (c = content) as -> by congruence. assert (ls' = ls) as -> by (rewrite <- (lines_of_keep content ls L); symmetry; now apply lines_of_keep).
  exists f, n, content, ls, l, text. auto 8.
Qed.
