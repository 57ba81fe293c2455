(** Lemmas about the search through the sources: the files, and what is found in the end. *)
From Coq Require Import List Bool Ascii String ZArith Lia Permutation.
From Verif Require Import PyBase PyFacts Regex RegexFacts RegexDen M_Utils M_Elf M_Syscall M_Arch M_Config M_Location
  S_Elf S_Signature S_Location L_Utils L_Kernel L_Location L_Location2 L_Location5 L_Location6 M_Search S_Search L_Search.
Import ListNotations.
Open Scope Z_scope.
Open Scope list_scope.

(** * Lines of a file *)

Lemma stripped_brstrip l s : stripped l s <-> s = brstrip l.
Proof.
  unfold stripped, brstrip, rstrip_by. destruct (dropwhile_spec is_bspace (rev l)) as (p & E1 & E2 & E3). split.
  - intros (w & -> & W & H). rewrite rev_app_distr.
    assert (forall u v, forallb is_bspace u = true -> (forall c v', v = c :: v' -> is_bspace c = false) -> dropwhile is_bspace (u ++ v) = v) as D.
    { intros u v U V. induction u as [|c u IH]; cbn [app].
      - destruct v as [|c v]; [reflexivity|]. cbn [dropwhile]. now rewrite (V c v eq_refl).
      - cbn [forallb] in U. apply andb_prop in U as [Uc U]. cbn [dropwhile]. rewrite Uc. now apply IH. }
    rewrite D.
    + now rewrite rev_involutive.
    + unfold bblanks in W. rewrite forallb_forall in W |- *. intros c C. apply W. now apply in_rev.
    + intros c v' E. apply (f_equal (@rev ascii)) in E. rewrite rev_involutive in E. cbn [rev] in E. now apply (H (rev v')).
  - intros ->. exists (rev p). apply (f_equal (@rev ascii)) in E1. rewrite rev_involutive, rev_app_distr in E1. split; [exact E1|]. split.
    + unfold bblanks. rewrite forallb_forall in E2 |- *. intros c C. apply E2. now apply in_rev.
    + intros x c E. apply (f_equal (@rev ascii)) in E. rewrite rev_involutive, rev_app_distr in E. cbn [rev app] in E. rewrite E in E3. exact E3.
Qed.
Lemma grep_from_spec exp name ls : forall n x, In x (grep_from exp name n ls) <->
  exists i text, nth_error ls i = Some text /\ re_search exp text <> None /\ x = name ++ $":" ++ str_of_int (n + Z.of_nat i) ++ $":" ++ brstrip text.
Proof.
  induction ls as [|l ls IH]; intros n x; cbn [grep_from].
  - split; [intros []|]. intros ([|i] & text & E & _); discriminate.
  - rewrite in_app_iff, IH. split.
    + intros [H|(i & text & E & R & ->)].
      * destruct (re_search exp l) eqn:R; [|destruct H]. destruct H as [<-|[]]. exists O, l. split; [reflexivity|]. split; [congruence|]. now rewrite Z.add_0_r.
      * exists (S i), text. split; [exact E|]. split; [exact R|]. now replace (n + 1 + Z.of_nat i) with (n + Z.of_nat (S i)) by lia.
    + intros ([|i] & text & E & R & ->).
      * left. cbn in E. injection E as ->. destruct (re_search exp text); [|congruence]. left. now rewrite Z.add_0_r.
      * right. exists i, text. split; [exact E|]. split; [exact R|]. now replace (n + 1 + Z.of_nat i) with (n + Z.of_nat (S i)) by lia.
Qed.
Lemma grep_file_spec a rel content x : In x (grep_file (search_exp a) rel content) <->
  exists ls n text s, lines_of content ls /\ 1 <= n /\ nth_error ls (Z.to_nat (n - 1)) = Some text /\ candidate a text /\ stripped text s /\ x = report rel n s.
Proof.
  unfold grep_file. rewrite grep_from_spec. split.
  - intros (i & text & E & R & ->). exists (lines_keep content), (1 + Z.of_nat i), text, (brstrip text).
    split; [apply lines_of_ex|]. split; [lia|]. split; [now replace (Z.to_nat (1 + Z.of_nat i - 1)) with i by lia|].
    split; [now apply search_spec|]. split; [now apply stripped_brstrip|]. reflexivity.
  - intros (ls & n & text & s & L & N & E & C & S & ->). apply lines_of_keep in L. subst ls. exists (Z.to_nat (n - 1)), text.
    split; [exact E|]. split; [now apply search_spec|]. apply stripped_brstrip in S. subst s. unfold report. now replace (1 + Z.of_nat (Z.to_nat (n - 1))) with n by lia.
Qed.

(** * The tree *)

Section NodeInd.
Variable P : node -> Prop.
Hypothesis Hf : forall c, P (NFile c).
Hypothesis Ho : P NOther.
Hypothesis Hd : forall es, Forall (fun x => P (snd x)) es -> P (NDir es).
Fixpoint node_all (n : node) : P n :=
  match n with
  | NFile c => Hf c
  | NOther => Ho
  | NDir es => Hd es ((fix go (l : list (str * node)) : Forall (fun x => P (snd x)) l :=
      match l with [] => Forall_nil _ | x :: l' => Forall_cons _ (node_all (snd x)) (go l') end) es)
  end.
End NodeInd.

Definition entry (exp : re) (ex : list str -> bool) (cur : list str) (x : str * node) : list str :=
  if startswith (fst x) $"." then []
  else match snd x with
       | NFile content => if endswith (fst x) $".c" then grep_file exp (cur ++ [fst x]) content else []
       | NDir _ => if ex (cur ++ [fst x]) then [] else grep_recursive exp ex (cur ++ [fst x]) (snd x)
       | NOther => []
       end.
Lemma grep_dir exp ex cur es : grep_recursive exp ex cur (NDir es) = flat_map (entry exp ex cur) es.
Proof.
  induction es as [|[name m] es IH]; [reflexivity|]. cbn [flat_map]. rewrite <- IH. reflexivity.
Qed.
Definition c_source (rel : list str) : Prop := exists dirs name, rel = dirs ++ [name ++ $".c"].
Definition visible (rel : list str) : Prop := forall c x, In c rel -> c <> "."%char :: x.
Lemma hidden_iff c : startswith c $"." = false <-> forall x, c <> "."%char :: x.
Proof.
  rewrite (startswith_no c $"."). reflexivity.
Qed.
Lemma c_iff c : endswith c $".c" = true <-> exists x, c = x ++ $".c".
Proof. unfold endswith. rewrite startswith_iff. split.
  - intros [t E]. apply (f_equal (@rev ascii)) in E. rewrite rev_involutive, rev_app_distr, rev_involutive in E. now exists (rev t).
  - intros [x ->]. exists (rev x). apply rev_app_distr.
Qed.

Lemma grep_recursive_spec exp ex n : forall cur x, In x (grep_recursive exp ex cur n) <->
  exists rel content, rel <> [] /\ file_at n rel content /\ c_source rel /\ visible rel /\
    (forall pre suf, rel = pre ++ suf -> pre <> [] -> suf <> [] -> ex (cur ++ pre) = false) /\ In x (grep_file exp (cur ++ rel) content).
Proof.
  induction n as [c| |es IH] using node_all; intros cur x.
  - split; [intros []|]. intros (rel & content & N & F & _). inversion F. congruence.
  - split; [intros []|]. intros (rel & content & N & F & _). inversion F.
  - rewrite grep_dir, in_flat_map. split.
    + intros ([name m] & I & H). unfold entry in H. cbn [fst snd] in H. destruct (startswith name $".") eqn:E1; [destruct H|].
      rewrite hidden_iff in E1. destruct m as [content|es'|]; [| |destruct H].
      * destruct (endswith name $".c") eqn:E2; [|destruct H]. apply c_iff in E2. exists [name], content. split; [discriminate|]. split; [eapply fa_dir; [exact I|constructor]|].
        split; [destruct E2 as [y ->]; now exists [], y|]. split; [intros c y [<-|[]]; apply E1|]. split; [|exact H].
        intros [|p pre] suf E Np Ns; [congruence|]. cbn [app] in E. injection E as -> E. symmetry in E. apply app_eq_nil in E as [-> ->]. congruence.
      * destruct (ex (cur ++ [name])) eqn:E2; [destruct H|]. rewrite Forall_forall in IH. specialize (IH _ I). cbn [snd] in IH. apply IH in H as (rel & content & N & F & (dirs & y & C) & V & X & H).
        exists (name :: rel), content. split; [discriminate|]. split; [eapply fa_dir; [exact I|exact F]|]. split; [exists (name :: dirs), y; now rewrite C|].
        split; [intros c z [<-|Ic]; [apply E1|now apply V]|]. split.
        -- intros [|p pre] suf E Np Ns; [congruence|]. cbn [app] in E. injection E as <- E. destruct pre as [|q pre]; [exact E2|].
           replace (cur ++ name :: q :: pre) with ((cur ++ [name]) ++ q :: pre) by (rewrite <- app_assoc; reflexivity). eapply X; [exact E|discriminate|exact Ns].
        -- now rewrite <- app_assoc in H.
    + intros (rel & content & N & F & C0 & V & X & H). inversion F as [|es' name m rel' content' I F' E1 E2 E3]; subst. destruct C0 as (dirs & y & C).
      exists (name, m). split; [exact I|]. unfold entry. cbn [fst snd].
      assert (startswith name $"." = false) as ->. { refine (proj2 (hidden_iff name) _). intros z. refine (V name z _). left. reflexivity. }
      destruct m as [content'|es'|]; [| |inversion F'].
      * inversion F'; subst. replace (endswith name $".c") with true; [exact H|]. symmetry. apply c_iff.
        destruct dirs as [|d dirs]; cbn [app] in C; [injection C as ->; eauto|]. injection C as _ C. destruct dirs; discriminate.
      * assert (rel' <> []) as N' by (inversion F'; discriminate). rewrite (X [name] rel') by (auto; discriminate).
        rewrite Forall_forall in IH. apply (IH _ I). exists rel', content. split; [exact N'|]. split; [exact F'|]. split.
        -- destruct dirs as [|d dirs]; cbn [app] in C; [injection C as _ C; contradiction|]. injection C as _ ->. now exists dirs, y.
        -- split; [intros c z Ic; apply V; now right|]. split; [|now rewrite <- app_assoc].
           intros pre suf -> Np Ns. rewrite <- app_assoc. apply (X (name :: pre) suf); [reflexivity|discriminate|exact Ns].
Qed.

(** * The excluded directories *)

Lemma unsearched_iff d : existsb (str_eqb d) excluded_top = true <-> unsearched d.
Proof.
  rewrite existsb_exists. unfold unsearched, excluded_top. split.
  - intros (x & I & E). apply str_eqb_eq in E. subst. exact I.
  - intros I. exists d. split; [exact I|]. apply str_eqb_refl.
Qed.
Lemma class_dir k : class_name k = arch_dir k.
Proof. destruct k; reflexivity. Qed.
Lemma unsearched_arch : ~ unsearched $"arch".
Proof. unfold unsearched. vm_compute. intuition congruence. Qed.
Lemma exclude_spec a archs rel : (forall m l x, rel = $"arch" :: x :: m :: l -> In x archs) ->
  ((forall pre suf, rel = pre ++ suf -> pre <> [] -> suf <> [] -> exclude a archs ([] ++ pre) = false) <->
   (forall d m l, rel = d :: m :: l -> ~ unsearched d) /\ (forall x m l, rel = $"arch" :: x :: m :: l -> x = arch_dir (a_class a))).
Proof.
  intros A. split.
  - intros H. split.
    + intros d m l -> U. specialize (H [d] (m :: l) eq_refl). cbn [app exclude] in H. apply unsearched_iff in U. rewrite H in U; congruence.
    + intros x m l ->. specialize (H [$"arch"; x] (m :: l) eq_refl). cbn [app exclude] in H. rewrite str_eqb_refl in H. cbn [andb] in H.
      assert (existsb (str_eqb x) archs = true) as Ea. { apply existsb_exists. exists x. split; [now apply (A m l)|apply str_eqb_refl]. }
      rewrite Ea in H.
      cbn [andb] in H. rewrite <- class_dir. apply str_eqb_eq. destruct (str_eqb x (class_name (a_class a))); [reflexivity|]. symmetry. apply H; discriminate.
  - intros [H1 H2] pre suf -> Np Ns. cbn [app]. destruct pre as [|d pre]; [congruence|]. destruct pre as [|x pre].
    + cbn [exclude]. destruct suf as [|m suf]; [congruence|]. specialize (H1 d m suf eq_refl). rewrite <- unsearched_iff in H1. now destruct (existsb (str_eqb d) excluded_top).
    + destruct pre; [|reflexivity]. cbn [exclude]. destruct (str_eqb d $"arch") eqn:E; [|reflexivity]. apply str_eqb_eq in E. subst d. destruct suf as [|m suf]; [congruence|].
      assert (str_eqb x (class_name (a_class a)) = true) as ->. { rewrite class_dir. apply str_eqb_eq. exact (H2 x m suf eq_refl). } apply andb_false_r.
Qed.

Lemma nodup_entry (es : list (str * node)) name m m' : NoDup (map fst es) -> In (name, m) es -> In (name, m') es -> m = m'.
Proof.
  induction es as [|[x y] es IH]; intros N I J; [destruct I|]. cbn in N. inversion N as [|? ? N1 N2]; subst.
  destruct I as [I|I], J as [J|J].
  - congruence.
  - injection I as -> ->. destruct N1. now apply (in_map fst) in J.
  - injection J as -> ->. destruct N1. now apply (in_map fst) in I.
  - now apply IH.
Qed.
Lemma find_arch es archs : NoDup (map fst es) -> (find (fun x : str * node => str_eqb (fst x) $"arch") es = Some ($"arch", NDir archs) <-> In ($"arch", NDir archs) es).
Proof.
  intros N. split.
  - intros E. now apply find_some in E as [E _].
  - intros I. destruct (find (fun x => str_eqb (fst x) $"arch") es) as [[x m]|] eqn:E.
    + apply find_some in E as [E1 E2]. apply str_eqb_eq in E2. cbn [fst] in E2. subst x. do 2 f_equal. now apply (nodup_entry es $"arch").
    + exfalso. apply find_none with (x := ($"arch", NDir archs)) in E; [|exact I]. cbn [fst] in E. now rewrite str_eqb_refl in E.
Qed.
Lemma search_ok a sources out : tree_ok sources ->
  (python_search a sources = Ok out <-> exists es archs, sources = NDir es /\ In ($"arch", NDir archs) es /\
     out = grep_recursive (search_exp a) (exclude a (map fst archs)) [] sources).
Proof.
  intros T. unfold python_search. destruct sources as [c|es|].
  - split; [discriminate|]. intros (es & archs & E & _). discriminate.
  - inversion T as [| |es' N F]; subst. split.
    + destruct (find (fun x => str_eqb (fst x) $"arch") es) as [[x m]|] eqn:E; [|discriminate]. destruct m as [|archs|]; try discriminate. intros H.
      exists es, archs. split; [reflexivity|]. apply find_some in E as [E1 E2]. apply str_eqb_eq in E2. cbn [fst] in E2. subst x. split; [exact E1|]. congruence.
    + intros (es' & archs & E & I & ->). injection E as <-. apply find_arch in I; [|exact N]. now rewrite I.
  - split; [discriminate|]. intros (es & archs & E & _). discriminate.
Qed.
Lemma search_all a sources out : tree_ok sources -> python_search a sources = Ok out ->
  forall line, In line out <-> exists rel n text s, source_line sources (a_class a) rel n text /\ candidate a text /\ stripped text s /\ line = report rel n s.
Proof.
  intros T E line. apply search_ok in E as (es & archs & -> & I & ->); [|exact T]. rewrite grep_recursive_spec. unfold source_line, searched.
  inversion T as [| |es' N F]; subst.
  assert (forall rel content, file_at (NDir es) rel content -> forall m l x, rel = $"arch" :: x :: m :: l -> In x (map fst archs)) as A.
  { intros rel content Fa m l x ->. inversion Fa as [|? ? n ? ? I1 Fb]; subst. rewrite (nodup_entry es $"arch" n (NDir archs) N I1 I) in Fb. inversion Fb as [|? ? n' ? ? I2 Fc]; subst.
    now apply (in_map fst) in I2. }
  split.
  - intros (rel & content & _ & Fa & C & V & X & H). cbn [app] in H. apply grep_file_spec in H as (ls & n & text & s & L & Hn & Nth & Ca & St & ->).
    apply exclude_spec in X as [X1 X2]; [|now apply (A rel content)]. exists rel, n, text, s. split; [|auto]. exists content, ls. split; [exact Fa|]. split; [|auto]. split; [exact C|]. split; [exact V|]. split; [exact X1|exact X2].
  - intros (rel & n & text & s & (content & ls & Fa & (C & V & X1 & X2) & L & Hn & Nth) & Ca & St & ->). exists rel, content.
    split; [destruct C as (d & y & ->); now destruct d|]. split; [exact Fa|]. split; [exact C|]. split; [exact V|]. split.
    + apply exclude_spec; [now apply (A rel content)|auto].
    + cbn [app]. apply grep_file_spec. exists ls, n, text, s. auto 7.
Qed.
Lemma search_error a sources : tree_ok sources ->
  (python_search a sources = Raise FileNotFoundError <-> ~ exists es archs, sources = NDir es /\ In ($"arch", NDir archs) es).
Proof.
  intros T. split.
  - intros E (es & archs & -> & I).
    assert (python_search a (NDir es) = Ok (grep_recursive (search_exp a) (exclude a (map fst archs)) [] (NDir es))) by (apply search_ok; [exact T|eauto]). congruence.
  - intros H. destruct (python_search a sources) as [out|e|c|] eqn:E.
    + exfalso. apply search_ok in E as (es & archs & -> & I & _); [|exact T]. eauto.
    + f_equal. unfold python_search in E. destruct sources as [c|es|]; try congruence.
      destruct (find _ es) as [[x [c|archs|]]|]; congruence.
    + unfold python_search in E. destruct sources as [c'|es|]; try congruence.
      destruct (find _ es) as [[x [c'|archs|]]|]; congruence.
    + unfold python_search in E. destruct sources as [c'|es|]; try congruence.
      destruct (find _ es) as [[x [c'|archs|]]|]; congruence.
Qed.

(** * What is found in the end *)

Lemma colon_split R X p q : ~ In ":"%char R -> R ++ $":" ++ X = p ++ $":" ++ q -> (p = R /\ q = X) \/ exists p', p = R ++ $":" ++ p' /\ X = p' ++ $":" ++ q.
Proof.
  revert p. induction R as [|c R IH]; intros p N E.
  - destruct p as [|d p]; cbn in E; [injection E as ->; now left|]. injection E as <- E. right. exists p. auto.
  - destruct p as [|d p]; cbn in E.
    + injection E as -> _. destruct N. now left.
    + injection E as <- E. destruct (IH p) as [[-> ->]|(p' & -> & ->)]; [intros H; apply N; now right|exact E|now left|right]. now exists p'.
Qed.
Lemma colon_unique R R' X X' : ~ In ":"%char R -> ~ In ":"%char R' -> R ++ $":" ++ X = R' ++ $":" ++ X' -> R = R' /\ X = X'.
Proof.
  intros N N' E. destruct (colon_split _ _ _ _ N E) as [[-> ->]|(p' & -> & _)]; [auto|]. destruct N'. apply in_or_app. right. now left.
Qed.
Lemma number_plain n : 0 <= n -> ~ In ":"%char (str_of_int n) /\ (exists c t, str_of_int n = c :: t /\ is_dec c = true) /\ int_dec (str_of_int n) = n.
Proof.
  intros H. destruct (is_number_str n H) as (N & D & V). split; [|split; [|exact V]].
  - intros I. rewrite forallb_forall in D. specialize (D _ I). discriminate.
  - destruct (str_of_int n) as [|c t]; [congruence|]. cbn [forallb] in D. apply andb_prop in D as [D _]. eauto.
Qed.
Lemma join_no_colon rel : Forall plain_name rel -> ~ In ":"%char (join $"/" rel).
Proof.
  induction 1 as [|x rel (_ & _ & _ & X) F IH]; [intros []|]. cbn [join]. destruct rel as [|y rel]; [exact X|].
  intros I. apply in_app_iff in I as [I|I]; [contradiction|]. apply in_app_iff in I as [[I|[]]|I]; [discriminate|contradiction].
Qed.
Lemma path_rel rel : Forall plain_name rel -> rel <> [] -> path_of_str (join $"/" rel) = Path [] rel.
Proof.
  intros F N. rewrite <- (path_str_roundtrip (Path [] rel)).
  - destruct rel; [congruence|reflexivity].
  - split; [now left|]. eapply Forall_impl; [|exact F]. intros x (X1 & X2 & X3 & _). split; auto.
Qed.
Lemma report_place kdir rel n s f m : Forall plain_name rel -> rel <> [] -> 0 <= n ->
  grep_place kdir (report rel n s) f m -> f = path_join kdir (Path [] rel) /\ m = n.
Proof.
  intros F N Hn (file & num & t & E & T & C & (Nn & D) & -> & ->). unfold report in E.
  apply colon_unique in E as [E1 E2]; [|now apply join_no_colon|exact C]. subst file. split; [now rewrite path_rel|].
  destruct (number_plain n Hn) as (P1 & P2 & P3). rewrite forallb_forall in D. destruct T as [->|(t' & ->)].
  - exfalso. assert (In ":"%char num) as I. { rewrite app_nil_r in E2. rewrite <- E2. apply in_or_app. right. now left. } specialize (D _ I). discriminate.
  - apply colon_unique in E2 as [<- _]; [exact P3|exact P1|]. intros I. specialize (D _ I). discriminate.
Qed.
Lemma report_hit a name rel n s : Forall plain_name rel -> 0 <= n -> (grep_hit a name (report rel n s) <-> macro_line blanks a name s).
Proof.
  intros F Hn. destruct (number_plain n Hn) as (P1 & (dc & dt & P2 & P2') & P3). unfold report. split.
  - intros (p & c & b & d & w & m & e & t & S & C & B & D & W & E & L). apply colon_split in L; [|now apply join_no_colon].
    assert (forall q : str, c ++ $"SYSCALL" ++ q = (dc :: dt) ++ $":" ++ s -> False) as No.
    { intros q X. destruct (a_compat a); [destruct C as [-> | ->]|subst c]; cbn in X; injection X as <- X; discriminate. }
    destruct L as [[-> L]|(p' & -> & L)]; [rewrite P2 in L; now apply No in L|]. apply colon_split in L; [|exact P1]. destruct L as [[-> L]|(p'' & -> & L)].
    + exists [], c, b, d, w, m, e, t. split; [exact S|]. split; [now left|]. split; [exact C|]. conj. now rewrite <- L.
    + exists (p'' ++ $":"), c, b, d, w, m, e, t. split; [exact S|]. split; [right; eauto|]. conj. rewrite <- app_assoc. exact L.
  - intros (p & c & b & d & w & m & e & t & S & P & C & B & D & W & E & ->). destruct P as [->|(x & ->)].
    + exists (join $"/" rel ++ $":" ++ str_of_int n), c, b, d, w, m, e, t. split; [exact S|]. conj. rewrite <- !app_assoc. reflexivity.
    + exists (join $"/" rel ++ $":" ++ str_of_int n ++ $":" ++ x), c, b, d, w, m, e, t. split; [exact S|]. conj. rewrite <- !app_assoc. reflexivity.
Qed.
Lemma macro_line_more blank a name s w : macro_line blank a name s -> macro_line blank a name (s ++ w).
Proof.
  intros (p & c & b & d & w' & m & e & t & S & P & C & B & D & W & E & ->). exists p, c, b, d, w', m, e, (t ++ w). conj. rewrite <- !app_assoc. reflexivity.
Qed.
Lemma bspace_space c : is_bspace c = true -> is_space c = true.
Proof. destruct c as [[] [] [] [] [] [] [] []]; vm_compute; congruence. Qed.
Lemma bblanks_blanks w : bblanks w -> blanks w.
Proof. unfold bblanks, blanks. rewrite !forallb_forall. intros H c C. now apply bspace_space, H. Qed.
Lemma rstrip_keep x c t : is_bspace c = false -> brstrip (x ++ [c] ++ t) = x ++ [c] ++ brstrip t.
Proof.
  intros C. symmetry. apply stripped_brstrip. destruct (proj2 (stripped_brstrip t (brstrip t)) eq_refl) as (w & E & W & H). exists w. split.
  - rewrite E at 1. now rewrite <- !app_assoc.
  - split; [exact W|]. intros y c' X. destruct (brstrip t) as [|b u _] using rev_ind.
    + rewrite app_nil_r in X. apply app_inj_tail in X as [_ <-]. exact C.
    + rewrite !app_assoc in X. apply app_inj_tail in X as [_ <-]. now apply (H u b).
Qed.
Lemma macro_line_strip a name text : macro_line bblanks a name text -> macro_line blanks a name (brstrip text).
Proof.
  intros (p & c & b & d & w & m & e & t & S & P & C & B & D & W & E & ->). exists p, c, b, d, w, m, e, (brstrip t).
  assert (exists ch, e = [ch] /\ is_bspace ch = false) as (ch & -> & Hc) by (destruct E as [-> | ->]; eexists; split; reflexivity).
  split; [exact S|]. split; [exact P|]. split; [exact C|]. split; [exact B|]. split; [exact D|]. split; [now apply bblanks_blanks|]. split; [exact E|].
  rewrite !app_assoc. rewrite <- (app_assoc _ [ch] t). rewrite rstrip_keep by exact Hc. now rewrite <- !app_assoc.
Qed.
Lemma macro_candidate a name text : (exists x t, name = x :: t /\ is_bword x = true) -> macro_line bblanks a name text -> candidate a text.
Proof.
  intros (x & nt0 & -> & X) (p & c & b & d & w & m & e & t & S & P & C & B & D & W & E & ->).
  assert (exists nt, m = x :: nt) as (nt & ->).
  { inversion S as [|? y ? nt F S']; subst. exists nt. destruct F as [<-|(-> & _)]; [reflexivity|discriminate X]. }
  exists p, (c ++ $"SYSCALL" ++ b ++ $"_DEFINE" ++ [d] ++ w ++ $"(" ++ (x :: nt) ++ e ++ t), ((x :: nt) ++ e ++ t), [], x, (nt ++ e ++ t).
  split; [reflexivity|]. split.
  - intros (y & c' & E' & Wc). destruct P as [->|(z & ->)]; [now destruct y|]. change $":" with [":"%char] in E'. apply app_inj_tail in E' as [_ <-]. discriminate.
  - split; [left; exists c, b, d, w; conj|]. split; [reflexivity|]. split; [reflexivity|exact X].
Qed.

Lemma source_line_rel sources k rel n text : source_line sources k rel n text -> rel <> [] /\ 0 <= n.
Proof. intros (content & ls & _ & ((d & y & ->) & _) & _ & N & _). split; [now destruct d|lia]. Qed.

Section Found.
Context {A : Type}.
Variables (w : world) (kdir : path) (a : arch) (sources : node) (scs : list (A * syscall)) (r : list (A * option (path * Z))).
Hypothesis T : tree_ok sources.
Hypothesis Ty : tidy sources.
Hypothesis Hw : w_grep w = python_search a sources.
Hypothesis R : grep_kernel_sources w kdir a scs = Ok r.

Lemma found_place x f n : In (x, Some (f, n)) r ->
  exists s rel text, In (x, s) scs /\ source_line sources (a_class a) rel n text /\ macro_line blanks a (sc_origname s) text /\ f = path_join kdir (Path [] rel).
Proof.
  intros I. destruct (grep_spec w kdir a scs r R) as (out & given & left & E & Pg & Po & F). rewrite Hw in E.
  assert (exists y, In y given /\ x = fst (fst y) /\ match snd y with
      | Some line => grep_hit a (sc_origname (snd (fst y))) line /\ (exists f' n', Some (f, n) = Some (f', n') /\ grep_place kdir line f' n')
      | None => Some (f, n) = None end) as (y & Iy & Ex & H).
  { clear -F I. induction F as [|u v r given (E1 & E2) F IH]; [destruct I|]. destruct I as [->|I].
    - exists v. split; [now left|]. split; [exact E1|]. destruct (snd v); [|apply E2]. destruct E2 as (G & (f' & n' & X & Y) & _). split; [exact G|]. eauto.
    - destruct (IH I) as (y & Iy & H). exists y. split; [now right|exact H]. }
  destruct y as [[x' s] [line|]]; cbn [fst snd] in *; [|discriminate]. subst x'. destruct H as (G & f' & n' & X & Pl). injection X as <- <-.
  assert (In line out) as Il. { apply (Permutation_in (l := lines_given given ++ left)); [now apply Permutation_sym|]. apply in_or_app. left. unfold lines_given. apply in_flat_map. exists (x, s, Some line). split; [exact Iy|now left]. }
  apply (search_all a sources out T E) in Il as (rel & m & text & t & SL & Ca & St & ->). destruct (source_line_rel _ _ _ _ _ SL) as [Nr Nm].
  assert (Forall plain_name rel) as Pr. { destruct SL as (content & ls & Fa & _). now apply (Ty rel content). }
  apply report_place in Pl as [-> ->]; [|exact Pr|exact Nr|exact Nm]. apply report_hit in G; [|exact Pr|exact Nm].
  exists s, rel, text. split.
  - apply (Permutation_in _ Pg). apply (in_map fst) in Iy. exact Iy.
  - split; [exact SL|]. split; [|reflexivity]. destruct St as (wt & -> & _). now apply macro_line_more.
Qed.
Lemma missed x : In (x, None) r ->
  exists s, In (x, s) scs /\ forall rel n text, source_line sources (a_class a) rel n text -> macro_line bblanks a (sc_origname s) text ->
    (exists c t, sc_origname s = c :: t /\ is_bword c = true) ->
    exists y s', In (y, s') scs /\ macro_line blanks a (sc_origname s') text /\ In (y, Some (path_join kdir (Path [] rel), n)) r.
Proof.
  intros I. destruct (grep_spec w kdir a scs r R) as (out & given & left & E & Pg & Po & F). rewrite Hw in E.
  assert (exists y, In y given /\ x = fst (fst y) /\ match snd y with
      | Some line => exists f' n', None = Some (f', n') :> option (path * Z)
      | None => forall l, In l left -> ~ grep_hit a (sc_origname (snd (fst y))) l end) as (y & Iy & Ex & H).
  { clear -F I. induction F as [|u v r given (E1 & E2) F IH]; [destruct I|]. destruct I as [->|I].
    - exists v. split; [now left|]. split; [exact E1|]. destruct (snd v); [|apply E2]. destruct E2 as (G & (f' & n' & X & Y) & _). eauto.
    - destruct (IH I) as (y & Iy & H). exists y. split; [now right|exact H]. }
  destruct y as [[x' s] [line|]]; cbn [fst snd] in *; [destruct H as (? & ? & ?); discriminate|]. subst x'. exists s. split.
  { apply (Permutation_in _ Pg). apply (in_map fst) in Iy. exact Iy. }
  intros rel n text SL M Nm. destruct (source_line_rel _ _ _ _ _ SL) as [Nr Nn].
  assert (Forall plain_name rel) as Pr. { destruct SL as (content & ls & Fa & _). now apply (Ty rel content). }
  assert (In (report rel n (brstrip text)) out) as Il.
  { apply (search_all a sources out T E). exists rel, n, text, (brstrip text). split; [exact SL|]. split; [now apply (macro_candidate a (sc_origname s))|]. split; [now apply stripped_brstrip|reflexivity]. }
  apply (Permutation_in _ Po) in Il. apply in_app_iff in Il as [Il|Il].
  2:{ exfalso. apply (H _ Il). apply report_hit; [exact Pr|exact Nn|]. now apply macro_line_strip. }
  unfold lines_given in Il. apply in_flat_map in Il as ([[y s'] [line|]] & Iy' & Il); [|destruct Il]. cbn [snd] in Il. destruct Il as [->|[]].
  assert (exists u, In u r /\ fst u = y /\ grep_hit a (sc_origname s') (report rel n (brstrip text)) /\ exists f' n', snd u = Some (f', n') /\ grep_place kdir (report rel n (brstrip text)) f' n')
    as (u & Iu & Eu & G & f' & n' & Su & Pl).
  { clear -F Iy'. induction F as [|u v r given (E1 & E2) F IH]; [destruct Iy'|]. destruct Iy' as [->|I].
    - cbn [fst snd] in *. exists u. split; [now left|]. split; [exact E1|]. destruct E2 as (G & X & _). auto.
    - destruct (IH I) as (u' & Iu & H). exists u'. split; [now right|exact H]. }
  apply report_place in Pl as [-> ->]; [|exact Pr|exact Nr|exact Nn]. exists y, s'. split.
  - apply (Permutation_in _ Pg). apply (in_map fst) in Iy'. exact Iy'.
  - split.
    + apply report_hit in G; [|exact Pr|exact Nn]. destruct (proj2 (stripped_brstrip text _) eq_refl) as (wt & -> & _). now apply macro_line_more.
    + destruct u as [u1 u2]. cbn [fst snd] in *. now subst.
Qed.
Lemma result_keys : Permutation (map fst r) (map fst scs).
Proof.
  destruct (grep_spec w kdir a scs r R) as (out & given & left & E & Pg & Po & F).
  replace (map fst r) with (map fst (map fst given)); [now apply Permutation_map|]. clear -F. induction F as [|u v r given (E1 & _) F IH]; [reflexivity|]. cbn. now rewrite IH, E1.
Qed.
Lemma found_only x s rel n text : NoDup (map fst scs) -> In (x, s) scs ->
  source_line sources (a_class a) rel n text -> macro_line bblanks a (sc_origname s) text ->
  (exists c t, sc_origname s = c :: t /\ is_bword c = true) ->
  (forall y s', In (y, s') scs -> macro_line blanks a (sc_origname s') text -> y = x) ->
  exists f n', In (x, Some (f, n')) r.
Proof.
  intros N I SL M Nm Only.
  assert (In x (map fst r)) as Ix. { apply (Permutation_in _ (Permutation_sym result_keys)). now apply (in_map fst) in I. }
  apply in_map_iff in Ix as ([x' [[f n']|]] & E & Ix); cbn [fst] in E; subst x'; [eauto|]. exfalso.
  destruct (missed x Ix) as (s2 & I2 & H).
  assert (s2 = s) as ->.
  { clear -N I I2. induction scs as [|[u v] l IH]; [destruct I|]. cbn in N. inversion N as [|? ? N1 N2]; subst.
    destruct I as [I|I], I2 as [J|J].
    - congruence.
    - injection I as -> ->. destruct N1. now apply (in_map fst) in J.
    - injection J as -> ->. destruct N1. now apply (in_map fst) in I.
    - now apply IH. }
  destruct (H rel n text SL M Nm) as (y & s' & Iy & My & Iu). rewrite (Only y s' Iy My) in Iu.
  assert (NoDup (map fst r)) as Nr. { eapply Permutation_NoDup; [apply Permutation_sym, result_keys|exact N]. }
  clear -Nr Ix Iu. induction r as [|[u v] l IH]; [destruct Ix|]. cbn in Nr. inversion Nr as [|? ? N1 N2]; subst.
  destruct Ix as [I|I], Iu as [J|J].
  - congruence.
  - injection I as -> ->. destruct N1. now apply (in_map fst) in J.
  - injection J as -> ->. destruct N1. now apply (in_map fst) in I.
  - now apply IH.
Qed.
End Found.

(** * Nothing is reported twice *)

Lemma str_of_int_inj n m : 0 <= n -> 0 <= m -> str_of_int n = str_of_int m -> n = m.
Proof. intros N M E. rewrite <- (proj2 (proj2 (number_plain n N))), E. now apply number_plain. Qed.
Lemma report_inj rel rel' n n' s s' : Forall plain_name rel -> Forall plain_name rel' -> rel <> [] -> rel' <> [] -> 0 <= n -> 0 <= n' ->
  report rel n s = report rel' n' s' -> rel = rel' /\ n = n'.
Proof.
  intros F F' N N' Hn Hn' E. unfold report in E. apply colon_unique in E as [E1 E2]; try now apply join_no_colon. split.
  - apply (f_equal path_of_str) in E1. rewrite !path_rel in E1 by assumption. congruence.
  - apply colon_unique in E2 as [E2 _]; try now apply number_plain. now apply str_of_int_inj.
Qed.
Lemma grep_from_nodup exp rel ls : Forall plain_name rel -> rel <> [] -> forall n, 0 <= n -> NoDup (grep_from exp (join $"/" rel) n ls).
Proof.
  intros F N. induction ls as [|l ls IH]; intros n Hn; cbn [grep_from]; [constructor|].
  destruct (re_search exp l); [|apply IH; lia]. cbn [app]. constructor; [|apply IH; lia]. intros I. apply grep_from_spec in I as (i & text & _ & _ & E).
  assert (report rel n (brstrip l) = report rel (n + 1 + Z.of_nat i) (brstrip text)) as E' by exact E. apply report_inj in E' as [_ E']; auto; lia.
Qed.
Lemma nodup_flat {A B} (f : A -> list B) l : NoDup l -> (forall x, In x l -> NoDup (f x)) ->
  (forall x y z, In x l -> In y l -> In z (f x) -> In z (f y) -> x = y) -> NoDup (flat_map f l).
Proof.
  induction 1 as [|x l N1 N2 IH]; intros H1 H2; cbn [flat_map]; [constructor|].
  assert (forall u v : list B, NoDup u -> NoDup v -> (forall z, In z u -> ~ In z v) -> NoDup (u ++ v)) as App.
  { induction u as [|z u IHu]; intros v U V D; [exact V|]. inversion U as [|? ? U1 U2]; subst. cbn [app]. constructor.
    - intros I. apply in_app_iff in I as [I|I]; [contradiction|]. apply (D z); [now left|exact I].
    - apply IHu; auto. intros z' I. apply D. now right. }
  apply App.
  - apply H1. now left.
  - apply IH; [intros y I; apply H1; now right|]. intros y y' z I I'. apply H2; now right.
  - intros z I J. apply in_flat_map in J as (y & Iy & J). rewrite (H2 x y z) in N1; [contradiction|now left|now right|exact I|exact J].
Qed.
Lemma entry_spec exp ex cur name m x : In x (entry exp ex cur (name, m)) -> exists rel content n s, file_at m rel content /\ 0 <= n /\ x = report (cur ++ name :: rel) n s.
Proof.
  intros H.
  assert (In x (grep_recursive exp ex cur (NDir [(name, m)]))) as G by (rewrite grep_dir; cbn [flat_map]; now rewrite app_nil_r).
  apply grep_recursive_spec in G as (rel & content & N & F & _ & _ & _ & G). inversion F as [|? ? m' rel' ? I F']; subst. destruct I as [I|[]]. injection I as <- <-.
  unfold grep_file in G. apply grep_from_spec in G as (i & text & _ & _ & ->). exists rel', content, (1 + Z.of_nat i), (brstrip text). split; [exact F'|]. split; [lia|reflexivity].
Qed.
Lemma grep_recursive_nodup exp ex n : tree_ok n -> forall cur, (forall rel content, file_at n rel content -> Forall plain_name (cur ++ rel)) -> NoDup (grep_recursive exp ex cur n).
Proof.
  induction n as [c| |es IH] using node_all; intros T cur P; [constructor|constructor|].
  inversion T as [| |es' N F]; subst. rewrite grep_dir. rewrite Forall_forall in IH, F. apply nodup_flat.
  - clear -N. induction es as [|[u v] es IH]; [constructor|]. cbn in N. inversion N as [|? ? N1 N2]; subst. constructor; [|now apply IH]. intros I. apply N1. now apply (in_map fst) in I.
  - intros [name m] I. unfold entry. cbn [fst snd]. destruct (startswith name $"."); [constructor|]. destruct m as [content|es'|]; [| |constructor].
    + destruct (endswith name $".c"); [|constructor]. apply grep_from_nodup; [|now destruct cur|lia]. apply (P [name] content). eapply fa_dir; [exact I|constructor].
    + destruct (ex (cur ++ [name])); [constructor|]. apply (IH _ I); [apply (F _ I)|]. intros rel content Fa. rewrite <- app_assoc. apply (P (name :: rel) content). eapply fa_dir; [exact I|exact Fa].
  - intros [x m] [y m'] z I J Iz Jz. apply entry_spec in Iz as (rel & content & k & s & Fa & K & ->). apply entry_spec in Jz as (rel' & content' & k' & s' & Fa' & K' & E).
    apply report_inj in E as [E _]; auto.
    + apply app_inv_head in E. injection E as <- _. f_equal. now apply (nodup_entry es x).
    + apply (P (x :: rel) content). eapply fa_dir; [exact I|exact Fa].
    + apply (P (y :: rel') content'). eapply fa_dir; [exact J|exact Fa'].
    + now destruct cur.
    + now destruct cur.
Qed.
Lemma search_nodup a sources out : tree_ok sources -> tidy sources -> python_search a sources = Ok out -> NoDup out.
Proof.
  intros T Ty E. apply search_ok in E as (es & archs & E & I & ->); [|exact T]. apply grep_recursive_nodup; [exact T|]. intros rel content F. now apply (Ty rel content).
Qed.
