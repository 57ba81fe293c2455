(** Lemmas for C107 *)
From Coq Require Import List Bool Ascii String ZArith Lia.
From Verif Require Import PyBase PyFacts M_Utils M_Elf M_Arch M_Main M_HelpText M_Help S_Utils S_Elf S_Arch S_Init S_Main S_Help.
From Verif Require Import L_Utils L_Arch L_Arch2 L_Init L_Main.
Import ListNotations.
Open Scope Z_scope.
Open Scope list_scope.

(** ** Cutting lines into cells *)
Fixpoint cut (l : str) : str * str :=
  match l with
  | [] => ([], [])
  | c :: l' =>
      match l' with
      | d :: _ => if Ascii.eqb c SPACE && Ascii.eqb d SPACE then ([], l) else let '(a, b) := cut l' in (c :: a, b)
      | [] => ([c], [])
      end
  end.
Fixpoint trim (l : str) : str := match l with c :: l' => if Ascii.eqb c SPACE then trim l' else l | [] => [] end.
Fixpoint cut_all (n : nat) (l : str) : list str :=
  match n with
  | O => []
  | S n' => let '(a, b) := cut l in a :: match trim b with [] => [] | _ => cut_all n' (trim b) end
  end.
Definition cells_of (l : str) : list str := cut_all (List.length l) l.

Definition tail_cell (c : str) : Prop := (forall s, c <> s ++ [SPACE]) /\ forall s t, c <> s ++ SPACE :: SPACE :: t.
Lemma tail_cell_tl x c : tail_cell (x :: c) -> tail_cell c.
Proof. intros [A B]. split; [intros s E; apply (A (x :: s)); now rewrite E|intros s t E; apply (B (x :: s) t); now rewrite E]. Qed.
Lemma cell_tail c : cell c -> tail_cell c.
Proof. intros [_ _ A B]. now split. Qed.

Lemma cut_end c : tail_cell c -> cut c = (c, []).
Proof.
  induction c as [|x c IH]; intros T; [reflexivity|]. cbn [cut]. destruct c as [|y c]; [reflexivity|].
  rewrite (IH (tail_cell_tl _ _ T)). destruct (Ascii.eqb x SPACE && Ascii.eqb y SPACE) eqn:E; [|reflexivity].
  apply andb_true_iff in E as [->%Ascii.eqb_eq ->%Ascii.eqb_eq]. exfalso. now apply (proj2 T [] c).
Qed.
Lemma cut_more c rest : tail_cell c -> cut (c ++ SPACE :: SPACE :: rest) = (c, SPACE :: SPACE :: rest).
Proof.
  induction c as [|x c IH]; intros T; [reflexivity|].
  cbn [app cut]. rewrite (IH (tail_cell_tl _ _ T)). destruct c as [|y c]; cbn [app].
  - destruct (Ascii.eqb x SPACE) eqn:E; [|reflexivity]. apply Ascii.eqb_eq in E as ->. exfalso. now apply (proj1 T []).
  - destruct (Ascii.eqb x SPACE && Ascii.eqb y SPACE) eqn:E; [|reflexivity].
    apply andb_true_iff in E as [->%Ascii.eqb_eq ->%Ascii.eqb_eq]. exfalso. now apply (proj2 T [] c).
Qed.
Lemma trim_spaces n l : trim (repeat SPACE n ++ l) = trim l.
Proof. induction n as [|n IH]; [reflexivity|exact IH]. Qed.
Lemma trim_cells l cs : cells l cs -> trim l = l /\ l <> [].
Proof.
  intros H. assert (exists x t, l = x :: t /\ x <> SPACE) as (x & t & -> & N).
  { destruct H as [c C|c n rest cs C _ _]; destruct c as [|x c]; try (exfalso; now apply (ce_some _ C)); exists x.
    - exists c. split; [reflexivity|]. intros ->. now apply (ce_first _ C c).
    - eexists. split; [reflexivity|]. intros ->. now apply (ce_first _ C c). }
  split; [|discriminate]. cbn [trim]. now destruct (Ascii.eqb_spec x SPACE).
Qed.
Lemma cut_all_cells l cs : cells l cs -> forall n, (List.length l <= n)%nat -> cut_all n l = cs.
Proof.
  induction 1 as [c C|c g rest cs C G H IH]; intros n L.
  - destruct n as [|n]; [exfalso; apply (ce_some _ C); destruct c; [reflexivity|cbn in L; lia]|].
    cbn [cut_all]. now rewrite (cut_end _ (cell_tail _ C)).
  - destruct n as [|n]; [exfalso; apply (ce_some _ C); destruct c; [reflexivity|cbn in L; lia]|].
    destruct g as [|[|g]]; [lia|lia|]. cbn [repeat app cut_all]. rewrite (cut_more _ _ (cell_tail _ C)).
    destruct (trim_cells _ _ H) as [T N]. change (SPACE :: SPACE :: repeat SPACE g ++ rest) with (repeat SPACE (S (S g)) ++ rest).
    rewrite trim_spaces, T. destruct rest as [|x rest]; [now elim N|]. f_equal. apply IH.
    rewrite !app_length, repeat_length in L. cbn [List.length] in *. lia.
Qed.
Lemma cells_unique l cs : cells l cs -> cells_of l = cs.
Proof. intros H. apply (cut_all_cells _ _ H). lia. Qed.

(** ** Joined items *)
Lemma around_unique (c : ascii) x y x' y' : ~ In c x -> ~ In c x' -> x ++ c :: y = x' ++ c :: y' -> x = x' /\ y = y'.
Proof.
  revert x'. induction x as [|a x IH]; intros [|b x'] N N' E; cbn [app] in E.
  - injection E as <-. auto.
  - injection E as <- _. exfalso. apply N'. now left.
  - injection E as -> _. exfalso. apply N. now left.
  - injection E as <- E. destruct (IH x') as [-> ->]; auto; intro I; [apply N|apply N']; now right.
Qed.
Lemma join_unique (c : ascii) pre post (as_ bs : list str) : ~ In c pre ->
  items c as_ -> items c bs -> join (pre ++ c :: post) as_ = join (pre ++ c :: post) bs -> as_ = bs.
Proof.
  intros P [NA FA] [NB FB]. revert bs NB FB. induction FA as [|a as_ [Na Ia] FA IH]; [now elim NA|]. intros bs NB FB E.
  destruct FB as [|b bs [Nb Ib] FB]; [now elim NB|].
  assert (No : forall (x : str) l z, ~ In c x -> x <> l ++ (pre ++ c :: post) ++ z).
  { intros x l z N ->. apply N. rewrite !in_app_iff. right. left. right. now left. }
  destruct as_ as [|a' as_], bs as [|b' bs]; cbn [join] in E.
  - now rewrite E.
  - exfalso. exact (No a b _ Ia E).
  - exfalso. exact (No b a _ Ib (eq_sym E)).
  - assert (X : (a ++ pre) ++ c :: (post ++ join (pre ++ c :: post) (a' :: as_)) =
                (b ++ pre) ++ c :: (post ++ join (pre ++ c :: post) (b' :: bs))).
    { change (a ++ (pre ++ c :: post) ++ join (pre ++ c :: post) (a' :: as_) = b ++ (pre ++ c :: post) ++ join (pre ++ c :: post) (b' :: bs)) in E.
      revert E. generalize (join (pre ++ c :: post) (a' :: as_)), (join (pre ++ c :: post) (b' :: bs)). intros J K E.
      rewrite <- !app_assoc in E. cbn [app] in E. rewrite <- !app_assoc. exact E. }
    apply around_unique in X as [X Y].
    + apply app_inv_tail in X as ->. apply app_inv_head in Y. f_equal. apply IH; [discriminate| |exact FB|exact Y]. discriminate.
    + now rewrite in_app_iff; intros [I|I].
    + now rewrite in_app_iff; intros [I|I].
Qed.

(** ** Lines *)
Lemma unlines_unique (ls ms : list str) : Forall (fun l => ~ In NL l) ls -> Forall (fun l => ~ In NL l) ms -> unlines ls = unlines ms -> ls = ms.
Proof.
  intros F. revert ms. induction F as [|l ls N F IH]; intros ms G E; destruct G as [|m ms M G]; [reflexivity| | |].
  - exfalso. unfold unlines in E. cbn in E. destruct m; discriminate.
  - exfalso. unfold unlines in E. cbn in E. destruct l; discriminate.
  - unfold unlines in E. cbn [map List.concat] in E. rewrite <- !app_assoc in E. cbn [app] in E.
    apply around_unique in E as [-> E]; auto. f_equal. now apply IH.
Qed.

(** ** The rows of the text *)
Definition rows : list row :=
  [ Row $"arm" [$"arm-eabi"; $"eabi"] $"ARM" true true $"EABI" [$"multi_v7_defconfig"] [$"2"];
    Row $"arm-oabi" [$"oabi"] $"ARM" true true $"OABI" [$"multi_v7_defconfig"] [$"2"; $"4"];
    Row $"arm64" [$"aarch64"] $"ARM" false false $"AArch64" [$"defconfig"] [];
    Row $"arm64-aarch32" [$"aarch32"] $"ARM" false true $"AArch32" [$"defconfig"] [$"1"];
    Row $"mips" [$"mips32"; $"o32"] $"MIPS" true true $"O32" [$"defconfig"] [];
    Row $"mips64" [$"n64"] $"MIPS" false false $"N64" [$"ip27_defconfig"] [$"1"];
    Row $"mips64-n32" [$"n32"] $"MIPS" false false $"N32" [$"ip27_defconfig"] [$"1"];
    Row $"mips64-o32" [$"o32-64"] $"MIPS" false true $"O32" [$"ip27_defconfig"] [$"1"];
    Row $"powerpc" [$"ppc"; $"ppc32"] $"PowerPC" true true $"PPC32" [$"ppc64_defconfig"] [];
    Row $"powerpc64" [$"ppc64"] $"PowerPC" false false $"PPC64" [$"ppc64_defconfig"] [$"1"];
    Row $"powerpc64-32" [$"ppc64-32"] $"PowerPC" false true $"PPC32" [$"ppc64_defconfig"] [$"1"];
    Row $"powerpc64-spu" [$"ppc64-spu"; $"spu"] $"PowerPC" false false $"""SPU""" [$"ppc64_defconfig"] [$"1"; $"5"];
    Row $"riscv" [$"riscv32"; $"rv32"] $"RISC-V" true true $"""RV32""" [$"defconfig"; $"32-bit.config"] [$"3"; $"6"];
    Row $"riscv64" [$"rv64"] $"RISC-V" false false $"""RV64""" [$"defconfig"] [$"1"; $"6"];
    Row $"riscv64-32" [$"rv64-32"] $"RISC-V" false true $"""RV32""" [$"defconfig"] [$"1"; $"6"];
    Row $"x86" [$"i386"; $"ia32"] $"x86" true true $"IA32" [$"i386_defconfig"] [];
    Row $"x86-64" [$"x64"] $"x86" false false $"x86-64" [$"x86_64_defconfig"] [$"1"];
    Row $"x86-64-x32" [$"x32"] $"x86" false false $"x32" [$"x86_64_defconfig"] [$"1"];
    Row $"x86-64-ia32" [$"ia32-64"] $"x86" false true $"IA32" [$"x86_64_defconfig"] [$"1"] ].
Definition print_row (r : row) : list str :=
  [r_value r; join $", " (r_aliases r); r_arch r; bits (r_kernel32 r);
   bits (r_abi32 r) ++ $" " ++ r_abi r; join $" + " (r_build r)] ++
  match r_notes r with [] => [] | _ => [$"[" ++ join $"," (r_notes r) ++ $"]"] end.
Definition good_row (r : row) : Prop :=
  items ","%char (r_aliases r) /\ items "+"%char (r_build r) /\ (r_notes r = [] \/ items ","%char (r_notes r)).
Lemma row_cells_iff r cs : row_cells r cs <-> good_row r /\ cs = print_row r.
Proof.
  split.
  - intros [N A B|N A B]; unfold good_row, print_row; [rewrite N; auto 6|].
    destruct (r_notes r) eqn:E; [now destruct N|]. auto 6.
  - intros [(A & B & [N|N]) ->]; unfold print_row; [rewrite N; now apply rc_plain|].
    destruct (r_notes r) eqn:E; [now destruct N|]. rewrite <- E in *. now apply rc_notes.
Qed.
Lemma bits_inj a b : bits a = bits b -> a = b.
Proof. destruct a, b; auto; discriminate. Qed.
Lemma print_row_inj r r' : good_row r -> good_row r' -> print_row r = print_row r' -> r = r'.
Proof.
  intros (A & B & C) (A' & B' & C') E. destruct r as [v al ar k a32 abi bu no], r' as [v' al' ar' k' a32' abi' bu' no'].
  unfold print_row in E. cbn [r_value r_aliases r_arch r_kernel32 r_abi32 r_abi r_build r_notes app] in *.
  injection E as E1 E2 E3 E4 E5 E6 E7. apply bits_inj in E4.
  assert (a32 = a32' /\ abi = abi') as [-> ->].
  { destruct a32, a32'; cbn in E5; try discriminate; injection E5 as ->; auto. }
  apply (join_unique ","%char [] $" ") in E2; auto. apply (join_unique "+"%char $" " $" ") in E6; auto; [|now intros [?|[]]].
  assert (no = no') as ->.
  { destruct C as [->|C], C' as [->|C']; [reflexivity| | |].
    - destruct no'; [now destruct C'|discriminate].
    - destruct no; [now destruct C|discriminate].
    - destruct no as [|x no]; [now destruct C|]. destruct no' as [|y no']; [now destruct C'|].
      injection E7 as E7. apply app_inv_tail in E7. exact (join_unique ","%char [] [] (x :: no) (y :: no') (fun I => I) C C' E7). }
  now subst.
Qed.

Definition item_ok (sep : ascii) (x : str) : bool := negb (str_eqb x []) && negb (existsb (Ascii.eqb sep) x).
Definition good_rowb (r : row) : bool :=
  negb (parts_eqb (r_aliases r) []) && forallb (item_ok ","%char) (r_aliases r) &&
  negb (parts_eqb (r_build r) []) && forallb (item_ok "+"%char) (r_build r) && forallb (item_ok ","%char) (r_notes r).
Lemma items_ok sep l : l <> [] -> forallb (item_ok sep) l = true -> items sep l.
Proof.
  intros N H. split; [exact N|]. rewrite forallb_forall in H. apply Forall_forall. intros x I. specialize (H x I).
  unfold item_ok in H. apply andb_true_iff in H as [A B]. split.
  - intros ->. discriminate.
  - intros I'. apply negb_true_iff in B. rewrite <- not_true_iff_false in B. apply B, existsb_exists. exists sep. split; [exact I'|apply Ascii.eqb_refl].
Qed.
Lemma good_rowb_good r : good_rowb r = true -> good_row r.
Proof.
  unfold good_rowb. rewrite !andb_true_iff. intros ((((A & B) & C) & D) & E). repeat split.
  1,3: now intros X; rewrite X in *.
  1,2: now apply items_ok; [intros X; rewrite X in *|].
  destruct (r_notes r) eqn:N; [now left|right]. now apply items_ok.
Qed.
Lemma rows_good : Forall good_row rows.
Proof. apply Forall_forall. intros r I. apply good_rowb_good. revert r I. apply forallb_forall. vm_compute. reflexivity. Qed.

Definition body_of (l : str) : option str := if str_eqb (firstn 4 l) $"    " then Some (skipn 4 l) else None.
(** Every line of the text is one of the rows, or its cells cannot be a row's. *)
Definition accounted (l : str) : bool :=
  match body_of l with
  | None => true
  | Some b => existsb (fun r => parts_eqb (cells_of b) (print_row r)) rows ||
      match nth_error (cells_of b) 3 with
      | Some k => negb (str_eqb k (bits true)) && negb (str_eqb k (bits false))
      | None => true
      end
  end.
Lemma all_accounted : forallb accounted help_lines = true.
Proof. vm_compute. reflexivity. Qed.
Lemma help_one_line : Forall (fun l => ~ In NL l) help_lines.
Proof.
  apply Forall_forall. intros l I J. assert (forallb (fun l => negb (existsb (Ascii.eqb NL) l)) help_lines = true) as H by (vm_compute; reflexivity).
  rewrite forallb_forall in H. specialize (H l I). apply negb_true_iff in H. rewrite <- not_true_iff_false in H. apply H, existsb_exists.
  exists NL. split; [exact J|apply Ascii.eqb_refl].
Qed.
Lemma help_unlines : SUPPORTED_ARCHS_HELP = unlines help_lines.
Proof. reflexivity. Qed.
Lemma parts_eqb_true (a b : list str) : parts_eqb a b = true -> a = b.
Proof.
  revert b. induction a as [|x a IH]; intros [|y b] H; try discriminate; [reflexivity|]. cbn in H.
  apply andb_true_iff in H as [->%str_eqb_eq H]. f_equal. now apply IH.
Qed.
Lemma shown_rows r : shown SUPPORTED_ARCHS_HELP r -> In r rows.
Proof.
  intros (first & header & after & line & cs & E & F & _ & I & (body & -> & C) & R).
  rewrite help_unlines in E. apply (unlines_unique _ _ help_one_line F) in E.
  assert (J : In ($"    " ++ body) help_lines) by (rewrite E; apply in_app_iff; right; now right).
  pose proof all_accounted as A. rewrite forallb_forall in A. specialize (A _ J). unfold accounted in A.
  change (body_of ($"    " ++ body)) with (Some body) in A. cbv beta iota in A. rewrite (cells_unique _ _ C) in A.
  apply row_cells_iff in R as [G ->]. apply orb_true_iff in A as [A|A].
  - apply existsb_exists in A as (r' & I' & Q). apply parts_eqb_true in Q.
    pose proof rows_good as RG. rewrite Forall_forall in RG. now rewrite (print_row_inj r r' G (RG r' I') Q).
  - exfalso. unfold print_row in A. cbn [nth_error app] in A. destruct (r_kernel32 r); discriminate A.
Qed.

(** Cells, decided *)
Fixpoint no_gap (c : str) : bool :=
  match c with
  | [] => true
  | x :: c' => match c' with
               | [] => negb (Ascii.eqb x SPACE)
               | y :: _ => negb (Ascii.eqb x SPACE && Ascii.eqb y SPACE) && no_gap c'
               end
  end.
Lemma no_gap_tail c : no_gap c = true -> tail_cell c.
Proof.
  induction c as [|x c IH]; intros H.
  - split; intros [|? ?]; discriminate.
  - cbn [no_gap] in H. destruct c as [|y c].
    + split.
      * intros [|a [|b s]] E; try discriminate. injection E as ->. discriminate H.
      * intros [|a [|b s]] t E; discriminate.
    + apply andb_true_iff in H as [H G]. destruct (IH G) as [A B]. split.
      * intros [|a s] E; [discriminate|]. injection E as <- E. exact (A s E).
      * intros [|a s] t E; injection E as E1 E2; [subst; discriminate H|exact (B s t E2)].
Qed.
Definition cellb (c : str) : bool := match c with [] => false | x :: _ => negb (Ascii.eqb x SPACE) && no_gap c end.
Lemma cellb_cell c : cellb c = true -> cell c.
Proof.
  destruct c as [|x c]; [discriminate|]. cbn [cellb]. intros H. apply andb_true_iff in H as [H G]. destruct (no_gap_tail _ G) as [A B].
  constructor; [discriminate| |exact A|exact B]. intros s [= ->]. discriminate H.
Qed.
(** Cells with gaps of these sizes *)
Fixpoint lay (cs : list (str * nat)) : str := match cs with [] => [] | [(c, _)] => c | (c, n) :: cs' => c ++ repeat SPACE n ++ lay cs' end.
Definition lay_ok (x : str * nat) : bool := cellb (fst x) && (2 <=? snd x)%nat.
Lemma lay_cells (cs : list (str * nat)) : cs <> [] -> forallb lay_ok cs = true -> cells (lay cs) (map fst cs).
Proof.
  induction cs as [|[c n] cs IH]; [now intros []|]. intros _ H. cbn [forallb] in H. apply andb_true_iff in H as [H G].
  apply andb_true_iff in H as [C N%Nat.leb_le]. cbn [fst snd] in *. apply cellb_cell in C. destruct cs as [|x cs]; [now constructor|].
  cbn [lay map fst]. apply cs_more; auto. apply IH; [discriminate|exact G].
Qed.
(** A line cut and laid again *)
Fixpoint spaces (l : str) : nat := match l with c :: l' => if Ascii.eqb c SPACE then S (spaces l') else O | [] => O end.
Fixpoint measure (n : nat) (l : str) : list (str * nat) :=
  match n with
  | O => []
  | S n' => let '(a, b) := cut l in
            match trim b with [] => [(a, 2%nat)] | _ => (a, spaces b) :: measure n' (trim b) end
  end.
Definition line_ok (l : str) (cs : list str) : bool :=
  match body_of l with
  | None => false
  | Some b => let m := measure (List.length b) b in
              negb (parts_eqb (map fst m) []) && str_eqb (lay m) b && forallb lay_ok m && parts_eqb (map fst m) cs
  end.
Lemma line_ok_line l cs : line_ok l cs = true -> table_line l cs.
Proof.
  unfold line_ok, body_of. destruct (str_eqb (firstn 4 l) $"    ") eqn:P; [|discriminate]. cbv zeta.
  set (m := measure _ _). rewrite !andb_true_iff. intros (((A & B) & C) & D). apply str_eqb_eq in P. apply str_eqb_eq in B. apply parts_eqb_true in D.
  exists (skipn 4 l). split; [rewrite <- P; symmetry; apply firstn_skipn|]. rewrite <- B, <- D. apply lay_cells; [|exact C].
  intros E. rewrite E in A. discriminate A.
Qed.
Definition head_lines : list str := firstn 2 help_lines.
Definition header_line : str := nth 2 help_lines [].
Definition table_lines : list str := skipn 3 help_lines.
Lemma rows_shown r : In r rows -> shown SUPPORTED_ARCHS_HELP r.
Proof.
  intros I. assert (X : forallb (fun r => existsb (fun l => line_ok l (print_row r)) table_lines) rows = true) by (vm_compute; reflexivity).
  rewrite forallb_forall in X. specialize (X r I). apply existsb_exists in X as (line & J & L).
  exists head_lines, header_line, table_lines, line, (print_row r).
  assert (E : help_lines = head_lines ++ header_line :: table_lines) by (vm_compute; reflexivity).
  split; [now rewrite help_unlines, E at 1|]. split; [rewrite <- E; apply help_one_line|].
  split; [apply line_ok_line; vm_compute; reflexivity|]. split; [exact J|]. split; [now apply line_ok_line|].
  apply row_cells_iff. split; [|reflexivity]. pose proof rows_good as G. rewrite Forall_forall in G. now apply G.
Qed.
Lemma shown_iff r : shown SUPPORTED_ARCHS_HELP r <-> In r rows.
Proof. split; [apply shown_rows|apply rows_shown]. Qed.

(** ** Rows and code *)
Definition label (k : klass) : str :=
  match k with KArm | KArm64 => $"ARM" | KMips => $"MIPS" | KPowerPC => $"PowerPC" | KRiscV => $"RISC-V" | KX86 => $"x86" end.
Lemma label_ok k : arch_label k (label k).
Proof. destruct k; constructor. Qed.
Definition unquoted (l : str) : str := match l with c :: l' => if Ascii.eqb c DQUOTE then removelast l' else l | [] => [] end.
Definition abi_ok (abi l : str) : bool :=
  str_eqb (lower l) abi || (str_eqb ([DQUOTE] ++ unquoted l ++ [DQUOTE]) l && str_eqb (lower (unquoted l)) abi) ||
  (str_eqb abi $"x64" && str_eqb l $"x86-64").
Lemma abi_ok_label abi l : abi_ok abi l = true -> abi_label abi l.
Proof.
  unfold abi_ok. rewrite !orb_true_iff, !andb_true_iff. intros [[H|[H G]]|[H G]].
  - apply al_plain. now apply str_eqb_eq.
  - apply str_eqb_eq in H. rewrite <- H. apply al_quoted. now apply str_eqb_eq.
  - apply str_eqb_eq in H, G. subst. apply al_x64.
Qed.
Definition doc_row (r : row) (d : doc_arch) : bool :=
  parts_eqb (row_names r) (d_names d) && str_eqb (label (d_class d)) (r_arch r) && Bool.eqb (d_kernel32 d) (r_kernel32 r) &&
  Bool.eqb (d_abi32 d) (r_abi32 r) && abi_ok (d_abi d) (r_abi r).
Lemma rows_documented r : In r rows -> exists d, In d documented /\ doc_row r d = true.
Proof.
  intros I. assert (X : forallb (fun r => existsb (doc_row r) documented) rows = true) by (vm_compute; reflexivity).
  rewrite forallb_forall in X. specialize (X r I). now apply existsb_exists in X.
Qed.
Lemma documented_rows d : In d documented -> exists r, In r rows /\ doc_row r d = true.
Proof.
  intros I. assert (X : forallb (fun d => existsb (fun r => doc_row r d) rows) documented = true) by (vm_compute; reflexivity).
  rewrite forallb_forall in X. specialize (X d I). now apply existsb_exists in X.
Qed.

Lemma doc_row_inv r d : doc_row r d = true ->
  row_names r = d_names d /\ arch_label (d_class d) (r_arch r) /\ d_kernel32 d = r_kernel32 r /\ d_abi32 d = r_abi32 r /\ abi_label (d_abi d) (r_abi r).
Proof.
  unfold doc_row. rewrite !andb_true_iff. intros ((((A & B) & C) & D) & E). apply parts_eqb_true in A. apply str_eqb_eq in B.
  apply Bool.eqb_prop in C, D. apply abi_ok_label in E. rewrite <- B. split; [exact A|]. split; [apply label_ok|auto].
Qed.
Lemma named_shown n : (exists d, In d documented /\ In n (d_names d)) <-> exists r, shown SUPPORTED_ARCHS_HELP r /\ In n (row_names r).
Proof.
  split.
  - intros (d & D & N). destruct (documented_rows d D) as (r & R & E). apply doc_row_inv in E as (E & _). exists r. rewrite shown_iff, E. auto.
  - intros (r & R & N). apply shown_iff in R. destruct (rows_documented r R) as (d & D & E). apply doc_row_inv in E as (E & _). exists d. rewrite <- E. auto.
Qed.
Lemma named_dec n : (exists d, In d documented /\ In n (d_names d)) \/ forall d, In d documented -> ~ In n (d_names d).
Proof.
  destruct (existsb (fun d => existsb (str_eqb n) (d_names d)) documented) eqn:E.
  - left. apply existsb_exists in E as (d & D & E). apply existsb_exists in E as (m & M & ->%str_eqb_eq). now exists d.
  - right. intros d D N. rewrite <- not_true_iff_false in E. apply E, existsb_exists. exists d. split; [exact D|].
    apply existsb_exists. exists n. split; [exact N|now apply str_eqb_eq].
Qed.
Lemma recent d : In d documented -> since (d_since d) [6;1].
Proof.
  intros I. apply since_iff. assert (X : forallb (fun d => ver_geb [6;1] (d_since d)) documented = true) by (vm_compute; reflexivity).
  rewrite forallb_forall in X. exact (X d I).
Qed.
Lemma help_names n : (exists v a, arch_from_name n v = Ok a) <-> exists r, shown SUPPORTED_ARCHS_HELP r /\ In n (row_names r).
Proof.
  rewrite <- named_shown. split.
  - intros (v & a & H). destruct (named_dec n) as [N|N]; [exact N|]. rewrite (arch_name_unknown n v N) in H. discriminate.
  - intros (d & D & N). destruct (arch_name_supported d n [6;1] D N (recent d D)) as (a & A & _). eauto.
Qed.
Lemma help_row r n v a : shown SUPPORTED_ARCHS_HELP r -> In n (row_names r) -> arch_from_name n v = Ok a ->
  arch_label (a_class a) (r_arch r) /\ a_bits32 a = r_kernel32 r /\ a_abi_bits32 a = r_abi32 r /\ abi_label (a_abi a) (r_abi r).
Proof.
  intros R N H. apply shown_iff in R. destruct (rows_documented r R) as (d & D & E). apply doc_row_inv in E as (E1 & E2 & E3 & E4 & E5).
  rewrite E1 in N. destruct (since_or_before (d_since d) v) as [S|S].
  - destruct (arch_name_supported d n v D N S) as (a' & A & F1 & F2 & F3 & F4 & F5). rewrite A in H. injection H as <-.
    rewrite F1, F3, F4, F5. auto.
  - rewrite (arch_name_too_old d n v D N S) in H. discriminate.
Qed.
Lemma help_same r n n' v : shown SUPPORTED_ARCHS_HELP r -> In n (row_names r) -> In n' (row_names r) -> arch_from_name n v = arch_from_name n' v.
Proof.
  intros R N N'. apply shown_iff in R. destruct (rows_documented r R) as (d & D & E). apply doc_row_inv in E as (E1 & _).
  rewrite E1 in N, N'. unfold arch_from_name. now rewrite (doc_name_entry d n D N), (doc_name_entry d n' D N').
Qed.

(** ** Targets *)
Lemma footnote_there n note : In ($"    [" ++ n ++ $"] " ++ note) help_lines -> footnote SUPPORTED_ARCHS_HELP n note.
Proof. intros (a & b & E)%in_split. exists a, b. now rewrite help_unlines, E at 1. Qed.
Lemma note_2_there : footnote SUPPORTED_ARCHS_HELP $"2" note_2.
Proof.
  apply footnote_there. assert (X : existsb (str_eqb ($"    [" ++ $"2" ++ $"] " ++ note_2)) help_lines = true) by (vm_compute; reflexivity).
  apply existsb_exists in X as (l & I & ->%str_eqb_eq). exact I.
Qed.
Lemma note_3_there : footnote SUPPORTED_ARCHS_HELP $"3" note_3.
Proof.
  apply footnote_there. assert (X : existsb (str_eqb ($"    [" ++ $"3" ++ $"] " ++ note_3)) help_lines = true) by (vm_compute; reflexivity).
  apply existsb_exists in X as (l & I & ->%str_eqb_eq). exact I.
Qed.
Definition has_note (n : str) (r : row) : bool := existsb (str_eqb n) (r_notes r).
Lemma has_note_iff n r : has_note n r = true <-> In n (r_notes r).
Proof.
  unfold has_note. rewrite existsb_exists. split; [intros (x & I & ->%str_eqb_eq); exact I|]. intros I. exists n. split; [exact I|now apply str_eqb_eq].
Qed.
(** The notes are given to the rows of the classes they are about. *)
Definition notes_ok (r : row) (d : doc_arch) : bool :=
  Bool.eqb (has_note $"2" r) (klass_eqb (d_class d) KArm) &&
  Bool.eqb (has_note $"3" r) (klass_eqb (d_class d) KRiscV && d_kernel32 d) &&
  parts_eqb (r_build r) (match d_class d, d_kernel32 d with
    | KArm, _ => [$"multi_v7_defconfig"] | KArm64, _ => [$"defconfig"]
    | KMips, true => [$"defconfig"] | KMips, false => [$"ip27_defconfig"]
    | KPowerPC, _ => [$"ppc64_defconfig"]
    | KRiscV, true => [$"defconfig"; $"32-bit.config"] | KRiscV, false => [$"defconfig"]
    | KX86, true => [$"i386_defconfig"] | KX86, false => [$"x86_64_defconfig"] end).
Lemma rows_noted r d : In r rows -> In d documented -> doc_row r d = true -> notes_ok r d = true.
Proof.
  intros R D E. assert (X : forallb (fun r => forallb (fun d => implb (doc_row r d) (notes_ok r d)) documented) rows = true) by (vm_compute; reflexivity).
  rewrite forallb_forall in X. specialize (X r R). rewrite forallb_forall in X. specialize (X d D). now rewrite E in X.
Qed.
Lemma klass_eqb_eq a b : klass_eqb a b = true -> a = b.
Proof. destruct a, b; auto; discriminate. Qed.
Lemma based_unique text r v l l' : ~ (In $"2" (r_notes r) /\ In $"3" (r_notes r)) -> based text r v l -> based text r v l' -> l = l'.
Proof.
  intros X H H'. destruct H as [A _ B|A _ B|A _ B C|A B], H' as [A' _ B'|A' _ B'|A' _ B' C'|A' B']; try reflexivity; try (now elim X; split); exfalso;
  repeat match goal with
    | F : In ?n ?s -> _, I : In ?n ?s |- _ => specialize (F I)
    end;
  match goal with
  | S : since ?w v, B : before ?w v |- _ => exact (since_not_before w v S B)
  | S : since ?w v, B : before ?w' v |- _ => exact (since_before_far w' w v eq_refl S B)
  end.
Qed.
Lemma since_trans w w' v : ver_ltb w w' = true -> since w' v -> since w v.
Proof.
  intros L S. destruct (since_or_before w v) as [X|X]; [exact X|]. exfalso. exact (since_before_far w w' v L S X).
Qed.
Lemma before_trans w w' v : ver_ltb w w' = true -> before w v -> before w' v.
Proof.
  intros L S. destruct (since_or_before w' v) as [X|X]; [|exact X]. exfalso. exact (since_before_far w w' v L X S).
Qed.
Lemma help_targets r n v a : shown SUPPORTED_ARCHS_HELP r -> In n (row_names r) -> arch_from_name n v = Ok a ->
  exists l, based SUPPORTED_ARCHS_HELP r v l /\ (forall l', based SUPPORTED_ARCHS_HELP r v l' -> l' = l) /\
    (a_targets a = l <-> ~ (a_class a = KArm /\ since [3;7] v /\ before [3;8] v)).
Proof.
  intros R N H. apply shown_iff in R. destruct (rows_documented r R) as (d & D & E). pose proof (rows_noted r d R D E) as G.
  apply doc_row_inv in E as (E1 & _). rewrite E1 in N. unfold arch_from_name in H.
  match type of H with match ?x with _ => _ end = _ => assert (x = Some (d_class d, d_abi d, d_kernel32 d)) as Q by exact (doc_name_entry d n D N); rewrite Q in H end.
  pose proof (arch_new_fields _ _ _ _ _ H) as (F1 & F2 & F3 & F4 & _).
  assert (T : base_config v (d_class d) (d_kernel32 d) (a_targets a)).
  { destruct (adjust_regs a (Elf [] false false 0 0 [] [] [])) as (_ & _ & X). apply (base_config_ok _ _ _ _ a (Elf [] false false 0 0 [] [] []) _ H). exact X. }
  unfold notes_ok in G. rewrite !andb_true_iff in G. destruct G as ((G1 & G2) & G3). apply Bool.eqb_prop in G1, G2. apply parts_eqb_true in G3.
  assert (X : ~ (In $"2" (r_notes r) /\ In $"3" (r_notes r))).
  { rewrite <- !has_note_iff, G1, G2. destruct (d_class d); cbn; intros [A B]; discriminate. }
  assert (EX : exists l, based SUPPORTED_ARCHS_HELP r v l /\ (a_targets a = l <-> ~ (a_class a = KArm /\ since [3;7] v /\ before [3;8] v))).
  { rewrite F1. revert G1 G2 G3 T. destruct (d_class d) eqn:K, (d_kernel32 d) eqn:K32; intros G1 G2 G3 T; cbn [klass_eqb andb] in G1, G2;
      try (exists (r_build r); split; [apply ba_cell; rewrite <- has_note_iff, ?G1, ?G2; discriminate|];
           split; [intros _ (Z & _); discriminate Z|intros _; rewrite G3; inversion T; reflexivity]).
    2: inversion T.
    - apply has_note_iff in G1. assert (N3 : ~ In $"3" (r_notes r)) by (rewrite <- has_note_iff, G2; discriminate).
      destruct (since_or_before [3;8] v) as [S|S].
      + exists (r_build r). split; [apply ba_cell; [now intros _|intros I; now elim N3]|]. split.
        * intros _ (_ & _ & B). exact (since_not_before _ _ S B).
        * intros _. rewrite G3. inversion T as [S' E2 E3|S' E2 E3| | | | | | | | | | ]; [reflexivity|]. exfalso. exact (since_before_far [3;7] [3;8] v eq_refl S S').
      + exists [$"defconfig"]. split; [apply ba_arm; auto; apply note_2_there|]. inversion T as [S' E2 E3|S' E2 E3| | | | | | | | | | ].
        * split; [discriminate|]. intros Z. elim Z. auto.
        * split; [|reflexivity]. intros _ (_ & Z & _). exact (since_not_before _ _ Z S').
    - assert (N2 : ~ In $"2" (r_notes r)) by (rewrite <- has_note_iff, G1; discriminate).
      apply has_note_iff in G2. destruct (since_or_before [6;8] v) as [S|S]; [|destruct (since_or_before [5;1] v) as [S'|S']].
      + exists (r_build r). split; [apply ba_cell; [intros I; now elim N2|now intros _]|]. split; [intros _ (Z & _); discriminate Z|]. intros _. rewrite G3.
          inversion T as [ | | | | | | |Z|Z Z'|Z| | ]; [|exfalso; exact (since_not_before _ _ S Z')|reflexivity]. exfalso. exact (since_before_far [5;1] [6;8] v eq_refl S Z).
      + exists [$"rv32_defconfig"]. split; [apply ba_rv32_later; auto; apply note_3_there|]. split; [intros _ (Z & _); discriminate Z|]. intros _.
          inversion T as [ | | | | | | |Z|Z Z'|Z| | ]; [exfalso; exact (since_not_before _ _ S' Z)|reflexivity|exfalso; exact (since_not_before _ _ Z S)].
      + exists [$"defconfig"]. split; [apply ba_rv32; auto; apply note_3_there|]. split; [intros _ (Z & _); discriminate Z|]. intros _.
          inversion T as [ | | | | | | |Z|Z Z'|Z| | ]; [reflexivity|exfalso; exact (since_not_before _ _ Z S')|exfalso; exact (since_before_far [5;1] [6;8] v eq_refl Z S')]. }
  destruct EX as (l & B & I). exists l. split; [exact B|]. split; [|exact I]. intros l' B'. exact (based_unique _ _ _ _ _ X B' B).
Qed.

(** ** One kernel for all ABIs *)
Lemma fresh_same a a' v w : a_class a = a_class a' -> a_bits32 a = a_bits32 a' -> a_class a <> KArm ->
  arch_new (a_class a) (a_version a) (a_abi a) (a_bits32 a) = Ok a -> arch_new (a_class a') (a_version a') (a_abi a') (a_bits32 a') = Ok a' ->
  fresh_kconfig a v = Some w -> fresh_kconfig a' v = Some w.
Proof.
  intros K B N A A'. unfold fresh_kconfig, run_process. cbn [fold_left act_step]. unfold instantiate. rewrite A, A'. cbn [bind app p_objs p_world].
  unfold process0. cbn [p_objs p_world app]. unfold arch_kconfig. rewrite <- K, <- B.
  assert (init_kconfig (a_class a) (a_abi a') (a_bits32 a) = init_kconfig (a_class a) (a_abi a) (a_bits32 a)) as ->; [|auto].
  unfold init_kconfig. destruct (a_class a); try reflexivity. now elim N.
Qed.
Lemma from_name_new n v a : arch_from_name n v = Ok a -> a_version a = v /\ arch_new (a_class a) (a_version a) (a_abi a) (a_bits32 a) = Ok a.
Proof.
  unfold arch_from_name. destruct (dget str_eqb n SUPPORTED_ARCHS) as [[[k abi] b]|]; [|discriminate]. intros H.
  pose proof (arch_new_fields _ _ _ _ _ H) as (-> & -> & -> & -> & _). auto.
Qed.
Lemma row_kernel64 r : In r rows -> has_note $"1" r = true -> r_kernel32 r = false.
Proof.
  intros I. assert (X : forallb (fun r => implb (has_note $"1" r) (negb (r_kernel32 r))) rows = true) by (vm_compute; reflexivity).
  rewrite forallb_forall in X. specialize (X r I). intros H. rewrite H in X. now apply negb_true_iff.
Qed.
Lemma new_class_bits k v abi b a : arch_new k v abi b = Ok a -> k = KArm -> b = true.
Proof. intros H ->. destruct b; [reflexivity|]. discriminate H. Qed.
Lemma label_class k k' l b b' v v' abi abi' a a' : arch_label k l -> arch_label k' l -> arch_new k v abi b = Ok a -> arch_new k' v' abi' b' = Ok a' -> b = false -> b' = false -> k = k'.
Proof.
  intros L L' A A' -> ->. destruct L; inversion L'; try reflexivity; subst; exfalso; discriminate.
Qed.
Lemma kernel64_same r r' n n' v a a' w opts : shown SUPPORTED_ARCHS_HELP r -> shown SUPPORTED_ARCHS_HELP r' -> same_kernel r r' -> r_kernel32 r = false ->
  In n (row_names r) -> In n' (row_names r') -> arch_from_name n v = Ok a -> arch_from_name n' v = Ok a' ->
  a_targets a = a_targets a' /\ (fresh_kconfig a w = Some opts -> fresh_kconfig a' w = Some opts).
Proof.
  intros R R' [S1 S2] K N N' A A'. destruct (help_row r n v a R N A) as (L & B & _). destruct (help_row r' n' v a' R' N' A') as (L' & B' & _).
  destruct (from_name_new n v a A) as [V X]. destruct (from_name_new n' v a' A') as [V' X'].
  assert (a_bits32 a = false) as F by congruence. assert (a_bits32 a' = false) as F' by congruence.
  assert (C : a_class a = a_class a') by (rewrite <- S1 in L'; exact (label_class _ _ _ _ _ _ _ _ _ _ _ L L' X X' F F')).
  assert (NA : a_class a <> KArm) by (intros Z; rewrite (new_class_bits _ _ _ _ _ X Z) in F; discriminate F).
  split; [|apply fresh_same; auto; congruence].
  assert (T : forall a, arch_new (a_class a) (a_version a) (a_abi a) (a_bits32 a) = Ok a -> base_config (a_version a) (a_class a) (a_bits32 a) (a_targets a)).
  { intros b Hb. destruct (adjust_regs b (Elf [] false false 0 0 [] [] [])) as (_ & _ & Y). apply (base_config_ok _ _ _ _ b (Elf [] false false 0 0 [] [] []) _ Hb). exact Y. }
  pose proof (T a X) as Ta. pose proof (T a' X') as Ta'. rewrite V, F in Ta. rewrite V', F', <- C in Ta'.
  destruct (a_class a); try (now elim NA); inversion Ta; inversion Ta'; congruence.
Qed.
Lemma noted_same r r' n n' v a a' w opts : shown SUPPORTED_ARCHS_HELP r -> In $"1" (r_notes r) -> shown SUPPORTED_ARCHS_HELP r' -> same_kernel r r' ->
  In n (row_names r) -> In n' (row_names r') -> arch_from_name n v = Ok a -> arch_from_name n' v = Ok a' ->
  a_targets a = a_targets a' /\ (fresh_kconfig a w = Some opts -> fresh_kconfig a' w = Some opts).
Proof.
  intros R I. intros. eapply (kernel64_same r r' n n'); eauto. apply row_kernel64; [now apply shown_iff|now apply has_note_iff].
Qed.

(** ** What is said *)
Lemma known_shown n : known_arch n <-> exists r m, shown SUPPORTED_ARCHS_HELP r /\ In m (row_names r) /\ Forall2 same_letter n m.
Proof.
  split.
  - intros (d & D & m & M & F). destruct (proj1 (named_shown m)) as (r & R & N); [now exists d|]. exists r, m. auto.
  - intros (r & m & R & M & F). destruct (proj2 (named_shown m)) as (d & D & N); [now exists r|]. exists d. split; [exact D|]. now exists m.
Qed.
Lemma messages silent n :
  (known_arch n /\ arch_messages silent (Some n) = ([], None)) \/
  (asks_help n /\ arch_messages silent (Some n) = (if silent then [] else [SUPPORTED_ARCHS_HELP], Some 0)) \/
  (~ known_arch n /\ ~ asks_help n /\
   arch_messages silent (Some n) = (if silent then [] else [$"Unsupported architecture/ABI combination: " ++ lower n; $"See --arch HELP for a list"], Some 1)).
Proof.
  unfold arch_messages. destruct (dmem str_eqb (lower n) SUPPORTED_ARCHS) eqn:K.
  - left. split; [now apply known_lower|reflexivity].
  - right. assert (NK : ~ known_arch n) by (rewrite known_lower, K; discriminate).
    destruct (str_eqb (lower n) $"help" || str_eqb (lower n) $"?") eqn:H.
    + left. split; [now apply help_lower|reflexivity].
    + right. split; [exact NK|]. split; [rewrite help_lower, H; discriminate|reflexivity].
Qed.
Lemma accepted silent n : arch_messages silent (Some n) = ([], None) <->
  exists r m, shown SUPPORTED_ARCHS_HELP r /\ In m (row_names r) /\ Forall2 same_letter n m.
Proof.
  rewrite <- known_shown. destruct (messages silent n) as [[K ->]|[[H ->]|(K & H & ->)]].
  - now split.
  - split; [discriminate|]. intros K. now elim (help_unknown n H).
  - split; [discriminate|]. intros X. now elim K.
Qed.
Lemma asked silent n : asks_help n -> arch_messages silent (Some n) = (if silent then [] else [SUPPORTED_ARCHS_HELP], Some 0).
Proof.
  intros A. destruct (messages silent n) as [[K _]|[[H ->]|(K & H & _)]]; [now elim (help_unknown n A)|reflexivity|now elim H].
Qed.
Lemma refused silent n : ~ asks_help n -> ~ (exists r m, shown SUPPORTED_ARCHS_HELP r /\ In m (row_names r) /\ Forall2 same_letter n m) ->
  arch_messages silent (Some n) = (if silent then [] else [$"Unsupported architecture/ABI combination: " ++ lower n; $"See --arch HELP for a list"], Some 1).
Proof.
  intros A B. rewrite <- known_shown in B. destruct (messages silent n) as [[K _]|[[H _]|(K & H & ->)]]; [now elim B|now elim A|reflexivity].
Qed.
Lemma messages_check silent arch : snd (arch_messages silent arch) = check_arch (option_map lower arch).
Proof.
  destruct arch as [n|]; [|reflexivity]. cbn [option_map arch_messages check_arch]. destruct (dmem str_eqb (lower n) SUPPORTED_ARCHS); [reflexivity|].
  now destruct (str_eqb (lower n) $"help" || str_eqb (lower n) $"?").
Qed.
