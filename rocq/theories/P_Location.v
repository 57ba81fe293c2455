(** Properties C53-C60, C75 (locations), and what they give for C50-C52 (annotation). *)
From Coq Require Import List Bool Ascii String ZArith Lia Permutation.
From Verif Require Import PyBase PyFacts M_Utils M_Elf M_Syscall M_Arch M_Signature M_Location M_Annotate
  S_Elf S_Signature S_Kernel S_Pattern S_Location L_Location L_Location2 L_Location3 L_Location4 L_Location5 L_Location6 L_Location7 L_Location8 L_Location9.
Import ListNotations.
Open Scope Z_scope.
Open Scope list_scope.

(** ** Examples: two functions in one file *)

Definition tab (s : str) : str := chr 9 :: s.
Definition ex_src : str := unlines
  [$"int x;"; $"SYSCALL_DEFINE0(foo)"; $"{"; tab $"return 0;"; $"}"; $"SYSCALL_DEFINE0(bar)"; $"{"; tab $"return 1;"; $"}"].
Definition ex_k : path := path_of_str $"/k".
Definition ex_f : path := path_of_str $"/k/a.c".
Definition ex_dir : path := path_of_str $"/b".
Definition ex_elf : path := path_of_str $"/b/vmlinux".
Definition ex_file (p : path) : option str := if str_eqb (str_of_path p) $"/k/a.c" then Some ex_src else None.
Definition ex_w (ans : Z -> answer) (grep : list str) : world :=
  World ex_file (fun addrs => Ok (unlines (map (fun v => answer_text (ans v)) addrs))) (Ok grep).
Definition ex_x64 : arch := Arch KX86 [] $"x64" false false false false [] None 0 None [].
Definition ex_sc (n : str) (v sz : Z) : syscall :=
  Syscall (Some 0) 0 n n (Symbol v v sz $"FUNC" n) None None None None false false false.
Definition ex_scs : list syscall := [ex_sc $"foo" 100 10; ex_sc $"bar" 200 10].
(** foo: at its first address; bar: the addresses are parameters. *)
Definition ex_ans (t : list (Z * Z)) (v : Z) : answer :=
  match find (fun x => fst x =? v) ((100, 4) :: t) with Some x => At $"/k/a.c" (Z.abs (snd x)) | None => Nowhere end.
Lemma ex_says t grep : addr2line_says (w_addr2line (ex_w (ex_ans t) grep)) (ex_ans t).
Proof.
  split; [|reflexivity]. intros v. unfold ex_ans. destruct (find _ _) as [x|]; [|exact I]. cbn -[Z.abs].
  repeat split; try lia; try discriminate; try (now apply row_literal); intros H; repeat destruct H as [H|H]; try discriminate; contradiction.
Qed.
Lemma ex_parent : parent_of ex_elf ex_dir.
Proof. now exists $"vmlinux". Qed.
Lemma ex_words : Forall word_names ex_scs.
Proof. repeat constructor; discriminate. Qed.
Lemma ex_fresh : Forall fresh_syscall ex_scs.
Proof. repeat constructor. Qed.
Lemma ex_place n : place_of ex_dir ex_k None (At $"/k/a.c" n) ex_f n.
Proof. apply (po _ _ _ _ _ ex_f); [apply moved_other; intros t H; discriminate|apply rm_absolute; [exact I|discriminate]]. Qed.

(** ** C53 *)

Theorem C53_adjust : forall w f content ls line, w_file w f = Some content -> lines_of content ls -> line <= len ls ->
  forall r, adjust_line w f line = Ok r <-> adjusted ls line r.
Proof. exact adjust_line_spec. Qed.
Print Assumptions C53_adjust.

Theorem C53_exit : forall w f line c, adjust_line w f line = Exit c <->
  c = 1 /\ (w_file w f = None \/ exists content ls, w_file w f = Some content /\ lines_of content ls /\ len ls < line).
Proof. exact adjust_line_exit. Qed.
Print Assumptions C53_exit.

Theorem C53_backwards : forall w f line r, adjust_line w f line = Ok r -> r <= line.
Proof. exact adjust_line_le. Qed.
Print Assumptions C53_backwards.

Theorem C53_no_exception : forall w f line e, adjust_line w f line <> Raise e /\ adjust_line w f line <> Diverge.
Proof. exact adjust_line_raise. Qed.
Print Assumptions C53_no_exception.

Example C53_example_up : adjust_line (ex_w (ex_ans []) []) ex_f 4 = Ok 2.
Proof. vm_compute. reflexivity. Qed.
Example C53_example_same : adjust_line (ex_w (ex_ans []) []) ex_f 6 = Ok 6.
Proof. vm_compute. reflexivity. Qed.
Example C53_example_short : adjust_line (ex_w (ex_ans []) []) ex_f 10 = Exit 1.
Proof. vm_compute. reflexivity. Qed.

(** ** C58 *)

Theorem C58_define : forall a name ident c b d w t, some_of is_word name -> some_of is_word ident ->
  (if a_compat a then maybe $"COMPAT_" c else c = []) -> maybe $"32" b -> is_dec d = true -> blanks w -> word_ends t ->
  (good_definition a (c ++ $"SYSCALL" ++ b ++ $"_DEFINE" ++ [d] ++ w ++ $"(" ++ ident ++ t) name = true <-> ident = name).
Proof. exact good_new. Qed.
Print Assumptions C58_define.

Theorem C58_asmlinkage : forall a name u ty func w t s,
  some_of is_word name -> some_of is_word ty -> some_of is_word func -> asm_text u ty func w t s ->
  (good_definition a s name = true <->
   (w = [] /\ (func = $"sys_" ++ name \/ func = $"sys32_" ++ name)) \/
   (func = name /\ exists x, name = $"sys_" ++ x) \/ odd_name a name func).
Proof. exact good_asm. Qed.
Print Assumptions C58_asmlinkage.

Theorem C58_all : forall a text name, some_of is_word name -> (good_definition a text name = true <-> defines a name text).
Proof. exact good_definition_spec. Qed.
Print Assumptions C58_all.

(** With dots in the name, which stand for any character: *)
Theorem C58_dotted : forall a text name, dotted name -> (good_definition a text name = true <-> accepts a name text).
Proof. exact (fun a text name _ => good_definition_accepts a text name). Qed.
Print Assumptions C58_dotted.

Theorem C58_words : forall a text name, some_of is_word name -> dotted name /\ (accepts a name text <-> defines a name text).
Proof. exact (fun a text name N => conj (word_dotted name N) (accepts_defines a text name N)). Qed.
Print Assumptions C58_words.

Example C58_example_yes : good_definition ex_x64 $"SYSCALL_DEFINE3(read, int, fd)" $"read" = true.
Proof. vm_compute. reflexivity. Qed.
Example C58_example_longer : good_definition ex_x64 $"SYSCALL_DEFINE3(readv, int, fd)" $"read" = false.
Proof. vm_compute. reflexivity. Qed.
Example C58_example_shorter : good_definition ex_x64 $"SYSCALL_DEFINE3(read, int, fd)" $"readv" = false.
Proof. vm_compute. reflexivity. Qed.
Example C58_example_asm : asm_text [] $"long" $"sys_read" [] $"int fd)" $"asmlinkage long sys_read(int fd)" /\
  good_definition ex_x64 $"asmlinkage long sys_read(int fd)" $"read" = true.
Proof.
  split; [|vm_compute; reflexivity]. exists [SP], [SP]. repeat split; try discriminate. left. split; [reflexivity|discriminate].
Qed.

(** ** C54 *)

(** Marked good: the line of the file is a definition of what a name of the syscall stands for. *)
Theorem C54_good : forall w have a elf kdir rdir kres scs r, Forall (fun s => sc_good s = false) scs ->
  extract_syscall_locations w have a elf kdir rdir kres scs = Ok r ->
  Forall2 (fun s s' => same_but_location s s' /\ (sc_good s' = true -> fit_names s -> well_located (w_file w) a s')) scs r.
Proof.
  exact (fun w have a elf kdir rdir kres scs r B H =>
    L_Signature3.Forall2_weaken _ _ _ _ (fun s s' F => conj (proj1 F) (fun G _ => proj2 F G)) (extract_found w have a elf kdir rdir kres scs r B H)).
Qed.
Print Assumptions C54_good.

(** If the names are words: a definition of one of them. *)
Theorem C54_words : forall w have a elf kdir rdir kres scs r, Forall (fun s => sc_good s = false) scs ->
  extract_syscall_locations w have a elf kdir rdir kres scs = Ok r ->
  forall s, In s r -> sc_good s = true -> word_names s ->
  exists f l content text, sc_file s = Some f /\ sc_line s = Some l /\ w_file w f = Some content /\ line_text content l text /\
    (defines a (sc_origname s) text \/ defines a (sc_name s) text).
Proof. exact found_words. Qed.
Print Assumptions C54_words.

(** Without kernel sources nothing is marked good. *)
Theorem C54_no_sources : forall w have a elf rdir kres scs r, Forall (fun s => sc_good s = false) scs ->
  extract_syscall_locations w have a elf None rdir kres scs = Ok r -> Forall (fun s => sc_good s = false) r.
Proof. exact no_sources_bad. Qed.
Print Assumptions C54_no_sources.

(** foo is found at once, bar at its last address. *)
Example C54_example : exists s1 s2,
  extract_syscall_locations (ex_w (ex_ans [(209, 8)]) []) true ex_x64 ex_elf (Some ex_k) None ex_k ex_scs = Ok [s1; s2] /\
  sc_good s1 = true /\ sc_file s1 = Some ex_f /\ sc_line s1 = Some 2 /\
  sc_good s2 = true /\ sc_file s2 = Some ex_f /\ sc_line s2 = Some 6.
Proof. eexists _, _. split; [vm_compute; reflexivity|]. repeat split. Qed.

(** ** C55 *)

Theorem C55_handed_over : forall w a elf kdir rdir kres scs scs' l, answers_each (w_addr2line w) -> Forall fresh_syscall scs ->
  search_locations w a elf (Some kdir) rdir kres scs = Ok (scs', Grep l) ->
  List.length scs' = List.length scs /\ NoDup l /\ (forall i, In i l -> (i < List.length scs')%nat) /\
  (forall i s, nth_error scs' i = Some s -> (In i l <-> missing s)).
Proof. exact handed_over. Qed.
Print Assumptions C55_handed_over.

Theorem C55_skipped : forall w ans a elf dir kdir rdir kres scs scs' st,
  addr2line_says (w_addr2line w) ans -> parent_of elf dir -> Forall fresh_syscall scs ->
  search_locations w a elf (Some kdir) rdir kres scs = Ok (scs', st) -> (forall l, st <> Grep l) ->
  (st = AllBad /\ scs <> [] /\ Forall (fun s => missing s /\ 1 < sym_size (sc_symbol s)) scs') \/
  (st = Outside /\ exists s f n, In s scs /\ place_of dir kdir rdir (ans (sym_real (sc_symbol s))) f n /\
     w_file w f <> None /\ forall t, f <> path_join kres (Path [] t)).
Proof. exact skipped. Qed.
Print Assumptions C55_skipped.

Example C55_example : exists scs', search_locations (ex_w (ex_ans []) []) ex_x64 ex_elf (Some ex_k) None ex_k ex_scs = Ok (scs', Grep [1%nat]).
Proof. eexists. vm_compute. reflexivity. Qed.
Example C55_example_all_bad : exists scs', search_locations (ex_w (ex_ans []) []) ex_x64 ex_elf (Some ex_k) None ex_k [ex_sc $"bar" 200 10] = Ok (scs', AllBad).
Proof. eexists. vm_compute. reflexivity. Qed.
Example C55_example_outside : exists scs', search_locations (ex_w (ex_ans []) []) ex_x64 ex_elf (Some ex_k) None (path_of_str $"/other") ex_scs = Ok (scs', Outside).
Proof. eexists. vm_compute. reflexivity. Qed.
(** The search finds bar. *)
Example C55_example_grepped : exists s1 s2,
  extract_syscall_locations (ex_w (ex_ans []) [$"a.c:6:SYSCALL_DEFINE0(bar)"]) true ex_x64 ex_elf (Some ex_k) None ex_k ex_scs = Ok [s1; s2] /\
  sc_good s2 = true /\ sc_grepped s2 = true /\ sc_file s2 = Some ex_f /\ sc_line s2 = Some 6.
Proof. eexists _, _. split; [vm_compute; reflexivity|]. repeat split. Qed.

(** ** C56 *)

(** What is handed to the search is defined at none of the addresses tried. *)
Theorem C56_tried_partial : forall w ans a elf dir kdir rdir kres scs scs' l,
  addr2line_says (w_addr2line w) ans -> path_parent elf = dir -> Forall fit_names scs ->
  search_locations w a elf (Some kdir) rdir kres scs = Ok (scs', Grep l) ->
  forall i s v, In i l -> nth_error scs i = Some s -> queried (sc_symbol s) v ->
  ~ points_to (w_file w) ans dir kdir rdir a s v.
Proof. exact (fun w ans a elf dir kdir rdir kres scs scs' l S D _ => search_queried w ans a elf dir kdir rdir kres scs scs' l S D). Qed.
Print Assumptions C56_tried_partial.

(** The last but one is not tried, though it may be the only one that helps. *)
Theorem C56_last_but_one_refuted : exists w ans a elf dir kdir kres scs scs' l i s v,
  addr2line_says (w_addr2line w) ans /\ path_parent elf = dir /\ Forall word_names scs /\ Forall fresh_syscall scs /\
  search_locations w a elf (Some kdir) None kres scs = Ok (scs', Grep l) /\ In i l /\ nth_error scs i = Some s /\
  sym_real (sc_symbol s) + 1 <= v <= sym_real (sc_symbol s) + sym_size (sc_symbol s) - 2 /\
  points_to (w_file w) ans dir kdir None a s v.
Proof.
  exists (ex_w (ex_ans [(208, 8)]) []), (ex_ans [(208, 8)]), ex_x64, ex_elf, ex_dir, ex_k, ex_k, ex_scs. eexists. exists [1%nat], 1%nat, (ex_sc $"bar" 200 10), 208.
  split; [apply ex_says|]. split; [reflexivity|]. split; [exact ex_words|]. split; [exact ex_fresh|]. split; [vm_compute; reflexivity|]. split; [now left|]. split; [reflexivity|]. split; [cbn; lia|].
  apply (points_to_run _ _ _ _ _ _ _ _ ex_f 8 6); [apply (ex_place 8)|vm_compute; reflexivity|vm_compute; reflexivity].
Qed.
Print Assumptions C56_last_but_one_refuted.

(** A function of 3 bytes: addr2line is run with no address at all (and waits for its input). *)
Theorem C56_nothing_asked_refuted : exists w a elf kdir kres scs,
  (forall addrs, addrs <> [] -> exists out, w_addr2line w addrs = Ok out) /\ Forall word_names scs /\ Forall fresh_syscall scs /\
  search_locations w a elf (Some kdir) None kres scs = Diverge.
Proof.
  exists (World ex_file (fun addrs => match addrs with [] => Diverge | _ => Ok (unlines (map (fun v => answer_text (ex_ans [] v)) addrs)) end) (Ok [])),
    ex_x64, ex_elf, ex_k, ex_k, [ex_sc $"foo" 100 10; ex_sc $"bar" 200 3].
  split; [intros [|x l] H; [contradiction|eexists; reflexivity]|]. split; [repeat constructor; discriminate|]. split; [repeat constructor|]. vm_compute. reflexivity.
Qed.
Print Assumptions C56_nothing_asked_refuted.

(** ** C57 *)

Theorem C57_once : forall A w kdir a (scs : list (A * syscall)) r, grep_kernel_sources w kdir a scs = Ok r ->
  exists out given left, w_grep w = Ok out /\ Permutation (map fst given) scs /\ Permutation out (lines_given given ++ left) /\
    Forall2 (fun x y => fst x = fst (fst y) /\
      match snd y with
      | Some line => grep_hit a (sc_origname (snd (fst y))) line /\ (exists f n, snd x = Some (f, n) /\ grep_place kdir line f n) /\
          forall l, In l left -> grep_hit a (sc_origname (snd (fst y))) l -> ~ before a l line
      | None => snd x = None /\ forall l, In l left -> ~ grep_hit a (sc_origname (snd (fst y))) l
      end) r given.
Proof. intros A. exact grep_spec. Qed.
Print Assumptions C57_once.

Example C57_example :
  grep_kernel_sources (ex_w (ex_ans []) [$"b.c:5:SYSCALL_DEFINE0(foo)"; $"arch/x.c:7:SYSCALL_DEFINE0(foo)"; $"a.c:6:SYSCALL_DEFINE0(foobar)"])
    ex_k ex_x64 [(0%nat, ex_sc $"foo" 100 10); (1%nat, ex_sc $"bar" 200 10)] =
  Ok [(0%nat, Some (path_of_str $"/k/arch/x.c", 7)); (1%nat, None)].
Proof. vm_compute. reflexivity. Qed.

(** ** C59 *)

Theorem C59_remap : forall kdir rdir p q, remap kdir rdir (Some p) = Ok (Some q) <-> remapped kdir rdir p q.
Proof. exact remap_spec. Qed.
Print Assumptions C59_remap.

Theorem C59_remap_total : forall kdir rdir p, exists q, remap kdir rdir (Some p) = Ok (Some q).
Proof. exact remap_total. Qed.
Print Assumptions C59_remap_total.

Example C59_example_remap : remap ex_k (Some (path_of_str $"/build/linux")) (Some (path_of_str $"/build/linux/fs/read.c")) = Ok (Some (path_of_str $"/k/fs/read.c")).
Proof. vm_compute. reflexivity. Qed.

(** ** C60 *)

Theorem C60_parse : forall x, answer_ok x -> parse_loc (answer_text x) = Ok (answer_loc x).
Proof. exact parse_text. Qed.
Print Assumptions C60_parse.

(** Without kernel sources: every syscall has the location of its own address. *)
Theorem C60_paired : forall w ans a elf rdir kres scs, addr2line_says (w_addr2line w) ans ->
  exists r, extract_syscall_locations w true a elf None rdir kres scs = Ok r /\
  Forall2 (fun s s' => same_but_location s s' /\ (sc_file s', sc_line s') = answer_loc (ans (sym_real (sc_symbol s))) /\ sc_good s' = false) scs r.
Proof. exact no_sources_paired. Qed.
Print Assumptions C60_paired.

(** With kernel sources: a good location that was not searched for is that of an address of the
    syscall's own function. *)
Theorem C60_provenance : forall w ans a elf dir kdir rdir kres scs r,
  addr2line_says (w_addr2line w) ans -> parent_of elf dir -> Forall (fun s => sc_good s = false) scs ->
  extract_syscall_locations w true a elf (Some kdir) rdir kres scs = Ok r ->
  Forall2 (fun s s' => same_but_location s s' /\
    (sc_good s' = true -> sc_grepped s' = false -> traced (w_file w) ans dir kdir rdir s')) scs r.
Proof. exact provenance. Qed.
Print Assumptions C60_provenance.

(** "file:12 (discriminator 3)": the line is lost. *)
Theorem C60_discriminator_refuted : forall w a elf rdir kres s f n m, f <> $"??" -> ~ In ":"%char f -> row f -> 0 <= n -> 0 <= m ->
  w_addr2line w [sym_real (sc_symbol s)] = Ok (f ++ $":" ++ str_of_int n ++ $" (discriminator " ++ str_of_int m ++ $")" ++ [NL]) ->
  exists s', extract_syscall_locations w true a elf None rdir kres [s] = Ok [s'] /\ sc_file s' = Some (path_of_str f) /\ sc_line s' = None.
Proof. exact discriminator. Qed.
Print Assumptions C60_discriminator_refuted.

(** A colon in a path: an exception. *)
Theorem C60_colon_refuted : forall w a elf kdir rdir kres s f n, In ":"%char f -> row f -> 0 <= n ->
  w_addr2line w [sym_real (sc_symbol s)] = Ok (f ++ $":" ++ str_of_int n ++ [NL]) ->
  extract_syscall_locations w true a elf kdir rdir kres [s] = Raise ValueError.
Proof. exact colon. Qed.
Print Assumptions C60_colon_refuted.

Example C60_example : exists s1 s2,
  extract_syscall_locations (ex_w (ex_ans [(200, 7)]) []) true ex_x64 ex_elf None None ex_k ex_scs = Ok [s1; s2] /\
  sc_file s1 = Some ex_f /\ sc_line s1 = Some 4 /\ sc_file s2 = Some ex_f /\ sc_line s2 = Some 7.
Proof. eexists _, _. split; [vm_compute; reflexivity|]. repeat split. Qed.
Example C60_example_discriminator : exists s',
  extract_syscall_locations (World ex_file (fun _ => Ok ($"/k/a.c:4 (discriminator 3)" ++ [NL])) (Ok [])) true ex_x64 ex_elf None None ex_k
    [ex_sc $"foo" 100 10] = Ok [s'] /\ sc_line s' = None.
Proof. eexists. split; [vm_compute; reflexivity|reflexivity]. Qed.

(** ** C75 *)

Theorem C75_no_exception_partial : forall w ans have elf dir kdir rdir a kres scs out,
  addr2line_says (w_addr2line w) ans -> parent_of elf dir -> w_grep w = Ok out -> Forall (honest_line (w_file w) kdir) out ->
  Forall (fun s => steady_symbol (w_file w) ans dir kdir rdir (sc_symbol s)) scs ->
  (exists r, extract_syscall_locations w have a elf (Some kdir) rdir kres scs = Ok r) \/
  extract_syscall_locations w have a elf (Some kdir) rdir kres scs = Exit 1.
Proof. exact no_panic. Qed.
Print Assumptions C75_no_exception_partial.

Example C75_example_steady : Forall (fun s => steady_symbol ex_file (ex_ans [(207, 8)]) ex_dir ex_k None (sc_symbol s)) ex_scs.
Proof.
  assert (forall v t f n, find (fun x : Z * Z => fst x =? v) ((100, 4) :: t) = None -> ~ place_of ex_dir ex_k None (ex_ans t v) f n) as N.
  { intros v t f n H P. unfold ex_ans in P. rewrite H in P. inversion P. }
  constructor; [|constructor; [|constructor]]; intros v f n B P _ E.
  - apply N in P; [exact P|]. cbn in B. cbn [find fst]. destruct (Z.eqb_spec 100 v); [lia|]. destruct (Z.eqb_spec 207 v); [lia|reflexivity].
  - vm_compute in E. discriminate.
Qed.

(** Some inner address has a place, the last one has none. *)
Theorem C75_exception_refuted : exists w ans a elf dir kdir kres scs,
  addr2line_says (w_addr2line w) ans /\ parent_of elf dir /\ w_grep w = Ok [] /\ Forall word_names scs /\ Forall fresh_syscall scs /\
  extract_syscall_locations w true a elf (Some kdir) None kres scs = Raise AttributeError.
Proof.
  exists (ex_w (ex_ans [(201, 1)]) []), (ex_ans [(201, 1)]), ex_x64, ex_elf, ex_dir, ex_k, ex_k, ex_scs.
  split; [apply ex_says|]. split; [exact ex_parent|]. split; [reflexivity|]. split; [exact ex_words|]. split; [exact ex_fresh|]. vm_compute. reflexivity.
Qed.
Print Assumptions C75_exception_refuted.

(** ** Annotation (kernel.py 523, 524) *)

(** What C15-C27 assume about it. *)
Theorem C54_annotation : forall w have a e p kdir rdir kres, annotates (annotate w have a e p kdir rdir kres).
Proof. exact annotate_annotates. Qed.
Print Assumptions C54_annotation.
