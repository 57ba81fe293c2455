(** Property C102 (the texts of the regexps). *)
From Coq Require Import List Bool Ascii String ZArith Lia.
From Verif Require Import PyBase PyFacts Regex M_Utils M_Elf M_Syscall M_Arch M_Kernel M_Build M_Location M_Config M_Search
  S_Elf S_Signature S_Location S_Search L_Location L_Location2 L_Location5 L_Search P_Location M_Pattern S_Pattern L_Pattern L_Pattern2.
Import ListNotations.
Open Scope Z_scope.
Open Scope list_scope.

(** ** C102 *)

(** The regexps without names: what the code compiles gives the same matches, with the same groups, as
    the regexps that the other theorems are about. *)
Theorem C102_sections : forall out, run false false sections_text (fun r => re_finditer r out) = Some (re_finditer sections_re out).
Proof. exact sections_run. Qed.
Print Assumptions C102_sections.

Theorem C102_symbols : forall line, run false false symbols_text (fun r => re_search r line) = Some (re_search symbols_re line).
Proof. exact symbols_run. Qed.
Print Assumptions C102_symbols.

Theorem C102_version : forall s, run false false version_text (fun r => re_match r s) = Some (re_match version_re s).
Proof. exact version_run. Qed.
Print Assumptions C102_version.

Theorem C102_makefile : forall data, run false true opt_text (fun r => re_search r data) = Some (re_search opt_re data).
Proof. exact opt_run. Qed.
Print Assumptions C102_makefile.

(** The search through the sources: the regexp compiles for every architecture and finds the lines that
    may be definitions. *)
Theorem C102_search : forall a line, exists b, run true false (search_text a) (fun r => found r line) = Some b /\
  (b = true <-> candidate a line).
Proof.
  exact (fun a line => ex_intro _ _ (conj (search_run a line)
    (conj (fun H => proj1 (search_spec a line) (found_true _ _ H)) (fun H => found_intro _ _ (proj2 (search_spec a line) H))))).
Qed.
Print Assumptions C102_search.

(** Regexps with names: if no character of the name but the dot is special, they compile and are the
    regexps of the model. *)
Theorem C102_names : forall a name, dotted name ->
  (forall text, good_definition_text a text name = Some (good_definition a text name)) /\
  (forall line, run false false (grep_text a name) (fun r => found r line) = Some (found (grep_exp a name) line)).
Proof. exact (fun a name P => conj (fun text => good_dotted a text name P) (fun line => grep_run a name line P)). Qed.
Print Assumptions C102_names.

(** The lines with a definition of what such a name stands for are found, and no others. *)
Theorem C102_grep : forall a name, dotted name -> forall line, exists b,
  run false false (grep_text a name) (fun r => found r line) = Some b /\ (b = true <-> grep_hit a name line).
Proof.
  exact (fun a name P line => ex_intro _ _ (conj (grep_run a name line P)
    (conj (fun H => proj1 (grep_exp_spec a name line) (found_true _ _ H)) (fun H => found_intro _ _ (proj2 (grep_exp_spec a name line) H))))).
Qed.
Print Assumptions C102_grep.

(** What is accepted as a definition, exactly: a definition of what the name stands for. *)
Theorem C102_accepts : forall a text name, dotted name ->
  (good_definition_text a text name = Some true <-> accepts a name text) /\
  (good_definition_text a text name = Some false <-> ~ accepts a name text).
Proof. exact dotted_definitions. Qed.
Print Assumptions C102_accepts.

(** A name without dots stands for itself only. *)
Theorem C102_plain : forall name n, plain name -> (stands_for name n <-> n = name).
Proof. exact plain_stands. Qed.
Print Assumptions C102_plain.

(** With dots, definitions of the name itself are still accepted. *)
Theorem C102_found : forall a text name, dotted name -> word_last name -> defines a name text ->
  good_definition_text a text name = Some true.
Proof. exact dotted_found. Qed.
Print Assumptions C102_found.

(** So for names made of word characters the check of a location, as written, says whether the text is
    a definition of that name. *)
Theorem C102_definitions : forall a text name, some_of is_word name ->
  (good_definition_text a text name = Some true <-> defines a name text) /\
  (good_definition_text a text name = Some false <-> ~ defines a name text).
Proof. exact word_definitions. Qed.
Print Assumptions C102_definitions.

(** With dots in it the regexps still compile. *)
Theorem C102_dots : forall a name, dotted name ->
  (forall text, good_definition_text a text name <> None) /\
  (forall line, run false false (grep_text a name) (fun r => found r line) <> None).
Proof. exact dotted_runs. Qed.
Print Assumptions C102_dots.

(** But a dot is any character: another syscall's definition is taken for the one of foo.isra. *)
Theorem C102_dot_refuted : exists a text name, dotted name /\ good_definition_text a text name = Some true /\
  ~ exists x y, text = x ++ name ++ y.
Proof. exact dot_refuted. Qed.
Print Assumptions C102_dot_refuted.

(** And other characters are errors. *)
Theorem C102_error_refuted : exists a text name, forallb (fun c => negb (is_space c)) name = true /\ good_definition_text a text name = None /\
  compile false false (style_text a name) = RegexpError.
Proof. exact error_refuted. Qed.
Print Assumptions C102_error_refuted.

(** For all names with an unbalanced parenthesis or a repetition of nothing: neither the check of a
    location nor the search for the name can be made. *)
Theorem C102_errors : forall a name, broken name ->
  compile false false (style_text a name) = RegexpError /\ compile false false (grep_text a name) = RegexpError /\
  forall text, good_definition_text a text name = None.
Proof. exact broken_errors. Qed.
Print Assumptions C102_errors.

(** *** Examples *)

Example C102_example_broken : broken $"read(2" /\ broken $"read)" /\ broken $"read|*".
Proof.
  assert (dotted $"read") as R by (apply plain_dotted, some_plain; split; [discriminate|reflexivity]).
  split; [|split].
  - apply (br_open _ $"read" $"2" R); [apply plain_dotted, some_plain; split; [discriminate|]|]; reflexivity.
  - exact (br_close _ $"read" [] R eq_refl).
  - apply (br_repeat _ $"read" "*"%char [] R); [vm_compute; tauto|reflexivity].
Qed.

Example C102_example_plain : plain $"read" /\ some_of is_word $"read" /\ dotted $"read.isra.0" /\ ~ plain $"read.isra.0".
Proof.
  split; [|split; [split; [discriminate|reflexivity]|split]].
  - apply some_plain. split; [discriminate|reflexivity].
  - repeat (apply Forall_cons; [first [left; reflexivity | right; apply word_char_plain; reflexivity]|]). apply Forall_nil.
  - intros H. unfold plain in H. rewrite Forall_forall in H. apply (H "."%char); vm_compute; tauto.
Qed.
Example C102_example_read : good_definition_text ex_x64 $"SYSCALL_DEFINE3(read, int, fd)" $"read" = Some true.
Proof. vm_compute. reflexivity. Qed.
Example C102_example_write : good_definition_text ex_x64 $"SYSCALL_DEFINE3(readv, int, fd)" $"read" = Some false.
Proof. vm_compute. reflexivity. Qed.
Example C102_example_isra : accepts ex_x64 $"read.isra.0" $"SYSCALL_DEFINE3(read_isra_0, int, fd)" /\
  ~ accepts ex_x64 $"read.isra.0" $"SYSCALL_DEFINE3(read, int, fd)".
Proof. rewrite <- !good_definition_accepts. split; [|intros H]; [|vm_compute in H]; [vm_compute; reflexivity|discriminate H]. Qed.
Example C102_example_isra_itself : word_last $"read.isra.0" /\ defines ex_x64 $"read.isra.0" $"asmlinkage long sys_read.isra.0(int fd)".
Proof.
  split; [now exists $"read.isra.", "0"%char|]. apply (def_old _ _ _ []); [now left|]. exists $"asmlinkage long ", $"int fd)". split; [|reflexivity].
  exists $" ", [], $"long", $" ". split; [reflexivity|]. split; [now left|]. split; [split; [discriminate|reflexivity]|]. split; reflexivity.
Qed.
Example C102_example_symbol : exists x, run false false symbols_text (fun r => re_search r $"  12: ffffffff81000000   42 FUNC    GLOBAL DEFAULT    1 sys_read") = Some (Some x) /\
  group 4 x = Some $"sys_read".
Proof. eexists. split; vm_compute; reflexivity. Qed.
Example C102_example_unbalanced : compile false false $"a(b" = RegexpError.
Proof. reflexivity. Qed.

(** A range in square brackets, between word characters, is an error exactly if its ends are in the
    wrong order. *)
Definition all_chars : list ascii := map ascii_of_nat (seq 0 256).
Lemma every_char c : In c all_chars.
Proof.
  unfold all_chars. rewrite <- (ascii_nat_embedding c). apply in_map, in_seq. pose proof (nat_ascii_bounded c). lia.
Qed.
Definition range_text (lo hi : ascii) : str := $"[" ++ lo :: $"-" ++ hi :: $"]".
Theorem C102_ranges : forall lo hi, is_word lo = true -> is_word hi = true ->
  (compile false false (range_text lo hi) = RegexpError <-> code hi < code lo) /\
  (code lo <= code hi -> forall c, run false false (range_text lo hi) (fun r => found r [c]) = Some (Z.leb (code lo) (code c) && Z.leb (code c) (code hi))).
Proof.
  assert (forallb (fun lo => forallb (fun hi =>
    match compile false false (range_text lo hi) with
    | RegexpError => code hi <? code lo
    | Compiled r => (code lo <=? code hi) && forallb (fun c => Bool.eqb (found r [c]) ((code lo <=? code c) && (code c <=? code hi))) all_chars
    | Beyond => false
    end) (filter is_word all_chars)) (filter is_word all_chars) = true) as A by (vm_compute; reflexivity).
  intros lo hi L H. rewrite forallb_forall in A.
  specialize (A lo (proj2 (filter_In _ _ _) (conj (every_char lo) L))). rewrite forallb_forall in A.
  specialize (A hi (proj2 (filter_In _ _ _) (conj (every_char hi) H))). unfold run.
  destruct (compile false false (range_text lo hi)) as [r| |]; [| |discriminate A].
  - apply andb_prop in A. destruct A as (A & B). apply Z.leb_le in A. split; [split; [discriminate|lia]|].
    intros _ c. rewrite forallb_forall in B. specialize (B c (every_char c)). apply eqb_prop in B. now rewrite B.
  - apply Z.ltb_lt in A. split; [split; [lia|reflexivity] | lia].
Qed.
Print Assumptions C102_ranges.
Example C102_example_range : is_word "a" = true /\ is_word "c" = true /\ code "a" <= code "c" /\
  compile false false (range_text "c" "a") = RegexpError /\ compile false false (range_text "a" "a") <> RegexpError.
Proof. repeat split; try (vm_compute; discriminate). Qed.
