(** Properties C48-C52 (signatures). *)
From Coq Require Import List Bool Ascii String ZArith Lia.
From Verif Require Import PyBase PyFacts M_Utils M_Elf M_Syscall M_Build M_Signature S_Elf S_Dummy S_Build S_Signature
  L_Signature L_Signature2 L_Signature3.
Import ListNotations.
Open Scope Z_scope.
Open Scope list_scope.

(** ** C48 *)

(** A SYSCALL_DEFINEn that starts on line [len before + 1] and goes on over any number of lines,
    each but the last ending with a comma. *)
Theorem C48_define : forall m name ps text before ls rest big,
  define_text m name ps text -> total ps <= 6 -> Forall item_ok (flat_map param_items ps) ->
  broken text ls -> Forall one_line (before ++ ls) -> plain_text rest ->
  signature_from_text (unlines (before ++ ls) ++ rest) (len before + 1) big =
  Ok (Some (flat_map (declared big) ps)).
Proof.
  intros m name ps text before ls rest big D T I B O P.
  exact (eq_trans (from_text_lines text before ls rest big O P B) (define_signature m name ps text big D T I)).
Qed.
Print Assumptions C48_define.

Theorem C48_asmlinkage : forall head ps text before ls rest big,
  asmlinkage_text head ps text -> Forall tidy ps -> Forall no_parens ps -> ps <> [$"void"] -> len ps <= 7 ->
  broken text ls -> Forall one_line (before ++ ls) -> plain_text rest ->
  signature_from_text (unlines (before ++ ls) ++ rest) (len before + 1) big = Ok (Some ps).
Proof.
  intros head ps text before ls rest big D T I V L B O P.
  exact (eq_trans (from_text_lines text before ls rest big O P B) (asmlinkage_signature head ps text big D T I V L)).
Qed.
Print Assumptions C48_asmlinkage.

(** Whatever follows: a SYSCALL_DEFINEn has n entries, or is an error. *)
Theorem C48_arity : forall m c t before ls rest big sig, In m define_macros ->
  broken (m ++ c :: t) ls -> Forall one_line (before ++ ls) -> plain_text rest ->
  signature_from_text (unlines (before ++ ls) ++ rest) (len before + 1) big = Ok (Some sig) ->
  exists n, c = chr (48 + n) /\ 0 <= n <= 6 /\ len sig = n.
Proof.
  intros m c t before ls rest big sig I B O P H.
  exact (define_arity m c t big sig I (eq_trans (eq_sym (from_text_lines (m ++ c :: t) before ls rest big O P B)) H)).
Qed.
Print Assumptions C48_arity.

Definition ex_l1 : str := $"SYSCALL_DEFINE3(read, unsigned int, fd, char __user *, buf,".
Definition ex_l2 : str := $"		size_t, count)".
Definition ex_text : str := $"SYSCALL_DEFINE3(read, unsigned int, fd, char __user *, buf,size_t, count)".
Definition ex_ps : list param :=
  [Param $"unsigned int" $"fd"; Param $"char *" $"buf"; Param $"size_t" $"count"].
Ltac spell := repeat first [apply sp_nil | apply sp_char; [reflexivity|] | apply (sp_blank [SP]); [apply gap_one; reflexivity|]].
Example C48_example_layout : broken ex_text [ex_l1; ex_l2].
Proof.
  apply (broken_more $"SYSCALL_DEFINE3(read, unsigned int, fd, char __user *, buf" [] [] $"size_t, count)" [ex_l2]);
    [reflexivity|reflexivity| |].
  - intros c x H. injection H as <- _. reflexivity.
  - apply (broken_last $"size_t, count" $"		" []); [reflexivity|reflexivity|].
    intros c x H. injection H as <- _. reflexivity.
Qed.
Example C48_example_text : define_text $"SYSCALL_DEFINE" $"read" ex_ps ex_text.
Proof.
  split; [left; reflexivity|]. split; [split; [discriminate|reflexivity]|].
  exists [], [], []. repeat (split; [reflexivity|]).
  exists $" unsigned int, fd, char *, buf,size_t, count", $" unsigned int, fd, char __user *, buf,size_t, count".
  split; [reflexivity|]. split.
  - apply (listed_cons $"unsigned int" _ [SP] []); [right; reflexivity|left; reflexivity|].
    apply (listed_cons $"fd" _ [SP] []); [right; reflexivity|left; reflexivity|].
    apply (listed_cons $"char *" _ [SP] []); [right; reflexivity|left; reflexivity|].
    apply (listed_cons $"buf" _ [SP] []); [right; reflexivity|left; reflexivity|].
    apply (listed_cons $"size_t" _ [] []); [left; reflexivity|left; reflexivity|].
    apply (listed_one $"count" [SP] []); [right; reflexivity|left; reflexivity].
  - do 1 (apply (sp_blank [SP]); [apply gap_one; reflexivity|]).
    do 8 (apply sp_char; [reflexivity|]). apply (sp_blank [SP]); [apply gap_one; reflexivity|].
    do 4 (apply sp_char; [reflexivity|]). apply (sp_blank [SP]); [apply gap_one; reflexivity|].
    do 3 (apply sp_char; [reflexivity|]). apply (sp_blank [SP]); [apply gap_one; reflexivity|].
    do 4 (apply sp_char; [reflexivity|]). apply sp_user; [reflexivity|]. spell.
Qed.
Example C48_example :
  signature_from_text (unlines [$"/* a comment */"; []; ex_l1; ex_l2; $"{"; $"	return 0;"]) 3 false =
    Ok (Some [$"unsigned int fd"; $"char *buf"; $"size_t count"]) /\
  signature_from_text (unlines [$"asmlinkage long sys_mmap(unsigned long addr, const char __user * __user *argv)"]) 1 false =
    Ok (Some [$"unsigned long addr"; $"const char **argv"]) /\
  signature_from_text (unlines [$"SYSCALL_DEFINE0(getpid)"]) 1 true = Ok (Some []) /\
  signature_from_text (unlines [$"SYSCALL_DEFINE1(getpid)"]) 1 true = Raise AssertionError.
Proof. vm_compute. repeat split. Qed.

(** ** C49 *)

(** Exactly when it does not return: the file has at least [line - 1] lines and none from there on
    ends with ")" (seen without trailing blanks). *)
Theorem C49_returns_partial : forall ls line big, Forall one_line ls ->
  (signature_from_text (unlines ls) line big = Diverge <->
   line - 1 <= len ls /\ forall l, In l (skipn (Z.to_nat (line - 1)) ls) -> ~ closes l).
Proof. exact source_halts. Qed.
Print Assumptions C49_returns_partial.

(** So it is false that it always returns: a truncated definition, or a body on the same line. *)
Theorem C49_always_returns_refuted : exists content line big, signature_from_text content line big = Diverge.
Proof. exact (ex_intro _ _ (ex_intro _ _ (ex_intro _ _ truncated_diverges))). Qed.
Print Assumptions C49_always_returns_refuted.

Example C49_example :
  signature_from_text (unlines [ex_l1]) 1 false = Diverge /\
  signature_from_text (unlines [$"SYSCALL_DEFINE0(getpid) {"; $"	return 1;"; $"}"]) 1 false = Diverge /\
  signature_from_text (unlines [ex_l1; ex_l2]) 1 false <> Diverge /\
  signature_from_text (unlines [ex_l1; ex_l2]) 4 false = Raise StopIteration.
Proof. vm_compute. repeat split. discriminate. Qed.

(** ** C50 *)

Theorem C50_expansion : forall big l w, Forall item_ok l -> listed (map item_text l) w ->
  parse_signature w big = Ok (flat_map (expansion big) l).
Proof. exact parse_items. Qed.
Print Assumptions C50_expansion.

Example C50_example :
  parse_signature $"int, fd, SC_ARG64(pos), size_t, n" false =
    Ok [$"int"; $"fd"; $"u32"; $"pos_lo"; $"u32"; $"pos_hi"; $"size_t"; $"n"] /\
  parse_signature $"int, fd, compat_arg_u64_dual(pos),size_t, n" true =
    Ok [$"int"; $"fd"; $"u32"; $"pos_hi"; $"u32"; $"pos_lo"; $"size_t"; $"n"].
Proof. vm_compute. repeat split. Qed.

(** ** C51 *)

Theorem C51_metadata : forall e rs, metadata e rs -> Forall clean_rec rs ->
  exists d, read_metadata e = Ok (Some d) /\ forall n sig, dget str_eqb n d = Some sig <-> recorded rs n sig.
Proof. exact metadata_read. Qed.
Print Assumptions C51_metadata.

Definition ex_image : bytes :=
  let p z := enc_uint false 4 z in
  p 4100 ++ p 4128 ++ p 0 ++ p 1 ++ p 4120 ++ p 4124 ++ p 4136 ++ p 4145 ++ $"sys_foo" ++ [chr 0] ++
  $"char * *" ++ [chr 0] ++ $"p" ++ [chr 0].
Definition ex_elf : elf :=
  Elf ex_image true false 3 0 [($".data", Section_ $".data" 4096 0 100)]
    [($"__start_syscalls_metadata", Symbol 4096 4096 0 $"NOTYPE" $"__start_syscalls_metadata");
     ($"__stop_syscalls_metadata", Symbol 4100 4100 0 $"NOTYPE" $"__stop_syscalls_metadata")] [].
Definition ex_rec : meta_rec := MetaRec $"sys_foo" [($"char * *", $"p")].
Ltac has := eexists; eexists; split; [vm_compute; reflexivity|vm_compute; reflexivity].
Ltac notin := intros H; cbn in H; repeat (destruct H as [H|H]; [discriminate H|]); exact H.
Example C51_example_metadata : metadata ex_elf [ex_rec] /\ Forall clean_rec [ex_rec].
Proof.
  split.
  - exists (Symbol 4096 4096 0 $"NOTYPE" $"__start_syscalls_metadata"),
      (Symbol 4100 4100 0 $"NOTYPE" $"__stop_syscalls_metadata"), [4100].
    split; [reflexivity|]. split; [reflexivity|]. split; [reflexivity|]. split; [has|].
    split; [constructor; [split; [discriminate|reflexivity]|constructor]|]. split; [|intros o H; discriminate H].
    constructor; [|constructor]. exists 4128, (enc_uint false 4 0), 4120, 4124.
    split; [split; [split; [discriminate|reflexivity]|split; [notin|has]]|].
    split; [reflexivity|]. split; [split; [discriminate|reflexivity]|]. split; [split; [discriminate|reflexivity]|].
    split; [intros _; split; discriminate|]. split; [reflexivity|]. split; [has|].
    intros i ty nm H. destruct i as [|[|i]]; [|discriminate H|discriminate H]. cbn in H. injection H as <- <-.
    exists 4136, 4145. split; [has|]. split; [split; [split; [discriminate|reflexivity]|split; [notin|has]]|].
    split; [has|]. split; [split; [discriminate|reflexivity]|split; [notin|has]].
  - assert (forall s, no_ends_spec s = true -> trimmed s) as T by exact no_ends_trimmed.
    constructor; [|constructor]. split; [now apply T|]. constructor; [|constructor].
    split; [now apply T|]. split; [discriminate|now apply T].
Qed.
Example C51_example : read_metadata ex_elf = Ok (Some [($"foo", [$"char **p"])]).
Proof. vm_compute. reflexivity. Qed.

(** ** C52 *)

(** With sources and metadata: which results are possible, exactly.  Everything but the signature
    stays the same. *)
Theorem C52_choice : forall files scs e rs out, metadata e rs -> Forall clean_rec rs ->
  (extract_syscall_signatures files scs e true = Ok out <->
   Forall2 (fun s s' => same_but_signature s s' /\
     chosen (fun f l sig => syscall_signature_from_source files f l (e_big e) = Ok sig) (recorded rs) s
       (sc_signature s')) scs out).
Proof. exact signatures_meta. Qed.
Print Assumptions C52_choice.

Theorem C52_choice_no_metadata : forall files scs e out,
  dget str_eqb $"__start_syscalls_metadata" (e_symbols e) = None ->
  (extract_syscall_signatures files scs e true = Ok out <->
   Forall2 (fun s s' => same_but_signature s s' /\
     chosen (fun f l sig => syscall_signature_from_source files f l (e_big e) = Ok sig) (fun _ _ => False) s
       (sc_signature s')) scs out).
Proof. exact signatures_nometa. Qed.
Print Assumptions C52_choice_no_metadata.

(** Without sources no location is good, and files do not matter. *)
Theorem C52_no_source : forall files scs e files' out,
  Forall (fun s => sc_esoteric s = false -> sc_good s = false) scs ->
  (extract_syscall_signatures files scs e false = Ok out <-> extract_syscall_signatures files' scs e true = Ok out).
Proof. exact signatures_nosource. Qed.
Print Assumptions C52_no_source.

(** The choice is unique. *)
Theorem C52_unique : forall (source : path -> Z -> option (list str) -> Prop) (known : str -> list str -> Prop) s a b,
  (forall f l x y, source f l x -> source f l y -> x = y) -> (forall n x y, known n x -> known n y -> x = y) ->
  chosen source known s a -> chosen source known s b -> a = b.
Proof. exact chosen_fun. Qed.
Print Assumptions C52_unique.

Definition ex_sc (n o : str) (good eso : bool) (sig : option (list str)) : syscall :=
  Syscall (Some 0) 0 n o (Symbol 0 0 0 $"FUNC" n) None (Some (path_of_str $"/k/a.c")) (Some 1) sig eso good false.
Definition ex_files (p : path) : option str :=
  if path_eqb p (path_of_str $"/k/a.c") then Some (unlines [ex_l1; ex_l2]) else None.
Example C52_example :
  match extract_syscall_signatures ex_files
    [ex_sc $"foo" $"foo" true false None; ex_sc $"foo" $"bar" false false None; ex_sc $"a" $"foo" false false None;
     ex_sc $"b" $"b" false false None; ex_sc $"foo" $"foo" true true (Some [])] ex_elf true with
  | Ok out => map sc_signature out =
      [Some [$"unsigned int fd"; $"char *buf"; $"size_t count"]; Some [$"char **p"]; Some [$"char **p"]; None; Some []]
  | _ => False
  end.
Proof. vm_compute. reflexivity. Qed.
