(** Property C91 (reading the JSON document). *)
From Coq Require Import List Bool Ascii String ZArith Lia Permutation Sorted.
From Verif Require Import PyBase PyFacts M_Utils M_Elf M_Syscall M_Arch M_Kernel M_Location M_Annotate M_Output L_Utils S_Output M_Json S_Json L_Json P_Kernel P_Output.
Import ListNotations.
Open Scope Z_scope.
Open Scope list_scope.

(** Every value is written as a text that a reader of JSON takes, and the reader gets back the
    value, with members in the order of their keys. *)
Theorem C91_readable j : exists j', json_read (dumps 0 j) = Some j' /\ same_json j j' /\ ordered_json j'.
Proof. exact (readable j). Qed.
Print Assumptions C91_readable.

(** The document read has exactly the documented entries, and one object per syscall in order. *)
Theorem C91_document sv t source a scs : exists text j objects, output_syscalls_json sv (Ok t) source a scs = Ok text /\ json_read text = Some j /\
  Forall2 (fun s o => exists d d', object_of s d /\ Permutation d d' /\ o = JObj d') scs objects /\
  forall ks x, (at_key ks j x /\ forall d, x <> JObj d) <-> documented sv t source a objects ks x.
Proof. exact (written_document sv t source a scs). Qed.
Print Assumptions C91_document.

(** Extractions written with the same text are the same. *)
Theorem C91_same_text k ver abi b a t e v kdir w have p rdir kres r k' ver' abi' b' a' t' e' v' kdir' w' have' p' rdir' kres' r' sv tag source sv' tag' source' text :
  arch_new k ver abi b = Ok a -> arch_new k' ver' abi' b' = Ok a' ->
  v_annotate t = annotate w have (adjust_abi a e) e p kdir rdir kres -> v_annotate t' = annotate w' have' (adjust_abi a' e') e' p' kdir' rdir' kres' ->
  (forall d, kdir = Some d -> good_path d) -> (forall d, kdir' = Some d -> good_path d) ->
  extract_syscalls t a e v kdir = Ok r -> extract_syscalls t' a' e' v' kdir' = Ok r' ->
  output_syscalls_json sv (Ok tag) source a r = Ok text -> output_syscalls_json sv' (Ok tag') source' a' r' = Ok text ->
  sv = sv' /\ tag = tag' /\ source = source' /\ a_class a = a_class a' /\ a_bits32 a = a_bits32 a' /\ a_abi a = a_abi a' /\ a_compat a = a_compat a' /\
  a_abi_bits32 a = a_abi_bits32 a' /\ a_num_reg a = a_num_reg a' /\ a_arg_regs a = a_arg_regs a' /\ a_table a = a_table a' /\
  Forall2 (fun s s' => sc_index s = sc_index s' /\ sc_number s = sc_number s' /\ sc_name s = sc_name s' /\ sc_origname s = sc_origname s' /\
    sym_name (sc_symbol s) = sym_name (sc_symbol s') /\ sc_file s = sc_file s' /\ sc_line s = sc_line s' /\
    sc_signature s = sc_signature s' /\ sc_esoteric s = sc_esoteric s' /\ sc_good s = sc_good s' /\
    sc_grepped s = sc_grepped s' /\ sc_kconfig s = sc_kconfig s') r r'.
Proof. exact (result_texts k ver abi b a t e v kdir w have p rdir kres r k' ver' abi' b' a' t' e' v' kdir' w' have' p' rdir' kres' r' sv tag source sv' tag' source' text). Qed.
Print Assumptions C91_same_text.

(** The text is ASCII that can be printed, but for the ends and the indentation of lines: it does not
    depend on the encoding, whatever characters are in names and paths. *)
Definition safe (c : ascii) : Prop := 32 <= code c <= 126 \/ c = chr 10 \/ c = chr 9.
Lemma safe_esc c : Forall safe (esc c).
Proof.
  assert (forallb (fun x => in_range 32 126 (code x)) (esc c) = true) as A by (destruct c as [[] [] [] [] [] [] [] []]; vm_compute; reflexivity).
  rewrite forallb_forall in A. rewrite Forall_forall. intros x I. left. specialize (A x I). unfold in_range in A. lia.
Qed.
Lemma safe_quote s : Forall safe (quote s).
Proof.
  unfold quote. apply Forall_app. split; [repeat constructor; vm_compute; intuition congruence|]. apply Forall_app.
  split; [|repeat constructor; vm_compute; intuition congruence]. induction s as [|c s IH]; [constructor|]. cbn. apply Forall_app. split; [apply safe_esc|exact IH].
Qed.
Lemma safe_newline n : Forall safe (newline n).
Proof. constructor; [right; now left|]. induction n as [|n IH]; [constructor|]. constructor; [right; now right|exact IH]. Qed.
Lemma safe_join sep l : Forall safe sep -> Forall (Forall safe) l -> Forall safe (join sep l).
Proof.
  intros S F. induction F as [|x l X F IH]; [constructor|]. destruct l as [|y l]; [exact X|]. change (join sep (x :: y :: l)) with (x ++ sep ++ join sep (y :: l)).
  apply Forall_app. split; [exact X|]. apply Forall_app. now split.
Qed.
Lemma safe_block lvl o c l : safe o -> safe c -> Forall (Forall safe) l -> Forall safe (block lvl o c l).
Proof.
  intros O C F. destruct l as [|x l]; [apply Forall_cons; [exact O|apply Forall_cons; [exact C|apply Forall_nil]]|]. rewrite block_cons. constructor; [exact O|].
  apply Forall_app. split; [apply safe_newline|]. apply Forall_app. split.
  - apply safe_join; [|exact F]. constructor; [left; vm_compute; intuition congruence|]. apply safe_newline.
  - apply Forall_app. split; [apply safe_newline|apply Forall_cons; [exact C|apply Forall_nil]].
Qed.
Theorem C91_ascii j : forall lvl, Forall safe (dumps lvl j).
Proof.
  induction j as [|b|z|s|l IH|d IH] using json_all; intros lvl.
  - repeat constructor; vm_compute; intuition congruence.
  - destruct b; repeat constructor; vm_compute; intuition congruence.
  - cbn [dumps]. rewrite Forall_forall. intros c I. left.
    assert (forall w, In c (digits 10 w) -> 32 <= code c <= 126) as D.
    { intros w J. pose proof (digits_dec w) as F. rewrite Forall_forall in F. specialize (F c J). unfold is_dec, in_range in F. lia. }
    unfold str_of_int in I. destruct (z <? 0); [|exact (D _ I)]. destruct I as [<-|I]; [vm_compute; intuition congruence|exact (D _ I)].
  - apply safe_quote.
  - rewrite dumps_list. apply safe_block; [left; vm_compute; intuition congruence..|]. rewrite Forall_map.
    rewrite Forall_forall in *. intros x I. now apply IH.
  - rewrite dumps_obj. apply safe_block; [left; vm_compute; intuition congruence..|]. rewrite Forall_map. rewrite Forall_forall in *.
    intros x I. apply (proj1 (sort_by_in str_leb fst x _)) in I. unfold member. apply Forall_app. split; [apply safe_quote|].
    apply Forall_app. split; [repeat constructor; vm_compute; intuition congruence|]. now apply IH.
Qed.
Print Assumptions C91_ascii.
Example C91_example_ascii : dumps 0 (JStr [chr 127; chr 233; "a"%char]) = chr 34 :: $"\u007f\u00e9a" ++ [chr 34].
Proof. reflexivity. Qed.

(** A value with nesting, empty lists and characters to escape.  [chr 34] is the quotation mark. *)
Definition q34 (s : string) : str := map (fun c => if Ascii.eqb c "'" then chr 34 else c) $s.
Definition C91_value : json := JObj [($"b", JList [JInt (-7); JNull; JList []]); ($"a", JStr [chr 34; chr 92; chr 10; chr 233; "x"%char]); ($"c", JObj [])].
Example C91_example : splitlines (dumps 0 C91_value) =
   [q34 "{"; chr 9 :: q34 "'a': '\" ++ [chr 34] ++ $"\\\n\u00e9x" ++ q34 "',"; chr 9 :: q34 "'b': [";
    chr 9 :: chr 9 :: q34 "-7,"; chr 9 :: chr 9 :: q34 "null,"; chr 9 :: chr 9 :: q34 "[]"; chr 9 :: q34 "],"; chr 9 :: q34 "'c': {}"; q34 "}"] /\
  json_read (dumps 0 C91_value) =
    Some (JObj [($"a", JStr [chr 34; chr 92; chr 10; chr 233; "x"%char]); ($"b", JList [JInt (-7); JNull; JList []]); ($"c", JObj [])]).
Proof. split; vm_compute; reflexivity. Qed.
(** Texts that are no JSON *)
Example C91_rejects : map json_read [q34 "{'a' 1}"; q34 "[1,]"; q34 "01"; q34 "'a"; q34 "[1] 2"; []] = [None; None; None; None; None; None] /\
  map json_read [q34 " { 'a':1 , 'b':[ true,false ] } "] = [Some (JObj [($"a", JInt 1); ($"b", JList [JBool true; JBool false])])].
Proof. split; vm_compute; reflexivity. Qed.
(** The text of an extraction *)
Example C91_result : exists r text, extract_syscalls ex_env ex_a ex_e [5;10] None = Ok r /\
  output_syscalls_json $"0.4" (Ok $"v5.10") $"vmlinux" ex_a r = Ok text /\ len (splitlines text) = 58 /\
  firstn 6 (splitlines text) = [q34 "{"; chr 9 :: q34 "'kernel': {"; chr 9 :: chr 9 :: q34 "'abi': {"; chr 9 :: chr 9 :: chr 9 :: q34 "'bits': 64,";
    chr 9 :: chr 9 :: chr 9 :: q34 "'calling_convention': {"; chr 9 :: chr 9 :: chr 9 :: chr 9 :: q34 "'parameters': ["].
Proof. eexists _, _. split; [vm_compute; reflexivity|]. split; [vm_compute; reflexivity|]. split; vm_compute; reflexivity. Qed.
