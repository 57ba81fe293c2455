(** C106: sources and strings that are not UTF-8 *)
From Coq Require Import List Bool Ascii String ZArith Lia Arith.
From Verif Require Import PyBase PyFacts Regex M_Elf M_Syscall M_Arch M_Location M_Search M_Build M_Signature M_Text S_Text L_Text L_Text2 L_Text3.
Import ListNotations.
Open Scope Z_scope.
Open Scope list_scope.

Definition ascii_bytes (b : bytes) : Prop := Forall (fun c => code c < 128) b.

(** bytes.decode() gives the text the bytes are, and raises if they are none *)
Theorem C106_utf8 : forall b,
  (forall t, decode b = Ok t <-> written b t) /\ (not_text b -> decode b = Raise UnicodeDecodeError) /\ (ascii_bytes b -> decode b = Ok (map code b)).
Proof. intros b. split; [exact (decode_written b)|]. split; [exact (decode_raises b)|]. intros A. apply decode_written, ascii_written, A. Qed.
Print Assumptions C106_utf8.

(** The search: only the lines that match must be text *)
Theorem C106_search : forall exp content,
  ((exists l, In l (lines_keep content) /\ re_search exp l <> None /\ not_text (brstrip l)) -> grep_bytes exp content = Raise UnicodeDecodeError) /\
  ((forall l, In l (lines_keep content) -> re_search exp l <> None -> exists t, written (brstrip l) t) ->
   exists r, grep_bytes exp content = Ok r /\ forall k t, In (k, t) r <->
     exists i l, k = 1 + Z.of_nat i /\ nth_error (lines_keep content) i = Some l /\ re_search exp l <> None /\ written (brstrip l) t).
Proof. intros exp content. split; [exact (grep_lines_raises exp _ 1)|exact (grep_lines_gives exp _ 1)]. Qed.
Print Assumptions C106_search.

(** The check of a location: only its line must be text *)
Theorem C106_location : forall good content line s l, nth_error (lines_keep content) (Z.to_nat (line - 1)) = Some l ->
  (not_text l -> good_location_bytes good content line s = Raise UnicodeDecodeError) /\
  (forall t, written l t -> good_location_bytes good content line s = Ok (good t (sc_origname s) || good t (sc_name s))) /\
  (forall w file a, w_file w file = Some content -> ascii_bytes l -> (forall name, good (map code l) name = good_definition a l name) ->
   good_location_bytes good content line s = good_location w file line a s).
Proof.
  intros good content line s l L. assert (nth (Z.to_nat (line - 1)) (lines_keep content) [] = l) as N by (apply nth_error_nth; exact L).
  assert ((List.length (lines_keep content) <? Z.to_nat (line - 1))%nat = false) as LT by (apply Nat.ltb_ge; apply Nat.lt_le_incl, nth_error_Some; congruence).
  split; [|split].
  - intros T. unfold good_location_bytes. now rewrite LT, N, (decode_raises _ T).
  - intros t W. unfold good_location_bytes. rewrite LT, N. apply decode_written in W. now rewrite W.
  - intros w file a F A G. apply good_location_ascii; [exact F| |]; now rewrite N.
Qed.
Print Assumptions C106_location.

(** Strings in the image *)
Theorem C106_string : forall e v b, vaddr_read_string e v = Ok b ->
  (not_text b -> read_string_bytes e v = Raise UnicodeDecodeError) /\ (forall t, written b t -> read_string_bytes e v = Ok t).
Proof.
  intros e v b. unfold vaddr_read_string, read_string_bytes. destruct (vaddr_to_file_offset e v); cbn [bind]; try discriminate. intros ->. cbn [bind].
  split; [exact (decode_raises b)|]. intros t. apply decode_written.
Qed.
Print Assumptions C106_string.

(** The signature, if all of the file is text: what the lines say, however the file is cut into chunks *)
Theorem C106_signature : forall rest chunks t ls line big, written (List.concat chunks) t -> lines_of t ls ->
  (forall s, signature_at ls line s -> signature_from_chunks rest chunks line big = rest s big) /\
  ((forall s, ~ signature_at ls line s) ->
   signature_from_chunks rest chunks line big = if (List.length ls <? Z.to_nat (line - 1))%nat then Raise StopIteration else Diverge).
Proof. exact signature_whole. Qed.
Print Assumptions C106_signature.
Theorem C106_lines : forall t, (exists ls, lines_of t ls) /\ exists ls rest, splits t ls rest.
Proof. intros t. exact (conj (lines_total t) (splits_total t)). Qed.
Print Assumptions C106_lines.

(** If it is not: whatever ends before the first bad byte may still be found, the rest raises *)
Theorem C106_broken : forall rest chunks t ls r line big, breaks (List.concat chunks) t -> splits t ls r ->
  (forall s, signature_at ls line s ->
     signature_from_chunks rest chunks line big = rest s big \/ signature_from_chunks rest chunks line big = Raise UnicodeDecodeError) /\
  ((forall s, ~ signature_at ls line s) -> signature_from_chunks rest chunks line big = Raise UnicodeDecodeError).
Proof. exact signature_broken. Qed.
Print Assumptions C106_broken.
(** Which of the two depends on the chunks: found if the bad byte is in a later one ... *)
Theorem C106_later_chunk : forall rest p q t ls r line big s, written p t -> splits t ls r -> signature_at ls line s ->
  signature_from_chunks rest [p; q] line big = rest s big.
Proof. exact signature_soon. Qed.
Print Assumptions C106_later_chunk.
(** ... and never if it is in the first *)
Theorem C106_first_chunk : forall rest p chunks line big, (forall c, not_text (p ++ c)) ->
  signature_from_chunks rest (p :: chunks) line big = Raise UnicodeDecodeError.
Proof. exact signature_at_once. Qed.
Print Assumptions C106_first_chunk.
Theorem C106_either : forall b, not_text b <-> exists t, breaks b t.
Proof. intros b. split; [apply not_text_breaks|]. intros (t & B). exact (breaks_not_text _ _ B). Qed.
Print Assumptions C106_either.

(** On sources that are text with Latin-1 characters only, for example ASCII, the rest of the model is right *)
Theorem C106_model : forall rest chunks files syscalls e have_source,
  (forall s big, rest (map code s) big = signature_of_text s big) ->
  (forall f, match chunks f, files f with
             | Some c, Some x => written (List.concat c) (map code x)
             | None, None => True
             | _, _ => False
             end) ->
  extract_signatures_bytes rest chunks syscalls e have_source = extract_syscall_signatures files syscalls e have_source.
Proof.
  intros rest chunks files scs e hs R H. unfold extract_signatures_bytes, extract_syscall_signatures. destruct (read_metadata e) as [meta| | |]; cbn [bind]; try reflexivity.
  apply mapM_same. intros s _. unfold sign_bytes, sign. destruct (sc_esoteric s); [reflexivity|]. destruct (sc_good s); [|reflexivity]. destruct (sc_file s) as [f|]; [|reflexivity].
  destruct (sc_line s) as [l|]; [|reflexivity]. unfold signature_from_file, syscall_signature_from_source. specialize (H f). destruct (chunks f), (files f); try contradiction; [|reflexivity].
  rewrite (signature_narrow rest _ _ l (e_big e) H (fun s => R s (e_big e))). reflexivity.
Qed.
Print Assumptions C106_model.

(** One bad byte in front of one definition, and there is no result for any syscall *)
Theorem C106_all_lost : forall rest files syscalls e have_source s f line chunks t ls r,
  In s syscalls -> sc_esoteric s = false -> sc_good s = true -> sc_file s = Some f -> sc_line s = Some line -> files f = Some chunks ->
  breaks (List.concat chunks) t -> splits t ls r -> (forall x, ~ signature_at ls line x) ->
  forall res, extract_signatures_bytes rest files syscalls e have_source <> Ok res.
Proof.
  intros rest files scs e hs s f line chunks t ls r I E G F L C B S N res. unfold extract_signatures_bytes. destruct (read_metadata e) as [meta| | |]; cbn [bind]; try discriminate.
  apply (mapM_member _ _ s I). intros y. unfold sign_bytes. rewrite E, G, F, L. unfold assert_. destruct hs; cbn [bind]; [|discriminate]. unfold signature_from_file. rewrite C.
  destruct (C106_broken rest chunks t ls r line (e_big e) B S) as (_ & X). now rewrite (X N).
Qed.
Print Assumptions C106_all_lost.

(** ** A file with a Latin-1 name in a comment *)

Definition ex_head : bytes := $"/* Jos" ++ [chr 233] ++ $" */" ++ [NL].
Definition ex_def : bytes := $"SYSCALL_DEFINE1(foo, int, x)".
Definition ex_file : bytes := ex_head ++ ex_def ++ [NL].
Definition ex_foo : syscall := Syscall (Some 0) 0 $"foo" $"foo" (Symbol 0 0 0 $"FUNC" $"sys_foo") None None None None false false false.

Lemma ex_breaks : breaks ex_file (map code $"/* Jos").
Proof.
  exists $"/* Jos", ([chr 233] ++ $" */" ++ [NL] ++ ex_def ++ [NL]). split; [reflexivity|]. split; [apply ascii_written; repeat constructor|]. split; [discriminate|].
  intros z r S E. destruct (encode_cases z S) as [(H & X)|[(H & a & b & X & V & R)|[(H & a & b & c & X & V & R)|(H & a & b & c & d & X & V & R)]]]; rewrite X in E;
    change (map code ([chr 233] ++ $" */" ++ [NL] ++ ex_def ++ [NL])) with (233 :: 32 :: map code ($"*/" ++ [NL] ++ ex_def ++ [NL])) in E; cbn [app] in E; uncons E; lia.
Qed.

(** The claim: only the line of the definition must be text.  It holds for the search and the check of the
    location (above), not for the signature. *)
Theorem C106_elsewhere_refuted : exists content line def,
  nth_error (lines_keep content) (Z.to_nat (line - 1)) = Some def /\ ascii_bytes def /\
  (exists l, In l (lines_keep content) /\ not_text l) /\
  forall rest chunks big, List.concat chunks = content -> signature_from_chunks rest chunks line big = Raise UnicodeDecodeError.
Proof.
  exists ex_file, 2, (ex_def ++ [NL]). split; [reflexivity|]. split; [repeat constructor|]. split.
  - exists ex_head. split; [now left|]. apply (breaks_not_text _ (map code $"/* Jos")).
    exists $"/* Jos", ([chr 233] ++ $" */" ++ [NL]). split; [reflexivity|]. split; [apply ascii_written; repeat constructor|]. split; [discriminate|].
    intros z r S E. destruct (encode_cases z S) as [(H & X)|[(H & a & b & X & V & R)|[(H & a & b & c & X & V & R)|(H & a & b & c & d & X & V & R)]]]; rewrite X in E;
      change (map code ([chr 233] ++ $" */" ++ [NL])) with (233 :: 32 :: map code ($"*/" ++ [NL])) in E; cbn [app] in E; uncons E; lia.
  - intros rest chunks big C. assert (splits (map code $"/* Jos") [] (map code $"/* Jos")) as S by (apply splits_none; split; intros H; vm_compute in H; intuition discriminate).
    destruct (C106_broken rest chunks _ _ _ 2 big ltac:(rewrite C; exact ex_breaks) S) as (_ & X). apply X. intros s H. inversion H.
Qed.
Print Assumptions C106_elsewhere_refuted.

(** The same file is searched and its location checked without trouble, and with "José" in UTF-8 there is a signature *)
Definition ex_good (t : text) (name : str) : bool := good_definition (Arch KX86 [6; 0] $"x64" false false false false [] None 0 None []) (map chr t) name.
Definition ex_rest (t : text) (big : bool) : outcome (option (list str)) := signature_of_text (map chr t) big.
Definition ex_utf8 : list bytes := [$"/* Jos" ++ [chr 195]; [chr 169] ++ $" */" ++ [CR]; [NL] ++ ex_def ++ [NL]].
Example C106_example :
  good_location_bytes ex_good ex_file 2 ex_foo = Ok true /\
  grep_bytes (search_exp (Arch KX86 [6; 0] $"x64" false false false false [] None 0 None [])) ex_file = Ok [(2, map code ex_def)] /\
  signature_from_chunks ex_rest [ex_file] 2 false = Raise UnicodeDecodeError /\
  signature_from_chunks ex_rest ex_utf8 2 false = Ok (Some [$"int x"]) /\
  signature_from_chunks ex_rest [ex_def ++ [NL]; [chr 233]] 1 false = Ok (Some [$"int x"]) /\
  signature_from_chunks ex_rest [ex_def ++ [NL] ++ [chr 233; NL]] 1 false = Raise UnicodeDecodeError.
Proof. repeat split; vm_compute; reflexivity. Qed.
Example C106_example_written : written (List.concat ex_utf8) (map code ($"/* Jos" ++ [chr 233] ++ $" */" ++ [CR; NL] ++ ex_def ++ [NL])).
Proof. apply decode_written. vm_compute. reflexivity. Qed.
Example C106_example_model : forall s big, ex_rest (map code s) big = signature_of_text s big.
Proof. intros s big. unfold ex_rest. f_equal. rewrite map_map. rewrite <- map_id. apply map_ext. exact chr_code. Qed.
