(** Properties C12-C18 (elf.py). *)
From Coq Require Import List Bool Ascii String ZArith Lia Permutation.
From Verif Require Import PyBase PyFacts Regex M_Elf S_Elf L_Elf L_ElfText.
Import ListNotations.
Open Scope Z_scope.
Open Scope list_scope.

(** ** C12 *)

Theorem C12_elf32_identification : forall h rest, header_ok h -> h_64 h = false ->
  elf_ident (encode_header h ++ rest) = Ok (true, h_big h, h_machine h, h_flags h).
Proof. exact elf32_ident. Qed.
Print Assumptions C12_elf32_identification.

(** Elf64: bitness, endianness and machine are right; instead of e_flags, one half of
    e_phoff is reported. *)
Theorem C12_elf64_identification_partial : forall h rest, header_ok h -> h_64 h = true ->
  elf_ident (encode_header h ++ rest) =
  Ok (false, h_big h, h_machine h, if h_big h then h_phoff h mod 2 ^ 32 else h_phoff h / 2 ^ 32).
Proof. exact elf64_ident. Qed.
Print Assumptions C12_elf64_identification_partial.

Theorem C12_elf64_flags_refuted : exists h, header_ok h /\ h_64 h = true /\
  forall rest, elf_ident (encode_header h ++ rest) <> Ok (negb (h_64 h), h_big h, h_machine h, h_flags h).
Proof. exact elf64_flags_bug. Qed.
Print Assumptions C12_elf64_flags_refuted.

Theorem C12_bad_class_or_data_exits : forall m1 m2 m3 m4 cl d rest,
  (code cl <> 1 /\ code cl <> 2) \/ (code d <> 1 /\ code d <> 2) ->
  elf_ident (m1 :: m2 :: m3 :: m4 :: cl :: d :: rest) = Exit 1.
Proof. exact elf_bad_class. Qed.
Print Assumptions C12_bad_class_or_data_exits.

Theorem C12_short_file : forall file, len file < 6 -> elf_ident file = Raise StructError.
Proof. exact elf_short. Qed.
Print Assumptions C12_short_file.

Example C12_example :
  let h := Header false true (repeat NL 10) 2 40 1 32768 52 1000 83886080 in
  header_ok h /\ elf_ident (encode_header h ++ $"anything") = Ok (true, true, EM_ARM, 83886080).
Proof. split; [repeat split; cbn; lia|reflexivity]. Qed.

(** ** C13 *)

Theorem C13_symbol_line : forall machine line value size typ name,
  ~ In NL line -> prints_symbol line value size typ name -> (machine = arm_machine -> value < 2 ^ 32) ->
  parse_symbol_line machine line = Some (Symbol value (code_address machine typ value) size typ name).
Proof. exact symbol_line_spec. Qed.
Print Assumptions C13_symbol_line.

Theorem C13_other_lines : forall machine line, ~ In NL line ->
  (parse_symbol_line machine line = None <-> ~ has_symbol_shape line).
Proof. exact parse_symbol_None. Qed.
Print Assumptions C13_other_lines.

(** For the whole output: the last symbol with a name, and the last FUNC with a name. *)
Theorem C13_symbol_table : forall machine lines items n, Forall2 (describes machine) lines items ->
  forall s,
  (dget str_eqb n (fst (extract_symbols machine (unlines lines))) = Some s <->
   last_named sym_name (flat_map opt_list items) n s) /\
  (dget str_eqb n (snd (extract_symbols machine (unlines lines))) = Some s <->
   last_named sym_name (filter is_func (flat_map opt_list items)) n s).
Proof. exact extract_describes. Qed.
Print Assumptions C13_symbol_table.

Example C13_example :
  let l1 := $"  1234: ffffffff81000040    97 FUNC    GLOBAL DEFAULT    1 __x64_sys_read" in
  let l2 := $"     0: 0000000000000000     0 NOTYPE  LOCAL  DEFAULT  UND " in
  prints_symbol l1 18446744071578845248 97 $"FUNC" $"__x64_sys_read" /\
  parse_symbol_line EM_X86_64 l1
    = Some (Symbol 18446744071578845248 18446744071578845248 97 $"FUNC" $"__x64_sys_read") /\
  parse_symbol_line EM_X86_64 l2 = None.
Proof.
  split; [|split; reflexivity].
  exists $"  ", $"1234", $" ", $"ffffffff81000040", $"    ", $"97", $" ",
    $"    GLOBAL DEFAULT    1", $" ".
  repeat split; discriminate.
Qed.

(** ** C14 *)

Theorem C14_thumb : forall line value size name, ~ In NL line ->
  prints_symbol line value size $"FUNC" name -> 0 <= value < 2 ^ 32 -> Z.odd value = true ->
  exists s, parse_symbol_line arm_machine line = Some s /\ sym_vaddr s = value /\ sym_real s = value - 1.
Proof. exact thumb_line. Qed.
Print Assumptions C14_thumb.

Theorem C14_others_unchanged : forall machine line value size typ name, ~ In NL line ->
  prints_symbol line value size typ name ->
  machine <> arm_machine \/ typ <> $"FUNC" \/ Z.odd value = false ->
  exists s, parse_symbol_line machine line = Some s /\ sym_vaddr s = value /\ sym_real s = value.
Proof. exact other_line. Qed.
Print Assumptions C14_others_unchanged.

Example C14_example :
  let l := $"    77: c0100a01    40 FUNC    GLOBAL DEFAULT    2 sys_read" in
  option_map sym_real (parse_symbol_line EM_ARM l) = Some 3222276608 /\
  option_map sym_real (parse_symbol_line EM_MIPS l) = Some 3222276609.
Proof. split; reflexivity. Qed.

(** ** C15 *)

Theorem C15_defined_iff_in_some_section : forall e v,
  (exists off, vaddr_to_file_offset e v = Ok off) <->
  exists s, In s (dvalues (e_sections e)) /\ sec_vaddr s <= v < sec_vaddr s + sec_size s.
Proof. exact vaddr_off_iff. Qed.
Print Assumptions C15_defined_iff_in_some_section.

Theorem C15_outside_raises : forall e v,
  (forall s, In s (dvalues (e_sections e)) -> ~ (sec_vaddr s <= v < sec_vaddr s + sec_size s)) ->
  vaddr_to_file_offset e v = Raise ValueError.
Proof. exact vaddr_off_outside. Qed.
Print Assumptions C15_outside_raises.

Theorem C15_offset_of_some_section : forall e v off, vaddr_to_file_offset e v = Ok off ->
  exists s, In s (dvalues (e_sections e)) /\ sec_vaddr s <= v < sec_vaddr s + sec_size s /\
            off = sec_off s + (v - sec_vaddr s).
Proof. exact vaddr_off_value. Qed.
Print Assumptions C15_offset_of_some_section.

Theorem C15_offset_disjoint : forall e v s,
  (forall a b w, In a (dvalues (e_sections e)) -> In b (dvalues (e_sections e)) ->
     sec_vaddr a <= w < sec_vaddr a + sec_size a -> sec_vaddr b <= w < sec_vaddr b + sec_size b -> a = b) ->
  In s (dvalues (e_sections e)) -> sec_vaddr s <= v < sec_vaddr s + sec_size s ->
  vaddr_to_file_offset e v = Ok (sec_off s + (v - sec_vaddr s)).
Proof. exact vaddr_off_disjoint. Qed.
Print Assumptions C15_offset_disjoint.

Theorem C15_order_independent : forall e1 e2 v,
  Permutation (dvalues (e_sections e1)) (dvalues (e_sections e2)) ->
  (forall a b w, In a (dvalues (e_sections e1)) -> In b (dvalues (e_sections e1)) ->
     sec_vaddr a <= w < sec_vaddr a + sec_size a -> sec_vaddr b <= w < sec_vaddr b + sec_size b -> a = b) ->
  vaddr_to_file_offset e1 v = vaddr_to_file_offset e2 v.
Proof. exact vaddr_off_order. Qed.
Print Assumptions C15_order_independent.

Theorem C15_read : forall e v n pre x post,
  vaddr_to_file_offset e v = Ok (len pre) -> e_file e = pre ++ x ++ post -> len x = n ->
  vaddr_read e v n = Ok x.
Proof. exact vaddr_read_bytes. Qed.
Print Assumptions C15_read.

Theorem C15_read_at_end_of_file : forall e v n pre x,
  vaddr_to_file_offset e v = Ok (len pre) -> e_file e = pre ++ x -> len x <= n ->
  vaddr_read e v n = Ok x.
Proof. exact vaddr_read_short. Qed.
Print Assumptions C15_read_at_end_of_file.

Example C15_example :
  let e := Elf $"....abcdefgh" false false EM_X86_64 0
     [($".text", Section_ $".text" 4096 4 4); ($".data", Section_ $".data" 8192 8 4)] [] [] in
  vaddr_to_file_offset e 8193 = Ok 9 /\ vaddr_read e 8193 2 = Ok $"fg" /\
  vaddr_to_file_offset e 4100 = Raise ValueError.
Proof. repeat split. Qed.

(** ** C16 *)

Theorem C16_string_up_to_nul : forall e v pre s post,
  vaddr_to_file_offset e v = Ok (len pre) ->
  e_file e = pre ++ s ++ chr 0 :: post -> ~ In (chr 0) s ->
  vaddr_read_string e v = Ok s.
Proof. exact read_string_found. Qed.
Print Assumptions C16_string_up_to_nul.

Theorem C16_only_terminated_strings : forall e v s, vaddr_read_string e v = Ok s ->
  exists off post, vaddr_to_file_offset e v = Ok off /\ ~ In (chr 0) s /\
    skipn (Z.to_nat off) (e_file e) = s ++ chr 0 :: post.
Proof. exact read_string_Ok. Qed.
Print Assumptions C16_only_terminated_strings.

(** Without a terminator the loop never ends. *)
Theorem C16_no_terminator_diverges : forall e v pre s,
  vaddr_to_file_offset e v = Ok (len pre) -> e_file e = pre ++ s -> s <> [] -> ~ In (chr 0) s ->
  vaddr_read_string e v = Diverge.
Proof. exact read_string_diverges. Qed.
Print Assumptions C16_no_terminator_diverges.

Theorem C16_always_returns_refuted : exists e v, vaddr_read_string e v = Diverge.
Proof. exact read_string_diverges_ex. Qed.
Print Assumptions C16_always_returns_refuted.

Example C16_example :
  let e := Elf ($"...." ++ $"Linux" ++ [chr 0] ++ $"x") false false EM_X86_64 0
     [($".rodata", Section_ $".rodata" 4096 4 7)] [] [] in
  vaddr_read_string e 4096 = Ok $"Linux".
Proof. reflexivity. Qed.

(** ** C17 *)

Theorem C17_none_iff : forall e s, next_symbol e s = None <->
  forall x, In x (dvalues (e_symbols e)) -> sym_real x <= sym_real s.
Proof. exact next_symbol_None. Qed.
Print Assumptions C17_none_iff.

Theorem C17_nearest : forall e s r,
  (forall x, In x (dvalues (e_symbols e)) -> sym_real x = sym_vaddr x) ->
  next_symbol e s = Some r ->
  In r (dvalues (e_symbols e)) /\ sym_real s < sym_real r /\
  forall x, In x (dvalues (e_symbols e)) -> ~ (sym_real s < sym_real x < sym_real r).
Proof. exact next_symbol_nearest. Qed.
Print Assumptions C17_nearest.

(** In general (Thumb code), the result is at most one byte too far ... *)
Theorem C17_at_most_one_byte_off_partial : forall e s r m,
  (forall x, In x (dvalues (e_symbols e)) -> sane_symbol m x) ->
  next_symbol e s = Some r ->
  In r (dvalues (e_symbols e)) /\ sym_real s < sym_real r /\
  forall x, In x (dvalues (e_symbols e)) -> sym_real s < sym_real x -> sym_real r <= sym_real x + 1.
Proof. exact next_symbol_near. Qed.
Print Assumptions C17_at_most_one_byte_off_partial.

(** ... and it is not the nearest only in this situation ... *)
Theorem C17_only_miss : forall e s r x m,
  (forall x, In x (dvalues (e_symbols e)) -> sane_symbol m x) ->
  next_symbol e s = Some r -> In x (dvalues (e_symbols e)) ->
  sym_real s < sym_real x < sym_real r ->
  m = arm_machine /\ sym_type x = $"FUNC" /\ sym_vaddr x = sym_vaddr r /\ Z.odd (sym_vaddr r) = true /\
  sym_type r <> $"FUNC" /\ sym_real x = sym_vaddr r - 1 /\ sym_real r = sym_vaddr r.
Proof. exact next_symbol_miss. Qed.
Print Assumptions C17_only_miss.

(** ... which can happen. *)
Theorem C17_nearest_refuted : exists e s r x m,
  (forall x, In x (dvalues (e_symbols e)) -> sane_symbol m x) /\
  In s (dvalues (e_symbols e)) /\ In x (dvalues (e_symbols e)) /\
  next_symbol e s = Some r /\ sym_real s < sym_real x < sym_real r.
Proof. exact next_symbol_tie. Qed.
Print Assumptions C17_nearest_refuted.

(** The symbols elf.py extracts from readelf's output are [sane_symbol]s. *)
Theorem C17_extracted_symbols_are_sane : forall m out s,
  In s (dvalues (fst (extract_symbols m out))) ->
  (m = arm_machine -> sym_vaddr s < 2 ^ 32) -> sane_symbol m s.
Proof. exact extracted_sane. Qed.
Print Assumptions C17_extracted_symbols_are_sane.

Example C17_example :
  let a := Symbol 4096 4096 16 $"FUNC" $"a" in
  let b := Symbol 8192 8192 16 $"FUNC" $"b" in
  let e := Elf [] false false EM_X86_64 0 [] [($"b", b); ($"a", a)] [] in
  next_symbol e a = Some b /\ next_symbol e b = None.
Proof. split; reflexivity. Qed.

(** ** C18 *)

Theorem C18_section_table : forall lines items n s, Forall2 sec_describes lines items ->
  (dget str_eqb n (parse_sections (unlines lines)) = Some s <->
   last_named sec_name (flat_map opt_list items) n s).
Proof. exact parse_sections_last. Qed.
Print Assumptions C18_section_table.

Example C18_example :
  let l1 := $"  [ 1] .text             PROGBITS        ffffffff81000000 200000 e00f10 00  AX  0   0 4096" in
  let l2 := $"  [ 2] .notes            NOTE            ffffffff81e00f10 1000f10 000054 00   A  0   0  4" in
  let l3 := $"  [ 3] __ex-table        PROGBITS        ffffffff81e00f10 1000f10 000054 00   A  0   0  4" in
  let l4 := $"  [24] .bss              NOBITS          ffffffff82e0f000 200f000 3f1000 00  WA  0   0 4096" in
  dkeys (parse_sections (unlines [l1; l2; l3; l4])) = [$".text"; $".bss"] /\
  dget str_eqb $".text" (parse_sections (unlines [l1; l2; l3; l4]))
    = Some (Section_ $".text" 18446744071578845184 2097152 14683920) /\
  prints_section l1 $".text" 18446744071578845184 2097152 14683920 /\ silent l2 /\ silent l3.
Proof.
  cbv zeta. split; [vm_compute; reflexivity|]. split; [vm_compute; reflexivity|].
  split; [exact example_section_line|exact example_silent].
Qed.
