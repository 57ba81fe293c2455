(** Properties C10, C11, C19-C28 (kernel.py). *)
From Coq Require Import List Bool Ascii String ZArith Lia Permutation Sorted.
From Verif Require Import PyBase PyFacts M_Utils S_Utils M_Elf S_Elf M_Syscall M_Arch S_Arch M_Emu M_Kconfig M_Kernel S_Kernel
  L_Kernel L_Kernel2 L_Kernel3 L_Kernel4 L_Kernel7 L_Kernel8 L_Kernel9 L_Kernel10 L_Table.
From Verif Require L_ElfText.
Import ListNotations.
Open Scope Z_scope.
Open Scope list_scope.

(** * An image for the examples *)

(** A small x86-64 image: 64 bytes of header, .text with four functions of 16 bytes, .rodata with
    the table. *)
Definition ex_header : bytes := bts [127;69;76;70;2;1] ++ repeat (chr 0) 12 ++ bts [62;0] ++ repeat (chr 0) 44.
Definition ex_code : bytes :=
  repeat (chr 15) 16 ++ repeat (chr 1) 16 ++ repeat (chr 2) 16 ++ repeat (chr 15) 16.
Definition ex_words (l : list Z) : bytes := List.concat (map (enc_uint false 8) l).
Definition ex_sections : str := unlines
  [$"  [ 1] .text             PROGBITS        0000000000001000 000040 000040 00  AX  0   0 16";
   $"  [ 2] .rodata           PROGBITS        0000000000002000 000080 000200 00   A  0   0 16"].
Definition ex_line (v : string) (size : string) (typ : string) (name : string) : str :=
  $"   77: " ++ $v ++ $"    " ++ $size ++ $" " ++ $typ ++ $"    GLOBAL DEFAULT    1 " ++ $name.
Definition ex_lines : list str :=
  [ex_line "0000000000002000" "0" "OBJECT" "sys_call_table";
   ex_line "0000000000001000" "16" "FUNC" "__x64_sys_ni_syscall";
   ex_line "0000000000001000" "16" "FUNC" "sys_ni_syscall";
   ex_line "0000000000001000" "16" "FUNC" "__x64_sys_gone";
   ex_line "0000000000001010" "16" "FUNC" "__x64_sys_read";
   ex_line "0000000000001010" "16" "FUNC" "__se_sys_read";
   ex_line "0000000000001020" "16" "FUNC" "__x64_sys_write";
   ex_line "0000000000001030" "16" "FUNC" "__x64_sys_copy_of_ni";
   ex_line "0000000000002100" "0" "OBJECT" "after_table"].
Definition ex_open (table : list Z) (lines : list str) : outcome elf :=
  elf_open (ex_header ++ ex_code ++ ex_words table) ex_sections (unlines lines).
Definition ex_table : list Z := [4112; 4096; 4128; 4144; 4096; 0].
Definition ex_env : env := Env (fun _ _ _ => []) (fun _ _ => false) (fun l => l) (fun l => l) (fun l => Ok l).
Definition ex_arch : outcome arch := arch_new KX86 [5;10] $"x64" false.
Definition ex_run (t : env) (table : list Z) (lines : list str) : outcome (list syscall) :=
  a <- ex_arch ;; e <- ex_open table lines ;; extract_syscalls t a e [5;10] None.
(** What is reported: index, number and symbol. *)
Definition ex_show (r : outcome (list syscall)) : outcome (list (option Z * Z * str)) :=
  l <- r ;; Ok (map (fun s => (sc_index s, sc_number s, sym_name (sc_symbol s))) l).
Definition from_ok {A} (o : outcome A) (d : A) : A := match o with Ok x => x | _ => d end.
Definition ex_e : elf := from_ok (ex_open ex_table ex_lines) (Elf [] false false 0 0 [] [] []).
Definition ex_a : arch := from_ok ex_arch (Arch KX86 [] [] false false false false [] None 0 None []).
Lemma ex_open_ok : ex_open ex_table ex_lines = Ok ex_e.
Proof. vm_compute. reflexivity. Qed.
Lemma ex_arch_ok : arch_new KX86 [5;10] $"x64" false = Ok ex_a.
Proof. vm_compute. reflexivity. Qed.
Lemma ex_loaded : loaded ex_e.
Proof. exists (ex_header ++ ex_code ++ ex_words ex_table), ex_sections, (unlines ex_lines). vm_compute. reflexivity. Qed.
Lemma ex_order : forall l : list symbol, Permutation (v_ni_order ex_env l) l.
Proof. intros l. apply Permutation_refl. Qed.
Lemma ex_annotates : annotates (v_annotate ex_env).
Proof.
  intros l r H. injection H as <-. induction l as [|s l IH]; constructor; [repeat split|exact IH].
Qed.
Lemma ex_vaddrs : syscall_vaddrs ex_env (adjust_abi ex_a ex_e) ex_e = Ok [(0, 4112); (1, 4096); (2, 4128); (3, 4144); (4, 4096)].
Proof. vm_compute. reflexivity. Qed.
Lemma ex_ni : not_implemented ex_e 4096.
Proof.
  exists (Symbol 4096 4096 16 $"FUNC" $"sys_ni_syscall"). split; [vm_compute; auto|]. split; [reflexivity|]. split; [|reflexivity].
  split; [left; exists []; reflexivity|]. repeat split; intros [t H]; discriminate H.
Qed.

(** * C10 *)

Theorem C10_three_components : forall x y z a b c r,
  is_number x a -> is_number y b -> is_number z c -> ~ starts_with_digit r ->
  version_from_str (x ++ $"." ++ y ++ $"." ++ z ++ r) = Some [a; b; c].
Proof. exact version_three. Qed.
Print Assumptions C10_three_components.

Theorem C10_two_components : forall x y a b r,
  is_number x a -> is_number y b -> ~ starts_with_digit r ->
  (forall t, r = $"." ++ t -> ~ starts_with_digit t) ->
  version_from_str (x ++ $"." ++ y ++ r) = Some [a; b].
Proof. exact version_two. Qed.
Print Assumptions C10_two_components.

Theorem C10_none_iff : forall s, version_from_str s = None <->
  ~ exists x y r, s = x ++ $"." ++ y ++ r /\ some_of is_dec x /\ some_of is_dec y.
Proof. exact version_none. Qed.
Print Assumptions C10_none_iff.

Theorem C10_banner : forall s, version_from_banner ($"Linux version " ++ s) = version_from_str s.
Proof. exact banner_ok. Qed.
Print Assumptions C10_banner.

Theorem C10_no_banner : forall s, ~ is_prefix $"Linux version " s -> version_from_banner s = None.
Proof. exact banner_bad. Qed.
Print Assumptions C10_no_banner.

Example C10_example :
  version_from_banner $"Linux version 5.10.0-rc1 (gcc)" = Some [5; 10; 0] /\
  version_from_str $"6.1-rc3" = Some [6; 1] /\ version_from_str $"6.1.x" = Some [6; 1] /\
  version_from_str $"v5.10" = None /\ version_from_banner $"linux version 5.10" = None /\
  is_number $"010" 10 /\ ~ starts_with_digit $"-rc1".
Proof.
  repeat split; try reflexivity; try discriminate. intros (c & t & H & D). injection H as <- <-. discriminate D.
Qed.

(** * C11 *)

Theorem C11_round_trip : forall a b c, 0 <= a -> 0 <= b -> 0 <= c ->
  exists t, version_tag [a; b; c] = Ok ("v"%char :: t) /\
    version_from_str t = Some (if c =? 0 then [a; b] else [a; b; c]).
Proof. exact tag_round_trip. Qed.
Print Assumptions C11_round_trip.

Theorem C11_injective : forall v w t, version_tag v = Ok t -> version_tag w = Ok t ->
  Forall (fun z => 0 <= z) v -> Forall (fun z => 0 <= z) w -> v = w.
Proof. exact tag_inj. Qed.
Print Assumptions C11_injective.

(** A detected version with two components has no tag. *)
Theorem C11_defined_refuted : exists banner v,
  version_from_banner banner = Some v /\ version_tag v = Raise ValueError.
Proof. exists $"Linux version 6.1-rc3", [6; 1]. split; reflexivity. Qed.
Print Assumptions C11_defined_refuted.

Example C11_example :
  version_tag [5; 10; 0] = Ok $"v5.10" /\ version_tag [5; 10; 12] = Ok $"v5.10.12" /\
  version_from_str $"5.10.12" = Some [5; 10; 12].
Proof. repeat split. Qed.

(** * C19 *)

Theorem C19_sized_table : forall e tbl target off, loaded e -> 128 < sym_size tbl ->
  place e (sym_vaddr tbl) off -> off + sym_size tbl <= len (e_file e) ->
  sym_size tbl mod Z.of_nat (pointer_bytes e) = 0 ->
  exists ps, len ps = sym_size tbl / Z.of_nat (pointer_bytes e) /\
    pointers_at e (sym_vaddr tbl) ps /\ unpack_syscall_table e tbl target = Ok ps.
Proof. exact sized_table_loaded. Qed.
Print Assumptions C19_sized_table.

(** The entries are determined by the file. *)
Theorem C19_entry : forall e tbl target ps i p, 128 < sym_size tbl ->
  sym_size tbl = len ps * Z.of_nat (pointer_bytes e) -> pointers_at e (sym_vaddr tbl) ps ->
  nth_error ps i = Some p ->
  exists off l, place e (sym_vaddr tbl) off /\ unpack_syscall_table e tbl target = Ok l /\ nth_error l i = Some p /\
    file_read (e_file e) (off + Z.of_nat i * Z.of_nat (pointer_bytes e)) (Z.of_nat (pointer_bytes e)) =
      enc_uint (e_big e) (pointer_bytes e) p.
Proof. exact sized_entry. Qed.
Print Assumptions C19_entry.

Theorem C19_odd_size : forall e tbl target off, loaded e -> 128 < sym_size tbl ->
  place e (sym_vaddr tbl) off -> off + sym_size tbl <= len (e_file e) ->
  sym_size tbl mod Z.of_nat (pointer_bytes e) <> 0 ->
  unpack_syscall_table e tbl target = Raise StructError.
Proof. exact sized_table_odd_loaded. Qed.
Print Assumptions C19_odd_size.

(** A file that ends within the table gives the entries before the end, without an error. *)
Theorem C19_truncated : forall e tbl target pre ps, 128 < sym_size tbl -> place e (sym_vaddr tbl) (len pre) ->
  e_file e = pre ++ stored e ps -> Forall (is_pointer e) ps -> len ps * Z.of_nat (pointer_bytes e) <= sym_size tbl ->
  unpack_syscall_table e tbl target = Ok ps.
Proof. exact sized_truncated. Qed.
Print Assumptions C19_truncated.
(** Whatever was read is in the file. *)
Theorem C19_in_file : forall e tbl target ps, loaded e -> unpack_syscall_table e tbl target = Ok ps ->
  ps = [] \/ pointers_at e (sym_vaddr tbl) ps.
Proof. exact table_read. Qed.
Print Assumptions C19_in_file.

Definition ex_sized : outcome elf :=
  elf_open (ex_header ++ ex_code ++ ex_words (map (fun i => 4096 + i) (zrange 0 18))) ex_sections
    (unlines [ex_line "0000000000002000" "136" "OBJECT" "sys_call_table"]).
Example C19_example :
  match ex_sized with
  | Ok e => match dget str_eqb $"sys_call_table" (e_symbols e), dget str_eqb $".text" (e_sections e) with
            | Some tbl, Some text =>
                sym_size tbl = 136 /\ pointer_bytes e = 8%nat /\ vaddr_to_file_offset e (sym_vaddr tbl) = Ok 128 /\
                len (e_file e) = 272 /\
                unpack_syscall_table e tbl text = Ok (map (fun i => 4096 + i) (zrange 0 17))
            | _, _ => False
            end
  | _ => False
  end.
Proof. vm_compute. repeat split. Qed.

(** The same symbol in a file with three entries only. *)
Example C19_example_truncated :
  match elf_open (ex_header ++ ex_code ++ ex_words [4096; 4112; 4128]) ex_sections (unlines [ex_line "0000000000002000" "136" "OBJECT" "sys_call_table"]) with
  | Ok e => match dget str_eqb $"sys_call_table" (e_symbols e), dget str_eqb $".text" (e_sections e) with
            | Some tbl, Some text => sym_size tbl = 136 /\ e_file e = (ex_header ++ ex_code) ++ stored e [4096; 4112; 4128] /\
                unpack_syscall_table e tbl text = Ok [4096; 4112; 4128]
            | _, _ => False
            end
  | _ => False
  end.
Proof. vm_compute. repeat split. Qed.

(** * C20 *)

(** The result is the longest run of good entries; the pointer that ends it must be in the file. *)
Theorem C20_unsized_table : forall e tbl target ps, loaded e -> sym_size tbl <= 128 ->
  (unpack_syscall_table e tbl target = Ok ps <->
   exists stop, pointers_at e (sym_vaddr tbl) (ps ++ [stop]) /\
     (forall i p, nth_error ps i = Some p -> good_entry e tbl target (Z.of_nat i) p) /\
     ~ good_entry e tbl target (len ps) stop).
Proof. exact unsized_table_iff. Qed.
Print Assumptions C20_unsized_table.

(** If the file ends first, reading fails. *)
Theorem C20_end_of_file : forall e tbl target off, loaded e -> sym_size tbl <= 128 ->
  place e (sym_vaddr tbl) off ->
  (forall ps stop, pointers_at e (sym_vaddr tbl) (ps ++ [stop]) ->
     (forall i p, nth_error ps i = Some p -> good_entry e tbl target (Z.of_nat i) p) ->
     good_entry e tbl target (len ps) stop) ->
  unpack_syscall_table e tbl target = Raise StructError.
Proof. exact unsized_table_eof. Qed.
Print Assumptions C20_end_of_file.

Example C20_example :
  match dget str_eqb $"sys_call_table" (e_symbols ex_e), dget str_eqb $".text" (e_sections ex_e) with
  | Some tbl, Some text => sym_size tbl = 0 /\ unpack_syscall_table ex_e tbl text = Ok [4112; 4096; 4128; 4144; 4096]
  | _, _ => False
  end /\
  match ex_open [4112; 4096] ex_lines with
  | Ok e => match dget str_eqb $"sys_call_table" (e_symbols e), dget str_eqb $".text" (e_sections e) with
            | Some tbl, Some text => unpack_syscall_table e tbl text = Raise StructError
            | _, _ => False
            end
  | _ => False
  end.
Proof. vm_compute. repeat split. Qed.

(** * C21 *)

Theorem C21_without_descriptors : forall a e name tbl text, 
  dget str_eqb name (e_symbols e) = Some tbl -> dget str_eqb $".text" (e_sections e) = Some text ->
  forall ps, a_fdesc a = false -> table_entries e tbl text ps ->
  vaddrs_from_table a e name = Ok (enum_from 0 ps).
Proof. exact table_plain. Qed.
Print Assumptions C21_without_descriptors.

Theorem C21_direct : forall a e name tbl text, 
  dget str_eqb name (e_symbols e) = Some tbl -> dget str_eqb $".text" (e_sections e) = Some text ->
  forall p ps, pointers_at e (sym_vaddr tbl) [p] -> inside text p -> table_entries e tbl text ps ->
  vaddrs_from_table a e name = Ok (enum_from 0 ps).
Proof. exact table_direct. Qed.
Print Assumptions C21_direct.

Theorem C21_descriptors : forall a e name tbl text, 
  dget str_eqb name (e_symbols e) = Some tbl -> dget str_eqb $".text" (e_sections e) = Some text ->
  forall p opd ds vs, a_fdesc a = true -> pointers_at e (sym_vaddr tbl) [p] -> ~ inside text p ->
  dget str_eqb $".opd" (e_sections e) = Some opd -> table_entries e tbl opd ds -> ds <> [] ->
  Forall2 (fun d v => pointers_at e d [v]) ds vs ->
  vaddrs_from_table a e name = Ok (enum_from 0 vs).
Proof. exact table_descriptors. Qed.
Print Assumptions C21_descriptors.

(** Without descriptors in the image there is nothing to follow. *)
Theorem C21_no_opd : forall a e name tbl text, 
  dget str_eqb name (e_symbols e) = Some tbl -> dget str_eqb $".text" (e_sections e) = Some text ->
  forall p, a_fdesc a = true -> pointers_at e (sym_vaddr tbl) [p] -> ~ inside text p ->
  dget str_eqb $".opd" (e_sections e) = None -> vaddrs_from_table a e name = Ok [].
Proof. exact table_no_opd. Qed.
Print Assumptions C21_no_opd.

(** A big-endian PowerPC image; table entries 0 and 1 refer to descriptors 1 and 0. *)
Definition ex_be (l : list Z) : bytes := List.concat (map (enc_uint true 8) l).
Definition ex_ppc : outcome elf :=
  elf_open (bts [127;69;76;70;2;2] ++ repeat (chr 0) 12 ++ bts [0;21] ++ repeat (chr 0) 44 ++ repeat (chr 1) 64 ++
            ex_be [4112; 0; 0; 4128; 0; 0] ++ ex_be [12312; 12288; 0])
    (unlines [$"  [ 1] .text             PROGBITS        0000000000001000 000040 000040 00  AX  0   0 16";
              $"  [ 2] .opd              PROGBITS        0000000000003000 000080 000030 00   A  0   0 16";
              $"  [ 3] .rodata           PROGBITS        0000000000002000 0000b0 000018 00   A  0   0 16"])
    (unlines [ex_line "0000000000002000" "0" "OBJECT" "sys_call_table"]).
Example C21_example :
  match ex_ppc, arch_new KPowerPC [5;10] $"ppc64" false with
  | Ok e, Ok a => a_fdesc a = true /\ vaddrs_from_table a e $"sys_call_table" = Ok [(0, 4128); (1, 4112)]
  | _, _ => False
  end.
Proof. vm_compute. repeat split. Qed.

(** * C22 *)

(** [t] is what the analysis gets from outside: the decoder, the orders of sets and the
    annotation with locations and signatures. *)
Theorem C22_provenance : forall t k ver abi b a e v kdir r,
  arch_new k ver abi b = Ok a -> (forall l, Permutation (v_ni_order t l) l) -> annotates (v_annotate t) ->
  extract_syscalls t a e v kdir = Ok r ->
  forall s, In s r -> of_table s = true ->
  exists vaddrs i v', syscall_vaddrs t (adjust_abi a e) e = Ok vaddrs /\ In (i, v') vaddrs /\
    sc_index s = Some i /\ number_at k ver abi b i (sc_number s) /\
    symbol_at e v' (sc_symbol s) /\ ~ not_implemented e v'.
Proof. exact result_provenance. Qed.
Print Assumptions C22_provenance.

Example C22_example : 
  ex_show (extract_syscalls ex_env ex_a ex_e [5;10] None) =
    Ok [(Some 0, 0, $"__x64_sys_read"); (Some 2, 2, $"__x64_sys_write")] /\
  arch_new KX86 [5;10] $"x64" false = Ok ex_a /\
  (forall l, Permutation (v_ni_order ex_env l) l) /\ annotates (v_annotate ex_env).
Proof. split; [vm_compute; reflexivity|]. split; [exact ex_arch_ok|]. split; [exact ex_order|exact ex_annotates]. Qed.

(** * C23 *)

(** The list before the locations.  [choice] gives every address one of its symbols; the entries
    that are reported are exactly those that are implemented, not of another ABI (see C38, C39)
    and not a dummy (see C31-C35). *)
Theorem C23_no_entry_lost : forall k ver abi b a0 e v ni_order vaddrs l,
  arch_new k ver abi b = Ok a0 -> (forall l, Permutation (ni_order l) l) ->
  NoDup (map fst vaddrs) -> (exists v, not_implemented e v) ->
  candidates ni_order (adjust_abi a0 e) e v vaddrs = Ok l ->
  exists main eso choice ref code,
    l = main ++ eso /\
    chooses e vaddrs choice /\ reference e vaddrs choice ref code /\
    StronglySorted index_before main /\
    (forall s, In s main -> of_table s = true /\ exists i v', sc_index s = Some i /\ In (i, v') vaddrs /\
       choice v' = Some (sc_symbol s) /\ ~ not_implemented e v' /\ number_at k ver abi b i (sc_number s)) /\
    (forall s, In s eso -> of_table s = false /\ sc_index s = None) /\
    NoDup (map sc_number main) /\ NoDup (map sc_number eso) /\
    forall i v' x, In (i, v') vaddrs -> 0 <= i < 2 ^ 30 -> choice v' = Some x ->
      ((exists s, In s main /\ sc_index s = Some i /\ sc_symbol s = x) <->
       ~ not_implemented e v' /\ ~ foreign k ver abi b i /\
       is_dummy_syscall (adjust_abi a0 e) x e ref code = Ok false).
Proof. exact candidates_exact. Qed.
Print Assumptions C23_no_entry_lost.

(** The addresses of the table have different indices. *)
Theorem C23_indices : forall t a e vaddrs, syscall_vaddrs t a e = Ok vaddrs -> NoDup (map fst vaddrs).
Proof. exact vaddrs_NoDup. Qed.
Print Assumptions C23_indices.

(** The final list. *)
Theorem C23_final_list : forall t a e v kdir r, annotates (v_annotate t) ->
  extract_syscalls t a e v kdir = Ok r ->
  exists found located,
    (found = [] \/ exists vaddrs, syscall_vaddrs t (adjust_abi a e) e = Ok vaddrs /\
       candidates (v_ni_order t) (adjust_abi a e) e v vaddrs = Ok found) /\
    Forall2 same_syscall found located /\ part_of r located /\
    (forall s, In s located -> In s r \/ (of_table s = true /\ sc_good s = false /\ in_sys_ni kdir s)) /\
    (forall s, In s r -> of_table s = false \/ sc_good s = true \/ ~ in_sys_ni kdir s).
Proof. exact result_part. Qed.
Print Assumptions C23_final_list.

(** When the program gets as far as the list: nothing is reported if no function of the image is
    a "not implemented" one ... *)
Theorem C23_no_ni : forall ni_order a e v vaddrs, (forall l, Permutation (ni_order l) l) ->
  (forall v, ~ not_implemented e v) -> candidates ni_order a e v vaddrs = Ok [].
Proof. exact candidates_no_ni. Qed.
Print Assumptions C23_no_ni.
Theorem C23_gives_up : forall t a e v kdir vaddrs, (forall l, Permutation (v_ni_order t l) l) ->
  syscall_vaddrs t (adjust_abi a e) e = Ok vaddrs -> (forall v, ~ not_implemented e v) -> extract_syscalls t a e v kdir = Ok [].
Proof. exact extract_no_ni. Qed.
Print Assumptions C23_gives_up.

(** ... and a table without any implemented entry stops it. *)
Theorem C23_all_ni : forall ni_order a e v vaddrs, (forall l, Permutation (ni_order l) l) -> vaddrs <> [] ->
  (forall i v', In (i, v') vaddrs -> not_implemented e v') ->
  candidates ni_order a e v vaddrs = Raise ValueError.
Proof. exact candidates_all_ni. Qed.
Print Assumptions C23_all_ni.

Example C23_example :
  ex_show (candidates (fun l => l) (adjust_abi ex_a ex_e) ex_e [5;10]
             [(0, 4112); (1, 4096); (2, 4128); (3, 4144); (4, 4096)]) =
    Ok [(Some 0, 0, $"__x64_sys_read"); (Some 2, 2, $"__x64_sys_write")] /\
  not_implemented ex_e 4096 /\ NoDup (map fst [(0, 4112); (1, 4096); (2, 4128); (3, 4144); (4, 4096)]).
Proof.
  split; [vm_compute; reflexivity|]. split; [exact ex_ni|]. exact (C23_indices _ _ _ _ ex_vaddrs).
Qed.

(** * C24 *)

(** It does: an entry without symbol always stops the program ... *)
Theorem C24_missing_symbol_stops : forall t a e v kdir vaddrs i v' r, (forall l, Permutation (v_ni_order t l) l) ->
  a_bits32 a = e_bits32 e -> syscall_vaddrs t (adjust_abi a e) e = Ok vaddrs -> (exists v, not_implemented e v) ->
  In (i, v') vaddrs -> ~ has_symbol e v' -> ~ not_implemented e v' ->
  extract_syscalls t a e v kdir <> Ok r.
Proof. exact result_missing. Qed.
Print Assumptions C24_missing_symbol_stops.

(** ... with a failed assertion if everything else is in order. *)
Theorem C24_missing_symbol_asserts : forall ni_order a e v vaddrs,
  (forall l, Permutation (ni_order l) l) -> (exists v, not_implemented e v) -> sound_image a e ->
  (exists i v', In (i, v') vaddrs /\ has_symbol e v' /\ ~ not_implemented e v') ->
  forall i v', In (i, v') vaddrs -> ~ has_symbol e v' -> ~ not_implemented e v' ->
  candidates ni_order a e v vaddrs = Raise AssertionError.
Proof. exact candidates_asserts. Qed.
Print Assumptions C24_missing_symbol_asserts.

Theorem C24_missing_symbol_refuted : exists t a e vaddrs i v',
  loaded e /\ arch_new KX86 [5;10] $"x64" false = Ok a /\ syscall_vaddrs t (adjust_abi a e) e = Ok vaddrs /\
  In (i, v') vaddrs /\ ~ has_symbol e v' /\
  extract_syscalls t a e [5;10] None = Raise AssertionError.
Proof.
  exists ex_env, ex_a, (from_ok (ex_open [4112; 4104; 4128; 0] ex_lines) ex_e), [(0, 4112); (1, 4104); (2, 4128)], 1, 4104.
  split; [exists (ex_header ++ ex_code ++ ex_words [4112; 4104; 4128; 0]), ex_sections, (unlines ex_lines); vm_compute; reflexivity|].
  split; [exact ex_arch_ok|]. split; [vm_compute; reflexivity|].
  split; [cbn; auto|]. split; [|vm_compute; reflexivity].
  assert (forallb (fun s => negb (sym_vaddr s =? 4104)) (map snd (e_symbols (from_ok (ex_open [4112; 4104; 4128; 0] ex_lines) ex_e))) = true) as C
    by (vm_compute; reflexivity).
  intros (s & H1 & H2). rewrite forallb_forall in C. specialize (C s H1). lia.
Qed.
Print Assumptions C24_missing_symbol_refuted.

(** When no entry is without symbol (and everything else is in order) the list is produced. *)
Theorem C24_all_symbols_partial : forall ni_order a e v vaddrs,
  (forall l, Permutation (ni_order l) l) -> (exists v, not_implemented e v) -> sound_image a e ->
  (exists i v', In (i, v') vaddrs /\ has_symbol e v' /\ ~ not_implemented e v') ->
  (forall i v', In (i, v') vaddrs -> has_symbol e v' \/ not_implemented e v') ->
  exists l, candidates ni_order a e v vaddrs = Ok l.
Proof. exact candidates_total. Qed.
Print Assumptions C24_all_symbols_partial.

Example C24_example : sound_image (adjust_abi ex_a ex_e) ex_e /\ not_implemented ex_e 4096 /\ has_symbol ex_e 4112.
Proof.
  split; [apply sound_check_ok; vm_compute; reflexivity|]. split; [exact ex_ni|].
  exists (Symbol 4112 4112 16 $"FUNC" $"__se_sys_read"). split; [vm_compute; auto 10|reflexivity].
Qed.

(** * C25 *)

Theorem C25_numbers_unique : forall t k ver abi b a e v kdir r,
  arch_new k ver abi b = Ok a -> (forall l, Permutation (v_ni_order t l) l) -> annotates (v_annotate t) ->
  extract_syscalls t a e v kdir = Ok r ->
  NoDup (map sc_number (filter of_table r)) /\
  NoDup (map sc_number (filter (fun s => negb (of_table s)) r)) /\
  StronglySorted index_before (filter of_table r).
Proof. exact result_unique. Qed.
Print Assumptions C25_numbers_unique.

(** * C26 *)

(** The choice for each address and, if aliases of "not implemented" functions have one size, the
    whole result are the same for any order of the lines of readelf, if no name occurs twice. *)
Theorem C26_choice_partial : forall a file oS lines lines' items e e' ni vaddrs v,
  elf_open file oS (unlines lines) = Ok e -> elf_open file oS (unlines lines') = Ok e' ->
  Permutation lines lines' -> Forall2 (describes (e_machine e)) lines items ->
  NoDup (map sym_name (flat_map opt_list items)) ->
  dget Z.eqb v (symbols_by_vaddr a e' ni vaddrs) = dget Z.eqb v (symbols_by_vaddr a e ni vaddrs).
Proof. exact choice_lines. Qed.
Print Assumptions C26_choice_partial.

Theorem C26_result_partial : forall t a file oS lines lines' items e e' v kdir,
  elf_open file oS (unlines lines) = Ok e -> elf_open file oS (unlines lines') = Ok e' ->
  Permutation lines lines' -> Forall2 (describes (e_machine e)) lines items ->
  NoDup (map sym_name (flat_map opt_list items)) -> one_ni_size e ->
  (forall l, Permutation (v_ni_order t l) l) ->
  extract_syscalls t a e' v kdir = extract_syscalls t a e v kdir.
Proof. exact extract_lines. Qed.
Print Assumptions C26_result_partial.

Definition ex_lines_dup : list str :=
  [ex_line "0000000000002000" "0" "OBJECT" "sys_call_table";
   ex_line "0000000000001000" "16" "FUNC" "sys_ni_syscall";
   ex_line "0000000000001010" "16" "FUNC" "read_alias";
   ex_line "0000000000001010" "16" "FUNC" "sys_read";
   ex_line "0000000000001020" "16" "FUNC" "sys_write";
   ex_line "0000000000001030" "16" "FUNC" "sys_open";
   ex_line "0000000000001038" "8" "FUNC" "sys_read";
   ex_line "0000000000002100" "0" "OBJECT" "after_table"].

(** Two symbols of the same name (static functions): the last one is kept. *)
Theorem C26_duplicate_names_refuted : exists t a file oS lines lines' e e' l l',
  Permutation lines lines' /\ elf_open file oS (unlines lines) = Ok e /\ elf_open file oS (unlines lines') = Ok e' /\
  extract_syscalls t a e [5;10] None = Ok l /\ extract_syscalls t a e' [5;10] None = Ok l' /\
  map (fun s => sym_name (sc_symbol s)) l = [$"read_alias"; $"sys_write"] /\
  map (fun s => sym_name (sc_symbol s)) l' = [$"sys_read"; $"sys_write"].
Proof.
  exists ex_env, ex_a, (ex_header ++ ex_code ++ ex_words ex_table), ex_sections, ex_lines_dup, (rev ex_lines_dup).
  exists (from_ok (ex_open ex_table ex_lines_dup) ex_e), (from_ok (ex_open ex_table (rev ex_lines_dup)) ex_e).
  exists (from_ok (ex_run ex_env ex_table ex_lines_dup) []), (from_ok (ex_run ex_env ex_table (rev ex_lines_dup)) []).
  split; [apply Permutation_rev|]. vm_compute. repeat split.
Qed.
Print Assumptions C26_duplicate_names_refuted.

Lemma ex_line_describes v size typ name :
  (negb (existsb is_break (ex_line v size typ name)) &&
   negb (str_eqb $v []) && forallb is_hex $v && negb (str_eqb $size []) && forallb is_dec $size &&
   negb (str_eqb $typ []) && forallb is_word $typ && negb (str_eqb $name []) &&
   forallb (fun c => negb (is_space c)) $name && (0 <=? int_hex $v))%bool = true ->
  describes (e_machine ex_e) (ex_line v size typ name)
    (Some (Symbol (int_hex $v) (int_hex $v) (int_dec $size) $typ $name)).
Proof.
  intros H. rewrite !andb_true_iff, !negb_true_iff in H. destruct H as [[[[[[[[[H0 H1] H2] H3] H4] H5] H6] H7] H8] H9].
  assert (forall s, str_eqb s [] = false -> s <> []) as Ne by (intros s E ->; discriminate E).
  split; [|split].
  - apply L_ElfText.break_row. intros c Hi. destruct (is_break c) eqn:B; [|reflexivity]. assert (existsb is_break (ex_line v size typ name) = true); [|congruence].
    apply existsb_exists. exists c. split; [exact Hi|exact B].
  - exists $"   ", $"77", $" ", $v, $"    ", $size, $" ", $"    GLOBAL DEFAULT    1", $" ". cbn [sym_type sym_name].
    split; [|repeat split]. split; [unfold ex_line; cbn -[app]; reflexivity|].
    unfold some_of. repeat split; auto; discriminate.
  - assert (e_machine ex_e = 62) as -> by (vm_compute; reflexivity).
    split; [cbn [sym_vaddr]; now apply Z.leb_le|]. split; [discriminate|]. reflexivity.
Qed.

Example C26_example :
  ex_show (ex_run ex_env ex_table (rev ex_lines)) = ex_show (ex_run ex_env ex_table ex_lines) /\
  Permutation ex_lines (rev ex_lines) /\ one_ni_size ex_e /\
  exists items, Forall2 (describes (e_machine ex_e)) ex_lines items /\ NoDup (map sym_name (flat_map opt_list items)).
Proof.
  split; [vm_compute; reflexivity|]. split; [apply Permutation_rev|]. split; [apply one_size_check; vm_compute; reflexivity|].
  exists (map (fun l => parse_symbol_line (e_machine ex_e) l) ex_lines). split.
  - repeat (apply Forall2_cons; [apply ex_line_describes; vm_compute; reflexivity|]). apply Forall2_nil.
  - apply str_NoDup. vm_compute. reflexivity.
Qed.

(** * C27 *)

(** Nothing depends on the orders of the sets if aliases of "not implemented" functions have one
    size. *)
Theorem C27_order_partial : forall t t' a e v kdir,
  v_decode t = v_decode t' -> v_same t = v_same t' -> v_annotate t = v_annotate t' ->
  (forall l, Permutation (v_insn_order t l) l) -> (forall l, Permutation (v_insn_order t' l) l) ->
  (forall l, Permutation (v_ni_order t l) l) -> (forall l, Permutation (v_ni_order t' l) l) ->
  loaded e -> one_ni_size e ->
  extract_syscalls t a e v kdir = extract_syscalls t' a e v kdir.
Proof. exact extract_order. Qed.
Print Assumptions C27_order_partial.

Definition ex_lines_ni : list str :=
  [ex_line "0000000000002000" "0" "OBJECT" "sys_call_table";
   ex_line "0000000000001000" "16" "FUNC" "a_sys_ni_syscall";
   ex_line "0000000000001000" "20" "FUNC" "b_sys_ni_syscall";
   ex_line "0000000000001010" "16" "FUNC" "__x64_sys_read";
   ex_line "0000000000001020" "16" "FUNC" "__x64_sys_write";
   ex_line "0000000000001030" "16" "FUNC" "__x64_sys_copy_of_ni";
   ex_line "0000000000002100" "0" "OBJECT" "after_table"].
Definition ex_env_rev : env := Env (fun _ _ _ => []) (fun _ _ => false) (fun l => l) (@rev symbol) (fun l => Ok l).

(** Two such aliases of different sizes: the order decides what is a copy of the code. *)
Theorem C27_alias_sizes_refuted : exists t t' a e l l',
  v_decode t = v_decode t' /\ v_same t = v_same t' /\ v_annotate t = v_annotate t' /\
  v_insn_order t = v_insn_order t' /\
  (forall l, Permutation (v_ni_order t l) l) /\ (forall l, Permutation (v_ni_order t' l) l) /\ loaded e /\
  extract_syscalls t a e [5;10] None = Ok l /\ extract_syscalls t' a e [5;10] None = Ok l' /\
  map sc_number l = [0; 2; 3] /\ map sc_number l' = [0; 2].
Proof.
  exists ex_env, ex_env_rev, ex_a, (from_ok (ex_open ex_table ex_lines_ni) ex_e).
  exists (from_ok (ex_run ex_env ex_table ex_lines_ni) []), (from_ok (ex_run ex_env_rev ex_table ex_lines_ni) []).
  split; [reflexivity|]. split; [reflexivity|]. split; [reflexivity|]. split; [reflexivity|].
  split; [exact ex_order|]. split; [intros l; apply Permutation_sym, Permutation_rev|].
  split; [exists (ex_header ++ ex_code ++ ex_words ex_table), ex_sections, (unlines ex_lines_ni); vm_compute; reflexivity|].
  vm_compute. repeat split.
Qed.
Print Assumptions C27_alias_sizes_refuted.

Example C27_example : loaded ex_e /\ one_ni_size ex_e /\
  List.length (ni_functions ex_e) = 2%nat /\
  ex_show (ex_run ex_env_rev ex_table ex_lines) = ex_show (ex_run ex_env ex_table ex_lines).
Proof.
  split; [exact ex_loaded|]. split; [apply one_size_check; vm_compute; reflexivity|]. split; vm_compute; reflexivity.
Qed.

(** * C28 *)

Theorem C28_ni_never_reported : forall t k ver abi b a e v kdir r,
  arch_new k ver abi b = Ok a -> (forall l, Permutation (v_ni_order t l) l) -> annotates (v_annotate t) ->
  extract_syscalls t a e v kdir = Ok r ->
  forall vaddrs i v' s, syscall_vaddrs t (adjust_abi a e) e = Ok vaddrs -> In (i, v') vaddrs ->
  not_implemented e v' -> In s r -> of_table s = true -> sc_index s <> Some i.
Proof. exact result_no_ni. Qed.
Print Assumptions C28_ni_never_reported.

Example C28_example :
  not_implemented ex_e 4096 /\ symbol_at ex_e 4096 (Symbol 4096 4096 16 $"FUNC" $"__x64_sys_gone") /\
  ex_show (extract_syscalls ex_env ex_a ex_e [5;10] None) =
    Ok [(Some 0, 0, $"__x64_sys_read"); (Some 2, 2, $"__x64_sys_write")].
Proof.
  split; [exact ex_ni|]. split; [|vm_compute; reflexivity]. split; [vm_compute; auto 10|reflexivity].
Qed.
