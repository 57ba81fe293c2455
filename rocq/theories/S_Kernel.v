(** Specifications for the properties of kernel.py (C10, C11, C19-C28), stated without the
    functions of its model. *)
From Coq Require Import List Bool Ascii String ZArith.
From Verif Require Import PyBase PyFacts S_Utils M_Utils M_Elf S_Elf M_Syscall M_Arch S_Arch.
Import ListNotations.
Open Scope Z_scope.
Open Scope list_scope.

(** ** Versions *)

(** [s] is the number [z] in decimal (leading zeros allowed). *)
Definition is_number (s : str) (z : Z) : Prop := s <> [] /\ forallb is_dec s = true /\ int_dec s = z.
Definition starts_with_digit (s : str) : Prop := exists c t, s = c :: t /\ is_dec c = true.

(** ** Images *)

(** An image as readelf describes it, whatever the file and the output are. *)
Definition loaded (e : elf) : Prop := exists file out_S out_s, elf_open file out_S out_s = Ok e.

(** The file bytes at the place of [v] (in the first section that covers it). *)
Definition place (e : elf) (v off : Z) : Prop :=
  exists s1 s s2, map snd (e_sections e) = s1 ++ s :: s2 /\
    (sec_vaddr s <= v < sec_vaddr s + sec_size s) /\
    (forall x, In x s1 -> ~ (sec_vaddr x <= v < sec_vaddr x + sec_size x)) /\
    off = sec_off s + (v - sec_vaddr s).

Definition pointer_bytes (e : elf) : nat := if e_bits32 e then 4 else 8.
Definition is_pointer (e : elf) (p : Z) : Prop := 0 <= p < 256 ^ Z.of_nat (pointer_bytes e).
(** Pointers as they are stored in the image. *)
Definition stored (e : elf) (ps : list Z) : bytes :=
  List.concat (map (enc_uint (e_big e) (pointer_bytes e)) ps).
(** The pointers [ps] are in the file from address [v] on. *)
Definition pointers_at (e : elf) (v : Z) (ps : list Z) : Prop :=
  exists off pre post, place e v off /\ len pre = off /\ e_file e = pre ++ stored e ps ++ post /\
    Forall (is_pointer e) ps.

Definition inside (s : section) (v : Z) : Prop := sec_vaddr s <= v < sec_vaddr s + sec_size s.
(** An entry that belongs to the table: a pointer into the section, at an address below that of
    every symbol after the table. *)
Definition good_entry (e : elf) (tbl : symbol) (target : section) (i p : Z) : Prop :=
  inside target p /\
  forall s, In s (map snd (e_symbols e)) -> sym_real tbl < sym_real s ->
    sym_vaddr tbl + i * Z.of_nat (pointer_bytes e) < sym_vaddr s.

(** What a table at [tbl] of pointers into [target] consists of: all of it if the symbol has a
    plausible size, else the longest run of good entries (which the next pointer ends). *)
Definition table_entries (e : elf) (tbl : symbol) (target : section) (ps : list Z) : Prop :=
  (128 < sym_size tbl /\ sym_size tbl = len ps * Z.of_nat (pointer_bytes e) /\
   pointers_at e (sym_vaddr tbl) ps) \/
  (sym_size tbl <= 128 /\ exists stop, pointers_at e (sym_vaddr tbl) (ps ++ [stop]) /\
     (forall i p, nth_error ps i = Some p -> good_entry e tbl target (Z.of_nat i) p) /\
     ~ good_entry e tbl target (len ps) stop).

(** ** From addresses to syscalls *)

Definition symbol_at (e : elf) (v : Z) (s : symbol) : Prop := In s (map snd (e_symbols e)) /\ sym_vaddr s = v.
(** [f] is a "not implemented" function at the address [v]. *)
Definition ni_at (e : elf) (v : Z) (f : symbol) : Prop :=
  In f (map snd (e_functions e)) /\ sym_type f = $"FUNC" /\ ni_name (sym_name f) /\ sym_vaddr f = v.
Definition has_symbol (e : elf) (v : Z) : Prop := exists s, symbol_at e v s.
Definition not_implemented (e : elf) (v : Z) : Prop := exists f, ni_at e v f.

(** Tables that hold the entries of two ABIs. *)
Definition interleaved (k : klass) (v : list Z) (bits32 : bool) : Prop :=
  k = KPowerPC /\ bits32 = false /\ before [5;0] v.
(** The number of the syscall at index [i] of the table. *)
Inductive number_at (k : klass) (v : list Z) (abi : str) (bits32 : bool) (i : Z) : Z -> Prop :=
| na_plain base : ~ interleaved k v bits32 -> number_base k abi base -> number_at k v abi bits32 i (base + i)
| na_half : interleaved k v bits32 -> number_at k v abi bits32 i (i / 2).
(** Entries of the table that are for another ABI. *)
Inductive foreign (k : klass) (v : list Z) (abi : str) (bits32 : bool) (i : Z) : Prop :=
| fo_x86 n : k = KX86 -> number_at k v abi bits32 i n -> x86_foreign v abi bits32 n -> foreign k v abi bits32 i
| fo_ppc : interleaved k v bits32 -> (if str_eqb abi $"ppc32" then Z.Even i else Z.Odd i) ->
    foreign k v abi bits32 i.

(** What the annotation with locations and signatures leaves alone. *)
Definition same_syscall (s t : syscall) : Prop :=
  sc_index s = sc_index t /\ sc_number s = sc_number t /\ sc_name s = sc_name t /\
  sc_origname s = sc_origname t /\ sc_symbol s = sc_symbol t /\ sc_kconfig s = sc_kconfig t /\
  sc_esoteric s = sc_esoteric t.

(** [l] is a part of [m], in the same order. *)
Inductive part_of {A} : list A -> list A -> Prop :=
| po_nil : part_of [] []
| po_keep x l m : part_of l m -> part_of (x :: l) (x :: m)
| po_drop x l m : part_of l m -> part_of l (x :: m).

Fixpoint occurrences (f : Z -> bool) (l : list Z) : Z :=
  match l with [] => 0 | x :: r => (if f x then 1 else 0) + occurrences f r end.

(** [choice] gives each address of the table one of its symbols, a "not implemented" one if there
    is one. *)
Definition chooses (e : elf) (vaddrs : list (Z * Z)) (choice : Z -> option symbol) : Prop :=
  forall i v, In (i, v) vaddrs -> exists s, choice v = Some s /\
    (not_implemented e v -> ni_at e v s) /\ (~ not_implemented e v -> symbol_at e v s).
(** A most frequent "not implemented" symbol of the table, if there is one, and its code. *)
Definition reference (e : elf) (vaddrs : list (Z * Z)) (choice : Z -> option symbol)
    (ref : option symbol) (code : option bytes) : Prop :=
  match ref with
  | None => code = None /\ forall i v, In (i, v) vaddrs -> ~ not_implemented e v
  | Some f => (exists c, code = Some c /\ read_symbol e f = Ok c) /\
      exists i v, In (i, v) vaddrs /\ ni_at e v f /\ choice v = Some f /\
      forall i' v', In (i', v') vaddrs -> not_implemented e v' ->
        occurrences (Z.eqb v') (map snd vaddrs) <= occurrences (Z.eqb v) (map snd vaddrs)
  end.
Definition index_before (s t : syscall) : Prop :=
  exists i j, sc_index s = Some i /\ sc_index t = Some j /\ i < j.
Definition of_table (s : syscall) : bool := negb (sc_esoteric s).

(** The annotation changes nothing else (for every list it is applied to). *)
Definition annotates (f : list syscall -> outcome (list syscall)) : Prop :=
  forall l r, f l = Ok r -> Forall2 same_syscall l r.

(** Located in kernel/sys_ni.c, below [kdir] or not. *)
Definition in_sys_ni (kdir : option path) (s : syscall) : Prop :=
  exists f p pre, sc_file s = Some f /\ maybe_rel (Some f) kdir = Ok (Some p) /\
    parts p = pre ++ [$"kernel"; $"sys_ni.c"].

(** Aliases of one "not implemented" function have one size. *)
Definition one_ni_size (e : elf) : Prop :=
  forall v f g, ni_at e v f -> ni_at e v g -> sym_size f = sym_size g.
