(** Specifications for the properties of elf.py (C12-C18), stated without the functions
    of the model (only its record types [section], [symbol]). *)
From Coq Require Import List Bool Ascii String ZArith.
From Verif Require Import PyBase PyFacts M_Elf.
Import ListNotations.
Open Scope Z_scope.
Open Scope list_scope.

(** ** The ELF header up to e_flags (System V ABI). *)
Record header := Header {
  h_64 : bool;                 (* ELFCLASS64 *)
  h_big : bool;                (* ELFDATA2MSB *)
  h_pad : bytes;               (* rest of e_ident, 10 bytes *)
  h_type : Z; h_machine : Z; h_version : Z;
  h_entry : Z; h_phoff : Z; h_shoff : Z; h_flags : Z
}.
Definition u16 (z : Z) : Prop := 0 <= z < 2 ^ 16.
Definition u32 (z : Z) : Prop := 0 <= z < 2 ^ 32.
Definition u64 (z : Z) : Prop := 0 <= z < 2 ^ 64.
Definition header_ok (h : header) : Prop :=
  len (h_pad h) = 10 /\ u16 (h_type h) /\ u16 (h_machine h) /\ u32 (h_version h) /\
  u32 (h_flags h) /\
  (if h_64 h then u64 (h_entry h) /\ u64 (h_phoff h) /\ u64 (h_shoff h)
   else u32 (h_entry h) /\ u32 (h_phoff h) /\ u32 (h_shoff h)).
Definition encode_header (h : header) : bytes :=
  let u n z := enc_uint (h_big h) n z in
  let w := if h_64 h then 8%nat else 4%nat in
  [chr 127; "E"%char; "L"%char; "F"%char;
   chr (if h_64 h then 2 else 1); chr (if h_big h then 2 else 1)] ++ h_pad h ++
  u 2%nat (h_type h) ++ u 2%nat (h_machine h) ++ u 4%nat (h_version h) ++
  u w (h_entry h) ++ u w (h_phoff h) ++ u w (h_shoff h) ++ u 4%nat (h_flags h).

(** ** Symbol lines of readelf -Ws *)
Definition some_of (f : ascii -> bool) (s : str) : Prop := s <> [] /\ forallb f s = true.

(** The parts a symbol line is made of:
    index ":" value size type ... name, separated by blanks. *)
Definition symbol_parts (line pre idx w1 value w2 size w3 typ mid w4 name : str) : Prop :=
  line = pre ++ idx ++ [":"%char] ++ w1 ++ value ++ w2 ++ size ++ w3 ++ typ ++ mid ++ w4 ++ name /\
  some_of is_dec idx /\ some_of is_space w1 /\ some_of is_hex value /\ some_of is_space w2 /\
  some_of is_dec size /\ some_of is_space w3 /\ some_of is_word typ /\
  mid <> [] /\ some_of is_space w4 /\ some_of (fun c => negb (is_space c)) name.

(** A line that contains a symbol, in any reading. *)
Definition has_symbol_shape (line : str) : Prop :=
  exists pre idx w1 value w2 size w3 typ mid w4 name,
    symbol_parts line pre idx w1 value w2 size w3 typ mid w4 name.

(** What readelf prints: the index is preceded by blanks only and the type ends where
    the text after it starts (a blank, in practice). *)
Definition prints_symbol (line : str) (value size : Z) (typ name : str) : Prop :=
  exists pre idx w1 v w2 sz w3 mid w4,
    symbol_parts line pre idx w1 v w2 sz w3 typ mid w4 name /\
    forallb is_space pre = true /\
    match mid with c :: _ => is_word c = false | [] => False end /\
    int_hex v = value /\ int_dec sz = size.

(** The last of the items with a given name. *)
Definition last_named {A} (name : A -> str) (l : list A) (n : str) (x : A) : Prop :=
  exists l1 l2, l = l1 ++ x :: l2 /\ name x = n /\ forall y, In y l2 -> name y <> n.

(** The characters at which Python's [str.splitlines] ends a line, and a line without them:
    \n, \v, \f, \r, \x1c, \x1d, \x1e and \x85. *)
Definition ends_row (c : ascii) : Prop := In (code c) [10; 11; 12; 13; 28; 29; 30; 133].
Definition row (l : str) : Prop := Forall (fun c => ~ ends_row c) l.
(** Text made of lines. *)
Definition unlines (ls : list str) : str := List.concat (map (fun l => l ++ [NL]) ls).

(** ** Section lines of readelf -WS *)
Definition bits_kind (k : str) : Prop := k = $"PROGBITS" \/ k = $"NOBITS".
Definition sec_char (c : ascii) : bool := Ascii.eqb c "." || is_word c.

(** A piece of text (at the start of a line) in which no word made of word characters and
    dots is followed by PROGBITS or NOBITS, and that does not start with one of these. *)
Definition silent (l : str) : Prop :=
  (forall a c name ws kind b,
     NL :: l = a ++ c :: name ++ ws ++ kind ++ b ->
     is_space c = true -> some_of sec_char name -> some_of is_space ws -> ~ bits_kind kind) /\
  (forall ws kind b, l = ws ++ kind ++ b -> forallb is_space ws = true -> ~ bits_kind kind).

(** "  [ 1] .text  PROGBITS  ffffffff81000000 200000 e00f10 00  AX  0   0 4096" *)
Definition prints_section (line name : str) (vaddr off size : Z) : Prop :=
  exists lead c w1 kind w2 v w3 o w4 sz tail,
    line = lead ++ c :: name ++ w1 ++ kind ++ w2 ++ v ++ w3 ++ o ++ w4 ++ sz ++ tail /\
    is_space c = true /\ some_of sec_char name /\ some_of is_space w1 /\ bits_kind kind /\
    some_of is_space w2 /\ some_of is_hex v /\ some_of is_space w3 /\ some_of is_hex o /\
    some_of is_space w4 /\ some_of is_hex sz /\
    match tail with d :: _ => is_space d = true | [] => True end /\
    silent (lead ++ c :: name) /\ silent tail /\ ~ In NL line /\
    int_hex v = vaddr /\ int_hex o = off /\ int_hex sz = size.

(** ** Symbols and sections of a whole output *)
Definition opt_list {A} (o : option A) : list A := match o with Some x => [x] | None => [] end.
Definition is_func (s : symbol) : bool := str_eqb (sym_type s) $"FUNC".

(** Machine number of 32-bit ARM (ELF specification), and where the code of a symbol is:
    bit 0 of the address of an ARM function says it is Thumb code. *)
Definition arm_machine : Z := 40.
Definition code_address (machine : Z) (typ : str) (value : Z) : Z :=
  if (machine =? arm_machine) && str_eqb typ $"FUNC" && Z.odd value then value - 1 else value.

Definition sane_symbol (machine : Z) (s : symbol) : Prop :=
  0 <= sym_vaddr s /\ (machine = arm_machine -> sym_vaddr s < 2 ^ 32) /\
  sym_real s = code_address machine (sym_type s) (sym_vaddr s).

(** A line of readelf -Ws stands for a symbol, or for none. *)
Definition describes (machine : Z) (line : str) (o : option symbol) : Prop :=
  row line /\
  match o with
  | Some s => prints_symbol line (sym_vaddr s) (sym_size s) (sym_type s) (sym_name s) /\
              sane_symbol machine s
  | None => ~ has_symbol_shape line
  end.

(** A line of readelf -WS stands for a PROGBITS or NOBITS section, or for nothing. *)
Definition sec_describes (line : str) (o : option section) : Prop :=
  match o with
  | Some s => prints_section line (sec_name s) (sec_vaddr s) (sec_off s) (sec_size s)
  | None => silent line
  end.
