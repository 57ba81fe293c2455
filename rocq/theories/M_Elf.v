(** Model of /repo/src/systrack/elf.py *)
From Coq Require Import List Bool Ascii String ZArith.
From Verif Require Import PyBase Regex.
Import ListNotations.
Open Scope Z_scope.
Open Scope list_scope.

(** elf.py 16-24 *)
Definition EM_386 := 3.
Definition EM_MIPS := 8.
Definition EM_PPC := 20.
Definition EM_PPC64 := 21.
Definition EM_ARM := 40.
Definition EM_X86_64 := 62.
Definition EM_AARCH64 := 183.
Definition EM_RISCV := 243.
(** elf.py 27-28 *)
Definition EF_ARM_EABI_MASK := 4278190080. (* 0xff000000 *)

(** elf.py 30 *)
Record section := Section_ { sec_name : str; sec_vaddr : Z; sec_off : Z; sec_size : Z }.
(** elf.py 31-44 *)
Record symbol := Symbol {
  sym_vaddr : Z; sym_real : Z; sym_size : Z; sym_type : str; sym_name : str
}.
(** Symbols are namedtuples: equality is field-wise. *)
Definition symbol_eqb (a b : symbol) : bool :=
  (sym_vaddr a =? sym_vaddr b) && (sym_real a =? sym_real b) && (sym_size a =? sym_size b)
  && str_eqb (sym_type a) (sym_type b) && str_eqb (sym_name a) (sym_name b).

(** elf.py 46-86, 89-115.  The lazily computed properties are fields. *)
Record elf := Elf {
  e_file : bytes;
  e_bits32 : bool;
  e_big : bool;
  e_machine : Z;
  e_flags : Z;
  e_sections : dict str section;
  e_symbols : dict str symbol;
  e_functions : dict str symbol
}.

(** elf.py 94 *)
Definition c_secname (c : ascii) : bool := Ascii.eqb c "." || is_word c.
Definition sections_re : re :=
  RSeq [ RCls c_s;
         RGrp 1 (RPlus c_secname);
         RPlus c_s;
         RGrp 2 (RAlt (RLit $"PROGBITS") (RLit $"NOBITS"));
         RPlus c_s;
         RGrp 3 (RPlus c_hex);
         RPlus c_s;
         RGrp 4 (RPlus c_hex);
         RPlus c_s;
         RGrp 5 (RPlus c_hex) ].

Definition group_or_nil (n : nat) (x : mres) : str :=
  match group n x with Some t => t | None => [] end.

(** elf.py 98-100 *)
Definition section_of_match (x : mres) : str * section :=
  let name := group_or_nil 1 x in
  (name, Section_ name (int_hex (group_or_nil 3 x)) (int_hex (group_or_nil 4 x))
                       (int_hex (group_or_nil 5 x))).

(** elf.py 89-103: [out] is the output of readelf -WS *)
Definition parse_sections (out : str) : dict str section :=
  dict_of str_eqb (map section_of_match (re_finditer sections_re out)).

(** elf.py 122 *)
Definition symbols_re : re :=
  RSeq [ RPlus c_d; RChr ":"%char; RPlus c_s;
         RGrp 1 (RPlus c_hex); RPlus c_s;
         RGrp 2 (RPlus c_d); RPlus c_s;
         RGrp 3 (RPlus c_w);
         RPlus c_dot; RPlus c_s;
         RGrp 4 (RPlus c_S); REol ].

(** elf.py 138-139 *)
Definition real_vaddr_of (machine : Z) (typ : str) (vaddr : Z) : Z :=
  if (machine =? EM_ARM) && str_eqb typ $"FUNC" && Z.odd vaddr
  then Z.land vaddr 4294967294 (* 0xfffffffe *) else vaddr.

(** elf.py 128-141 *)
Definition parse_symbol_line (machine : Z) (line : str) : option symbol :=
  match re_search symbols_re line with
  | None => None
  | Some x =>
      let vaddr := int_hex (group_or_nil 1 x) in
      let typ := group_or_nil 3 x in
      Some (Symbol vaddr (real_vaddr_of machine typ vaddr) (int_dec (group_or_nil 2 x)) typ
                   (group_or_nil 4 x))
  end.

(** elf.py 121-148: [out] is the output of readelf -Ws; one pass of the loop *)
Definition add_symbol_line (machine : Z) (acc : dict str symbol * dict str symbol) (line : str)
    : dict str symbol * dict str symbol :=
  match parse_symbol_line machine line with
  | None => acc
  | Some sym =>
      (dset str_eqb (sym_name sym) sym (fst acc),
       if str_eqb (sym_type sym) $"FUNC" then dset str_eqb (sym_name sym) sym (snd acc) else snd acc)
  end.
Definition extract_symbols (machine : Z) (out : str) : dict str symbol * dict str symbol :=
  fold_left (add_symbol_line machine) (splitlines out) ([], []).

(** elf.py 52-86: the constructor, on the content of the file.
    struct.unpack raises struct.error when the file is too short. *)
Definition elf_ident (file : bytes) : outcome (bool * bool * Z * Z) :=
  let ident := file_read file 0 6 in
  if negb (len ident =? 6) then Raise StructError else
  let ei_class := uint_of false (slice ident 4 5) in
  let ei_data := uint_of false (slice ident 5 6) in
  bits32 <- (if ei_class =? 1 then Ok true else if ei_class =? 2 then Ok false else Exit 1) ;;
  big <- (if ei_data =? 1 then Ok false else if ei_data =? 2 then Ok true else Exit 1) ;;
  machine <- unpack_u big 2 (file_read file 18 2) ;;
  flags <- unpack_u big 4 (file_read file 36 4) ;;
  Ok (bits32, big, machine, flags).

(** The whole object, given what readelf -WS and readelf -Ws print for the file. *)
Definition elf_open (file : bytes) (out_S out_s : str) : outcome elf :=
  ' (bits32, big, machine, flags) <- elf_ident file ;;
  let '(syms, funcs) := extract_symbols machine out_s in
  Ok (Elf file bits32 big machine flags (parse_sections out_S) syms funcs).

(** elf.py 117-119 *)
Definition has_debug_info (e : elf) : bool := dmem str_eqb $".debug_line" (e_sections e).

(** elf.py 150-154 *)
Definition in_section (s : section) (v : Z) : bool :=
  (sec_vaddr s <=? v) && (v <? sec_vaddr s + sec_size s).
Fixpoint vaddr_to_off (secs : list section) (v : Z) : outcome Z :=
  match secs with
  | [] => Raise ValueError
  | s :: secs' => if in_section s v then Ok (sec_off s + v - sec_vaddr s) else vaddr_to_off secs' v
  end.
Definition vaddr_to_file_offset (e : elf) (v : Z) : outcome Z :=
  vaddr_to_off (dvalues (e_sections e)) v.

(** elf.py 160-163: the loop reading one byte at a time.  [read(1)] at the end of the
    file returns b''; then data[-1] stays non-zero for ever, or raises IndexError if
    nothing was read at all. *)
Fixpoint read_to_nul (rest : bytes) (acc : bytes) : outcome bytes :=
  match rest with
  | [] => match acc with [] => Raise IndexError | _ => Diverge end
  | c :: rest' => if code c =? 0 then Ok (rev acc) else read_to_nul rest' (c :: acc)
  end.
(** elf.py 156-163.  decode() is the identity on ASCII. *)
Definition vaddr_read_string (e : elf) (v : Z) : outcome str :=
  off <- vaddr_to_file_offset e v ;;
  read_to_nul (skipn (Z.to_nat off) (e_file e)) [].

(** elf.py 165-168 *)
Definition vaddr_read (e : elf) (v size : Z) : outcome bytes :=
  off <- vaddr_to_file_offset e v ;;
  Ok (file_read (e_file e) off size).

(** elf.py 170-174 for a Symbol argument, and for a name *)
Definition read_symbol (e : elf) (s : symbol) : outcome bytes :=
  vaddr_read e (sym_real s) (sym_size s).
Definition read_symbol_name (e : elf) (name : str) : outcome bytes :=
  match dget str_eqb name (e_symbols e) with
  | Some s => read_symbol e s
  | None => Raise KeyError
  end.

(** elf.py 177-186.  (lru_cache does not change the result: symbols are fixed.) *)
Definition next_symbol (e : elf) (s : symbol) : option symbol :=
  match filter (fun x => sym_real s <? sym_real x) (dvalues (e_symbols e)) with
  | [] => None
  | c :: cs => Some (min_by sym_vaddr c cs)
  end.
