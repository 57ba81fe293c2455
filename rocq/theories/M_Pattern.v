(** Model of the texts of the regexps in the source, and of how Python's re (sre_parse) reads them: the
    part of its syntax that occurs there.  What lies beyond it (other escapes, {}, lazy and possessive
    repetitions, repeated groups, (?...), negated sets) is told apart from errors. *)
From Coq Require Import List Bool Ascii String ZArith.
From Verif Require Import PyBase Regex M_Utils M_Elf M_Syscall M_Arch M_Location M_Config M_Search.
Import ListNotations.
Open Scope Z_scope.
Open Scope list_scope.

Inductive compiled := Compiled (r : re) | RegexpError | Beyond.

(** ** Reading a regexp, one character after the other *)

(** What a repetition can follow: one character of a class, a group; and what it cannot. *)
Inductive piece := Single (f : ascii -> bool) | Group (r : re) | Fixed (r : re).
Definition re_of (p : piece) : re := match p with Single f => RCls f | Group r => r | Fixed r => r end.

(** A group that is open: its number (None: the whole), its alternatives and the pieces so far, the
    last ones first. *)
Record frame := Frame { f_group : option nat; f_alts : list re; f_seq : list piece }.
(** What is being read: something new, what follows a backslash, or a set: what it has so far (None:
    nothing), a character that can begin a range, whether a dash follows it, whether a backslash was
    read. *)
Inductive mode :=
| Normal
| Escape
| InSet (acc : option (ascii -> bool)) (first : option ascii) (dash escape : bool).
Record reader := Reader { r_mode : mode; r_next : nat; r_stack : list frame; r_top : frame }.
Definition reader0 : reader := Reader Normal 1 [] (Frame None [] []).
Inductive read := More (r : reader) | Error | Strange.

Definition alternative (f : frame) : re := RSeq (map re_of (rev (f_seq f))).
Fixpoint any_of (r : re) (l : list re) : re :=
  match l with [] => r | x :: l' => any_of (RAlt x r) l' end.
(** All alternatives; [any_of] puts earlier ones in front. *)
Definition whole (f : frame) : re := any_of (alternative f) (f_alts f).

Definition push (p : piece) (x : reader) : reader :=
  let f := r_top x in Reader Normal (r_next x) (r_stack x) (Frame (f_group f) (f_alts f) (p :: f_seq f)).
Definition with_mode (k : mode) (x : reader) : reader := Reader k (r_next x) (r_stack x) (r_top x).

(** Classes; [b]: the pattern is bytes *)
Definition chr_is (c d : ascii) : bool := Ascii.eqb c d.
Definition set_range (lo hi d : ascii) : bool := in_range (code lo) (code hi) (code d).
Definition union (f g : ascii -> bool) (d : ascii) : bool := f d || g d.
Definition cls_d : ascii -> bool := is_dec.
Definition cls_any : ascii -> bool := c_dot.
Definition cls_s (b : bool) : ascii -> bool := if b then is_bspace else is_space.
Definition cls_w (b : bool) : ascii -> bool := if b then is_bword else is_word.
Definition cls_S (b : bool) (d : ascii) : bool := negb (cls_s b d).
Definition letter_class (b : bool) (c : ascii) : option (ascii -> bool) :=
  if Ascii.eqb c "d" then Some cls_d
  else if Ascii.eqb c "s" then Some (cls_s b)
  else if Ascii.eqb c "w" then Some (cls_w b)
  else if Ascii.eqb c "S" then Some (cls_S b)
  else None.
(** Letters and digits after a backslash mean something else. *)
Definition plain_escape (c : ascii) : bool := negb (is_dec c || is_upper_ascii c || is_lower_ascii c).
Definition read_escape (b : bool) (c : ascii) (x : reader) : read :=
  match letter_class b c with
  | Some f => More (push (Single f) x)
  | None =>
      if Ascii.eqb c "b" then More (push (Fixed (RWordB (cls_w b))) x)
      else if Ascii.eqb c "n" then More (push (Single (chr_is NL)) x)
      else if plain_escape c then More (push (Single (chr_is c)) x)
      else Strange
  end.

Definition also (acc : option (ascii -> bool)) (f : ascii -> bool) : option (ascii -> bool) :=
  Some (match acc with None => f | Some g => union g f end).
Definition read_set (b : bool) (acc : option (ascii -> bool)) (first : option ascii) (dash escape : bool) (c : ascii) (x : reader) : read :=
  let literal := match dash, first with
                 | true, Some lo =>
                     if code lo <=? code c
                     then More (with_mode (InSet (also acc (set_range lo c)) None false false) x) else Error
                 | _, _ => More (with_mode (InSet (also acc (chr_is c)) (Some c) false false) x)
                 end in
  if escape then
    match letter_class b c with
    | Some f => if dash then Error else More (with_mode (InSet (also acc f) None false false) x)
    | None => if plain_escape c then literal else Strange
    end
  else if Ascii.eqb c "\" then More (with_mode (InSet acc first dash true) x)
  else if Ascii.eqb c "]" && match acc with None => false | Some _ => true end then
    match acc with
    | Some f => More (push (Single (if dash then union f (chr_is "-") else f)) x)
    | None => Error
    end
  else if Ascii.eqb c "^" && match acc with None => true | Some _ => false end then Strange
  else if Ascii.eqb c "-" && negb dash && match first with Some _ => true | None => false end
  then More (with_mode (InSet acc first true false) x)
  else literal.

Definition repeat_last (how : piece -> option re) (x : reader) : read :=
  match f_seq (r_top x) with
  | [] => Error
  | p :: l =>
      match how p with
      | Some r => More (Reader Normal (r_next x) (r_stack x) (Frame (f_group (r_top x)) (f_alts (r_top x)) (Fixed r :: l)))
      | None => Strange
      end
  end.
Definition maybe_ (p : piece) : option re :=
  match p with Single f => Some (ROpt (RCls f)) | Group r => Some (ROpt r) | Fixed _ => None end.
Definition star (p : piece) : option re := match p with Single f => Some (RStar f) | _ => None end.
Definition plus (p : piece) : option re := match p with Single f => Some (RPlus f) | _ => None end.

Definition read_normal (multiline : bool) (c : ascii) (x : reader) : read :=
  let f := r_top x in
  if Ascii.eqb c "\" then More (with_mode Escape x)
  else if Ascii.eqb c "[" then More (with_mode (InSet None None false false) x)
  else if Ascii.eqb c "." then More (push (Single cls_any) x)
  else if Ascii.eqb c "^" then More (push (Fixed (if multiline then RMBol else RBol)) x)
  else if Ascii.eqb c "$" then (if multiline then Strange else More (push (Fixed REol) x))
  else if Ascii.eqb c "?" then repeat_last maybe_ x
  else if Ascii.eqb c "*" then repeat_last star x
  else if Ascii.eqb c "+" then repeat_last plus x
  else if Ascii.eqb c "{" then Strange
  else if Ascii.eqb c "|" then More (Reader Normal (r_next x) (r_stack x) (Frame (f_group f) (alternative f :: f_alts f) []))
  else if Ascii.eqb c "(" then More (Reader Normal (S (r_next x)) (f :: r_stack x) (Frame (Some (r_next x)) [] []))
  else if Ascii.eqb c ")" then
    match r_stack x, f_group f with
    | g :: rest, Some n =>
        More (Reader Normal (r_next x) rest (Frame (f_group g) (f_alts g) (Group (RGrp n (whole f)) :: f_seq g)))
    | _, _ => Error
    end
  else More (push (Single (chr_is c)) x).
Definition read_char (b multiline : bool) (c : ascii) (x : reader) : read :=
  match r_mode x with
  | Normal => read_normal multiline c x
  | Escape => read_escape b c x
  | InSet acc first dash escape => read_set b acc first dash escape c x
  end.
Fixpoint read_all (b multiline : bool) (text : str) (x : read) : read :=
  match text with
  | [] => x
  | c :: text' => read_all b multiline text' (match x with More y => read_char b multiline c y | _ => x end)
  end.
Definition compile (b multiline : bool) (text : str) : compiled :=
  match read_all b multiline text (More reader0) with
  | More (Reader Normal _ [] f) => Compiled (whole f)
  | Strange => Beyond
  | _ => RegexpError
  end.

(** ** The texts *)

(** elf.py 94 *)
Definition sections_text : str := $"\s([.\w]+)\s+(PROGBITS|NOBITS)\s+([0-9a-fA-F]+)\s+([0-9a-fA-F]+)\s+([0-9a-fA-F]+)".
(** elf.py 122 *)
Definition symbols_text : str := $"\d+:\s+([0-9a-fA-F]+)\s+(\d+)\s+(\w+).+\s+(\S+)$".
(** kernel.py 87 *)
Definition version_text : str := $"(\d+)\.(\d+)(\.(\d+))?".
(** kernel.py 594, with re.MULTILINE *)
Definition opt_text : str := $"^KBUILD_CFLAGS\s*\+=\s*-O(2)\n".
(** location.py 73-78 *)
Definition base_text (a : arch) : str :=
  if a_compat a then $"\b(COMPAT_)?SYSCALL(32)?_DEFINE\d\s*\("
  else if a_bits32 a then $"\bSYSCALL(32)?_DEFINE\d\s*\("
  else $"\bSYSCALL_DEFINE\d\s*\(".
(** arm.py 161, mips.py 168-173, powerpc.py 352, x86.py 610: syscall_def_regexp() without a name *)
Definition odd_text (a : arch) : option str :=
  match a_class a with
  | KArm => if negb (str_eqb (a_abi a) $"oabi") then None
            else Some $"\basmlinkage\s*(unsigned\s+)?\w+\s*sys_oabi_\w+\s*\("
  | KMips =>
      Some (join $"|" ([$"\basmlinkage\s*(unsigned\s+)?\w+\s*(sysm|mipsmt_sys)_\w+\s*\("] ++
                       (if str_eqb (a_abi a) $"n32" then [$"\basmlinkage\s*(unsigned\s+)?\w+\s*sysn32_\w+\s*\("] else [])))
  | KPowerPC => if negb (str_eqb (a_abi a) $"ppc32") then None else Some $"\bPPC32_SYSCALL_DEFINE\d\s*\("
  | KX86 => if negb (str_eqb (a_abi a) $"x32") then None
            else Some $"\basmlinkage\s*(unsigned\s+)?\w+\s*sys32_x32_\w+\s*\("
  | KArm64 | KRiscV => None
  end.
(** location.py 80-84 *)
Definition search_text (a : arch) : str :=
  match odd_text a with
  | Some odd => $"(" ++ base_text a ++ $"|" ++ odd ++ $")\s*\w+"
  | None => base_text a ++ $"\s*\w+"
  end.
(** arm.py 153-160, mips.py 152-173, powerpc.py 346-351, x86.py 601-608: with a name *)
Definition asm_named (before name : str) : str :=
  $"\basmlinkage\s*(unsigned\s+)?\w+\s*" ++ before ++ name ++ $"\s*\(".
Definition odd_named_text (a : arch) (name : str) : option str :=
  match a_class a with
  | KArm =>
      if negb (str_eqb (a_abi a) $"oabi") then None
      else if startswith name $"sys_oabi_" then Some (asm_named [] name)
      else Some (asm_named $"sys_oabi_" name)
  | KMips =>
      Some (join $"|" (
        [if anyprefix name [$"sysm_"; $"mipsmt_sys_"] then asm_named [] name else asm_named $"(sysm|mipsmt_sys)_" name] ++
        (if str_eqb (a_abi a) $"n32"
         then [if anyprefix name [$"sysn32_"] then asm_named [] name else asm_named $"sysn32_" name]
         else [])))
  | KPowerPC =>
      if negb (str_eqb (a_abi a) $"ppc32") then None
      else Some ($"\bPPC32_SYSCALL_DEFINE\d\s*\(" ++ name ++ $"\b")
  | KX86 =>
      if negb (str_eqb (a_abi a) $"x32") then None
      else if startswith name $"sys32_x32_" then Some (asm_named [] name)
      else Some (asm_named $"sys32_x32_" name)
  | KArm64 | KRiscV => None
  end.
(** location.py 121 *)
Definition grep_text (a : arch) (origname : str) : str := $":" ++ base_text a ++ origname ++ $"[,)]".
(** location.py 148-152 *)
Definition style_text (a : arch) (name : str) : str :=
  ((if a_compat a then $"^(COMPAT_)?" else $"^") ++ $"SYSCALL(32)?_DEFINE\d\s*\(" ++ name ++ $"\b") ++
  $"|" ++ ($"^asmlinkage\s*(unsigned\s+)?\w+\s*sys(32)?_" ++ name ++ $"\(").
(** location.py 156-157 *)
Definition fullname_text (name : str) : str := $"^asmlinkage\s*(unsigned\s+)?\w+\s*" ++ name ++ $"\s*\(".

(** Compile and use a regexp; None: re.error (or beyond what is modelled) *)
Definition run {A} (b multiline : bool) (text : str) (f : re -> A) : option A :=
  match compile b multiline text with Compiled r => Some (f r) | _ => None end.
Definition match_text (text s : str) : option bool := run false false text (fun r => matches r s).
Definition found (r : re) (s : str) : bool := match re_search r s with Some _ => true | None => false end.
Definition or_else (x : option bool) (y : option bool) : option bool :=
  match x with Some true => Some true | Some false => y | None => None end.
(** location.py 145-164 as it is written *)
Definition good_definition_text (a : arch) (definition name : str) : option bool :=
  or_else (match_text (style_text a name) definition)
    (or_else (if startswith name $"sys_" then match_text (fullname_text name) definition else Some false)
       (match odd_named_text a name with Some text => match_text text definition | None => Some false end)).
