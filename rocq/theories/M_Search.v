(** Model of /repo/src/systrack/location.py 50-111: searching the sources without ripgrep.  The
    sources are a finite tree without symbolic links; every file can be read.  decode() is the
    identity on ASCII. *)
From Coq Require Import List Bool Ascii String ZArith.
From Verif Require Import PyBase Regex M_Utils M_Elf M_Syscall M_Arch M_Config M_Location.
Import ListNotations.
Open Scope Z_scope.
Open Scope list_scope.

(** A file, a directory (its entries in the order of iterdir()), or something else. *)
Inductive node := NFile (content : bytes) | NDir (entries : list (str * node)) | NOther.

(** ** The regexp, for bytes: \s, \w and \b only know ASCII *)
Definition BWord : re := RWordB is_bword.
Definition BSp : re := RStar is_bspace.
Definition basm (l : list re) : re :=
  RSeq ([BWord; RLit $"asmlinkage"; BSp; ROpt (RCat (RLit $"unsigned") (RPlus is_bspace)); RPlus is_bword; BSp] ++ l).
Definition basm_any (l : list re) : re := basm (l ++ [RPlus is_bword; BSp; open_paren]).
(** arch_base.py 318-341, arm.py 153-161, mips.py 152-175, powerpc.py 346-352, x86.py 601-610, without
    a name *)
Definition any_def_regexp (a : arch) : option re :=
  match a_class a with
  | KArm => if str_eqb (a_abi a) $"oabi" then Some (basm_any [RLit $"sys_oabi_"]) else None
  | KMips =>
      Some (RAlts ([basm_any [RAlt (RLit $"sysm") (RLit $"mipsmt_sys"); RLit $"_"]] ++
                   (if str_eqb (a_abi a) $"n32" then [basm_any [RLit $"sysn32_"]] else [])))
  | KPowerPC =>
      if str_eqb (a_abi a) $"ppc32"
      then Some (RSeq [BWord; RLit $"PPC32_SYSCALL_DEFINE"; RCls c_d; BSp; open_paren]) else None
  | KX86 => if str_eqb (a_abi a) $"x32" then Some (basm_any [RLit $"sys32_x32_"]) else None
  | KArm64 | KRiscV => None
  end.
(** location.py 73-78 *)
Definition base_bexp (a : arch) : re :=
  RSeq ([BWord] ++ (if a_compat a then [ROpt (RLit $"COMPAT_")] else []) ++ [RLit $"SYSCALL"] ++
        (if a_compat a || a_bits32 a then [ROpt (RLit $"32")] else []) ++
        [RLit $"_DEFINE"; RCls c_d; BSp; open_paren]).
(** location.py 80-84 *)
Definition search_exp (a : arch) : re :=
  RSeq [match any_def_regexp a with Some odd => RAlt (base_bexp a) odd | None => base_bexp a end; BSp; RPlus is_bword].

(** ** The files *)

(** location.py 54-56: lines from number [n] on *)
Fixpoint grep_from (exp : re) (name : str) (n : Z) (lines : list bytes) : list str :=
  match lines with
  | [] => []
  | l :: lines' =>
      (match re_search exp l with Some _ => [name ++ $":" ++ str_of_int n ++ $":" ++ brstrip l] | None => [] end)
      ++ grep_from exp name (n + 1) lines'
  end.
(** location.py 49-56; [rel] is file.relative_to(root) *)
Definition grep_file (exp : re) (rel : list str) (content : bytes) : list str :=
  grep_from exp (join $"/" rel) 1 (lines_keep content).
(** location.py 58-70.  path.match('.*') and path.match('*.c') look at the last component. *)
Fixpoint grep_recursive (exp : re) (excluded : list str -> bool) (cur : list str) (n : node) : list str :=
  match n with
  | NDir entries =>
      (fix go (l : list (str * node)) : list str :=
         match l with
         | [] => []
         | (name, m) :: l' =>
             (if startswith name $"." then []
              else match m with
                   | NFile content => if endswith name $".c" then grep_file exp (cur ++ [name]) content else []
                   | NDir _ => if excluded (cur ++ [name]) then [] else grep_recursive exp excluded (cur ++ [name]) m
                   | NOther => []
                   end) ++ go l'
         end) entries
  | _ => []
  end.

(** location.py 89-102; [archs]: the names in the directory arch.  arch.name has no wildcards. *)
Definition excluded_top : list str :=
  [$"Documentation"; $"drivers"; $"lib"; $"samples"; $"sound"; $"tools"; $"usr"].
Definition exclude (a : arch) (archs : list str) (rel : list str) : bool :=
  match rel with
  | [d] => existsb (str_eqb d) excluded_top
  | [d; x] => str_eqb d $"arch" && existsb (str_eqb x) archs && negb (str_eqb x (class_name (a_class a)))
  | _ => false
  end.
(** location.py 86-104.  A missing directory "arch" raises FileNotFoundError (NotADirectoryError,
    which is not told apart here, if it is something else). *)
Definition python_search (a : arch) (sources : node) : outcome (list str) :=
  match sources with
  | NDir entries =>
      match find (fun x => str_eqb (fst x) $"arch") entries with
      | Some (_, NDir archs) => Ok (grep_recursive (search_exp a) (exclude a (map fst archs)) [] sources)
      | _ => Raise FileNotFoundError
      end
  | _ => Raise FileNotFoundError
  end.
