(** Specifications for the properties of location.py (C53-C60), stated without the functions of the
    model (only its record types). *)
From Coq Require Import List Bool Ascii String ZArith Permutation.
From Verif Require Import PyBase M_Utils M_Elf M_Syscall M_Arch S_Elf S_Signature S_Pattern.
Import ListNotations.
Open Scope Z_scope.
Open Scope list_scope.

(** ** Lines of a file *)

(** Cut after every newline. *)
Definition full_line (l : str) : Prop := exists x, l = x ++ [NL] /\ ~ In NL x.
Definition rest_line (l : str) : Prop := l <> [] /\ ~ In NL l.
Definition lines_of (content : str) (ls : list str) : Prop :=
  content = List.concat ls /\
  (Forall full_line ls \/ exists init l, ls = init ++ [l] /\ Forall full_line init /\ rest_line l).
(** The line at the position [i] (from 0) has the property. *)
Definition line_is (P : str -> Prop) (ls : list str) (i : Z) : Prop :=
  0 <= i /\ exists l, nth_error ls (Z.to_nat i) = Some l /\ P l.

(** ** Enclosing definitions *)

Definition bblanks (s : str) : Prop := forallb is_bspace s = true.
(** Nothing but that character, and blanks after it. *)
Definition lone (c : ascii) (l : str) : Prop := exists t, l = c :: t /\ bblanks t.
(** Starts with neither a blank nor "#". *)
Definition starts_def (l : str) : Prop :=
  match l with [] => True | c :: _ => is_bspace c = false /\ c <> "#"%char end.
(** Going up from the position [k], the block opens at [i]: no "{" in between, no "}" in between. *)
Definition opens (ls : list str) (k i : Z) : Prop :=
  i <= k /\ line_is (lone "{"%char) ls i /\
  (forall j, i < j <= k -> ~ line_is (lone "{"%char) ls j) /\
  (forall j, i < j < k -> ~ line_is (lone "}"%char) ls j).
(** [adjusted ls line r]: lines counted from 1. *)
Inductive adjusted (ls : list str) (line : Z) : Z -> Prop :=
| adj_definition i j : opens ls (line - 1) i -> j < i -> line_is starts_def ls j ->
    (forall m, j < m < i -> ~ line_is starts_def ls m) -> adjusted ls line (j + 1)
| adj_brace i : opens ls (line - 1) i -> (forall m, m < i -> ~ line_is starts_def ls m) -> adjusted ls line (i + 1)
| adj_same : (forall i, ~ opens ls (line - 1) i) -> adjusted ls line line.

(** ** Definitions of syscalls *)

Definition maybe (s x : str) : Prop := x = [] \/ x = s.
(** [COMPAT_]SYSCALL[32]_DEFINEn(name *)
Definition new_definition (compat : bool) (name text : str) : Prop :=
  exists c b d w t, (if compat then maybe $"COMPAT_" c else c = []) /\ maybe $"32" b /\ is_dec d = true /\ blanks w /\
    text = c ++ $"SYSCALL" ++ b ++ $"_DEFINE" ++ [d] ++ w ++ $"(" ++ name ++ t /\ word_ends t.
(** asmlinkage [unsigned] type *)
Definition asm_head (head : str) : Prop :=
  exists w1 u ty w2, blanks w1 /\ (u = [] \/ exists w, u = $"unsigned" ++ w /\ w <> [] /\ blanks w) /\
    some_of is_word ty /\ blanks w2 /\ head = $"asmlinkage" ++ w1 ++ u ++ ty ++ w2.
(** ... function( *)
Definition asm_definition (f text : str) : Prop :=
  exists head w t, asm_head head /\ blanks w /\ text = head ++ f ++ w ++ $"(" ++ t.
Definition asm_definition0 (f text : str) : Prop :=
  exists head t, asm_head head /\ text = head ++ f ++ $"(" ++ t.
(** A text of the usual shape: asmlinkage [unsigned] type function( *)
Definition asm_text (u ty func w t : str) (s : str) : Prop :=
  exists w1 w2, w1 <> [] /\ blanks w1 /\ w2 <> [] /\ blanks w2 /\ blanks w /\
    (u = [] /\ ty <> $"unsigned" \/ exists v, u = $"unsigned" ++ v /\ v <> [] /\ blanks v) /\
    s = $"asmlinkage" ++ w1 ++ u ++ ty ++ w2 ++ func ++ w ++ $"(" ++ t.
(** The names of the functions with odd prefixes. *)
Inductive odd_name (a : arch) (name : str) : str -> Prop :=
| odd_arm : a_class a = KArm -> a_abi a = $"oabi" -> (forall x, name <> $"sys_oabi_" ++ x) ->
    odd_name a name ($"sys_oabi_" ++ name)
| odd_arm_full x : a_class a = KArm -> a_abi a = $"oabi" -> name = $"sys_oabi_" ++ x -> odd_name a name name
| odd_mips p : a_class a = KMips -> p = $"sysm_" \/ p = $"mipsmt_sys_" ->
    (forall x, name <> $"sysm_" ++ x) -> (forall x, name <> $"mipsmt_sys_" ++ x) -> odd_name a name (p ++ name)
| odd_mips_full x : a_class a = KMips -> name = $"sysm_" ++ x \/ name = $"mipsmt_sys_" ++ x -> odd_name a name name
| odd_n32 : a_class a = KMips -> a_abi a = $"n32" -> (forall x, name <> $"sysn32_" ++ x) ->
    odd_name a name ($"sysn32_" ++ name)
| odd_n32_full x : a_class a = KMips -> a_abi a = $"n32" -> name = $"sysn32_" ++ x -> odd_name a name name
| odd_x32 : a_class a = KX86 -> a_abi a = $"x32" -> (forall x, name <> $"sys32_x32_" ++ x) ->
    odd_name a name ($"sys32_x32_" ++ name)
| odd_x32_full x : a_class a = KX86 -> a_abi a = $"x32" -> name = $"sys32_x32_" ++ x -> odd_name a name name.
(** PPC32_SYSCALL_DEFINEn(name *)
Definition ppc_definition (name text : str) : Prop :=
  exists d w t, is_dec d = true /\ blanks w /\
    text = $"PPC32_SYSCALL_DEFINE" ++ [d] ++ w ++ $"(" ++ name ++ t /\ word_ends t.
Inductive defines (a : arch) (name text : str) : Prop :=
| def_new : new_definition (a_compat a) name text -> defines a name text
| def_old b : maybe $"32" b -> asm_definition0 ($"sys" ++ b ++ $"_" ++ name) text -> defines a name text
| def_full x : name = $"sys_" ++ x -> asm_definition name text -> defines a name text
| def_odd f : odd_name a name f -> asm_definition f text -> defines a name text
| def_ppc : a_class a = KPowerPC -> a_abi a = $"ppc32" -> ppc_definition name text -> defines a name text.

(** What a name stands for within a regexp: a dot is any character but a newline. *)
Definition stands_for (name n : str) : Prop := Forall2 (fun c d => c = d \/ c = "."%char /\ d <> NL) name n.
(** A word ends or begins between [n] and [t]. *)
Definition word_last (n : str) : Prop := exists x c, n = x ++ [c] /\ is_word c = true.
Definition word_first (t : str) : Prop := exists c x, t = c :: x /\ is_word c = true.
Definition boundary (n t : str) : Prop := word_last n <-> ~ word_first t.
(** The texts accepted as definitions of [name]: where the definition has a name that [name] stands
    for. *)
Inductive accepts (a : arch) (name text : str) : Prop :=
| ac_new c b d w n t : (if a_compat a then maybe $"COMPAT_" c else c = []) -> maybe $"32" b -> is_dec d = true -> blanks w ->
    stands_for name n -> boundary n t ->
    text = c ++ $"SYSCALL" ++ b ++ $"_DEFINE" ++ [d] ++ w ++ $"(" ++ n ++ t -> accepts a name text
| ac_old b n : maybe $"32" b -> stands_for name n -> asm_definition0 ($"sys" ++ b ++ $"_" ++ n) text -> accepts a name text
| ac_full x n : name = $"sys_" ++ x -> stands_for name n -> asm_definition n text -> accepts a name text
| ac_odd f n : odd_name a name f -> stands_for f n -> asm_definition n text -> accepts a name text
| ac_ppc d w n t : a_class a = KPowerPC -> a_abi a = $"ppc32" -> is_dec d = true -> blanks w -> stands_for name n -> boundary n t ->
    text = $"PPC32_SYSCALL_DEFINE" ++ [d] ++ w ++ $"(" ++ n ++ t -> accepts a name text.

(** ** Lines found by searching *)

(** path:line:text with a definition of what [name] stands for at the start of some field. *)
Definition grep_hit (a : arch) (name line : str) : Prop :=
  exists p c b d w n e t, stands_for name n /\ (if a_compat a then maybe $"COMPAT_" c else c = []) /\
    (if a_compat a || a_bits32 a then maybe $"32" b else b = []) /\ is_dec d = true /\ blanks w /\
    (e = $"," \/ e = $")") /\
    line = p ++ $":" ++ c ++ $"SYSCALL" ++ b ++ $"_DEFINE" ++ [d] ++ w ++ $"(" ++ n ++ e ++ t.
(** Lines tried first have a larger value: first the directory arch, then (only compat or 32-bit
    kernels) the marks of compat or 32-bit definitions. *)
Definition mentions (s line : str) : Prop := exists x y, line = x ++ s ++ y.
Definition under_arch (line : str) : Prop := exists x, line = $"arch" ++ x.
Definition mark (P : Prop) (n : Z) : Prop := (P /\ n = 1) \/ (~ P /\ n = 0).
Inductive priority (a : arch) (line : str) : Z -> Z -> Prop :=
| prio_compat d x y : a_compat a = true -> mark (under_arch line) d -> mark (mentions $"COMPAT" line) x ->
    mark (mentions $"SYSCALL32" line) y -> priority a line d (x + y)
| prio_32 d x : a_compat a = false -> a_bits32 a = true -> mark (under_arch line) d ->
    mark (mentions $"SYSCALL32" line) x -> priority a line d x
| prio_64 d : a_compat a = false -> a_bits32 a = false -> mark (under_arch line) d -> priority a line d 0.
Definition before (a : arch) (l1 l2 : str) : Prop :=
  exists d1 n1 d2 n2, priority a l1 d1 n1 /\ priority a l2 d2 n2 /\ (d2 < d1 \/ d1 = d2 /\ n2 < n1).
(** The place a line of the search stands for. *)
Definition grep_place (kdir : path) (line : str) (f : path) (n : Z) : Prop :=
  exists file num t, line = file ++ $":" ++ num ++ t /\ (t = [] \/ exists t', t = $":" ++ t') /\
    ~ In ":"%char file /\ some_of is_dec num /\ f = path_join kdir (path_of_str file) /\ n = int_dec num.

(** ** Answers of addr2line *)

Inductive answer := Nowhere | At (f : str) (n : Z) | Around (f : str).  (* Around: file, no line *)
Definition answer_text (x : answer) : str :=
  match x with Nowhere => $"??:?" | At f n => f ++ $":" ++ str_of_int n | Around f => f ++ $":?" end.
Definition answer_ok (x : answer) : Prop :=
  match x with
  | Nowhere => True
  | At f n => f <> $"??" /\ ~ In ":"%char f /\ row f /\ 0 <= n
  | Around f => f <> $"??" /\ ~ In ":"%char f /\ row f
  end.
Definition answer_loc (x : answer) : option path * option Z :=
  match x with
  | Nowhere => (None, None)
  | At f n => (Some (path_of_str f), Some n)
  | Around f => (Some (path_of_str f), None)
  end.
(** A path below [old] goes below [new]; others stay. *)
Inductive moved (old new : path) : path -> path -> Prop :=
| moved_below t : moved old new (path_join old (Path [] t)) (path_join new (Path [] t))
| moved_other p : (forall t, p <> path_join old (Path [] t)) -> moved old new p p.

Definition outside (old : option path) (p : path) : Prop :=
  match old with None => True | Some r => forall t, p <> path_join r (Path [] t) end.
Inductive remapped (new : path) (old : option path) : path -> path -> Prop :=
| rm_below r t : old = Some r -> remapped new old (path_join r (Path [] t)) (path_join new (Path [] t))
| rm_absolute p : outside old p -> root p <> [] -> remapped new old p p
| rm_relative p : outside old p -> root p = [] -> remapped new old p (path_join new p).

(** addr2line answers address by address, in order. *)
Definition addr2line_says (run : list Z -> outcome str) (ans : Z -> answer) : Prop :=
  (forall v, answer_ok (ans v)) /\ forall addrs, run addrs = Ok (unlines (map (fun v => answer_text (ans v)) addrs)).
(** The place in the sources an answer stands for. *)
Inductive place_of (elfdir kdir : path) (rdir : option path) : answer -> path -> Z -> Prop :=
| po f n p q : moved elfdir kdir (path_of_str f) p -> remapped kdir rdir p q -> place_of elfdir kdir rdir (At f n) q n.
(** The location of the syscall is that of an address of its own symbol, the line adjusted. *)
Definition traced (file : path -> option str) (ans : Z -> answer) (elfdir kdir : path) (rdir : option path) (s : syscall) : Prop :=
  exists v f n l content ls, sc_file s = Some f /\ sc_line s = Some l /\
    (v = sym_real (sc_symbol s) \/ sym_real (sc_symbol s) <= v < sym_real (sc_symbol s) + sym_size (sc_symbol s)) /\
    place_of elfdir kdir rdir (ans v) f n /\ file f = Some content /\ lines_of content ls /\ adjusted ls n l.

(** ** The stages *)

(** The line [l] of a file (the first one if [l] < 1). *)
Definition line_text (content : str) (l : Z) (text : str) : Prop :=
  exists ls, lines_of content ls /\ nth_error ls (Z.to_nat (l - 1)) = Some text.
(** The location of the syscall is a definition of what a name of it stands for. *)
Definition well_located (file : path -> option str) (a : arch) (s : syscall) : Prop :=
  exists f l content text, sc_file s = Some f /\ sc_line s = Some l /\ file f = Some content /\
    line_text content l text /\ (accepts a (sc_origname s) text \/ accepts a (sc_name s) text).
Definition word_names (s : syscall) : Prop := some_of is_word (sc_origname s) /\ some_of is_word (sc_name s).
(** No special character but dots in the names. *)
Definition fit_names (s : syscall) : Prop := dotted (sc_origname s) /\ dotted (sc_name s).

Definition same_but_location (s s' : syscall) : Prop :=
  s' = Syscall (sc_index s) (sc_number s) (sc_name s) (sc_origname s) (sc_symbol s) (sc_kconfig s) (sc_file s')
               (sc_line s') (sc_signature s) (sc_esoteric s) (sc_good s') (sc_grepped s').
(** Still to be found: not good, and not an esoteric syscall that has a line. *)
Definition missing (s : syscall) : Prop := sc_good s = false /\ (sc_esoteric s = true -> sc_line s = None).
Definition fresh_syscall (s : syscall) : Prop := sc_good s = false /\ sc_line s = None /\ sc_grepped s = false.

(** One answer, on a line of its own, for every address. *)
Definition answers_each (run : list Z -> outcome str) : Prop :=
  forall addrs out, run addrs = Ok out ->
  exists ls, out = unlines ls /\ List.length ls = List.length addrs /\ Forall row ls.
Definition parent_of (p dir : path) : Prop := exists name, p = Path (root dir) (parts dir ++ [name]).
(** The addresses of a symbol that are tried: the first, the last, and those in between but for
    the last but one. *)
Definition queried (s : symbol) (v : Z) : Prop :=
  v = sym_real s \/ (1 < sym_size s /\ v = sym_real s + sym_size s - 1) \/
  (sym_real s < v /\ v <= sym_real s + sym_size s - 3).
(** The address stands for a definition of what a name of the syscall stands for. *)
Definition points_to (file : path -> option str) (ans : Z -> answer) (elfdir kdir : path) (rdir : option path)
    (a : arch) (s : syscall) (v : Z) : Prop :=
  exists f n content ls l text, place_of elfdir kdir rdir (ans v) f n /\ file f = Some content /\ lines_of content ls /\
    adjusted ls n l /\ nth_error ls (Z.to_nat (l - 1)) = Some text /\
    (accepts a (sc_origname s) text \/ accepts a (sc_name s) text).
(** If some inner address has a place in the sources, the last one tried has at least a file. *)
Definition steady_symbol (file : path -> option str) (ans : Z -> answer) (elfdir kdir : path) (rdir : option path)
    (s : symbol) : Prop :=
  forall v f n, sym_real s + 1 <= v <= sym_real s + sym_size s - 3 -> place_of elfdir kdir rdir (ans v) f n ->
    file f <> None -> ans (sym_real s + sym_size s - 3) <> Nowhere.
(** A line of the search that names an existing line. *)
Definition honest_line (file : path -> option str) (kdir : path) (line : str) : Prop :=
  exists f n content ls, grep_place kdir line f n /\ file f = Some content /\ lines_of content ls /\ n <= len ls + 1.
