(** Model of /repo/src/systrack/__main__.py 23-28, wrap_help, and of what it uses of textwrap
    (TextWrapper(65, break_long_words=False, replace_whitespace=False) of Python's library: expand_tabs,
    drop_whitespace and break_on_hyphens are on, no indentation, no limit of lines).  The texts of the
    options are in parse_args, __main__.py 40-84. *)
From Coq Require Import List Bool Ascii String ZArith.
From Verif Require Import PyBase.
Import ListNotations.
Open Scope Z_scope.
Open Scope list_scope.

Definition width : Z := 65.
(** textwrap: _whitespace is TAB, LF, VT, FF, CR and the blank *)
Definition is_ws (c : ascii) : bool := let z := code c in in_range 9 13 z || (z =? 32).
(** [str.expandtabs(8)] from column [col]; LF and CR start again at column 0 *)
Fixpoint expandtabs (col : Z) (s : str) : str :=
  match s with
  | [] => []
  | c :: s' =>
      if code c =? 9 then repeat " "%char (Z.to_nat (8 - col mod 8)) ++ expandtabs (col + (8 - col mod 8)) s'
      else c :: expandtabs (if (code c =? 10) || (code c =? 13) then 0 else col + 1) s'
  end.

(** The classes of wordsep_re: word_punct (word characters and the marks of the definition) and letter
    (word characters but for digits) *)
Definition word_punct (c : ascii) : bool := is_word c || existsb (Ascii.eqb c) $"!'&.,?" || (code c =? 34).
Definition letter (c : ascii) : bool := is_word c && negb (is_dec c).
Definition dash (c : ascii) : bool := Ascii.eqb c "-"%char.
(** -{2,} (?=\w): the number of dashes *)
Fixpoint dashes (s : str) : nat := match s with c :: s' => if dash c then S (dashes s') else O | [] => O end.
Definition em_dash (s : str) : bool :=
  (2 <=? dashes s)%nat && match skipn (dashes s) s with c :: _ => is_word c | [] => false end.
(** (?<=word_punct), with what comes before in reverse *)
Definition after_punct (before : str) : bool := match before with c :: _ => word_punct c | [] => false end.
(** - (?: (?<=lt{2}-) | (?<=lt-lt-) ) (?= lt -? lt ) *)
Definition hyphen (before rest : str) : bool :=
  match rest with
  | h :: rest' =>
      dash h &&
      (match before with a :: b :: _ => letter a && letter b | _ => false end
       || match before with a :: b :: c :: _ => letter a && dash b && letter c | _ => false end) &&
      match rest' with
      | a :: b :: _ => letter a && (letter b || dash b && match rest' with _ :: _ :: c :: _ => letter c | _ => false end)
      | _ => false
      end
  | [] => false
  end.
(** nws+? (?: hyphen | (?=ws|\Z) | (?<=word_punct) (?=-{2,}\w) ), after at least one character *)
Fixpoint word_rest (before rest : str) : str * str :=
  match rest with
  | [] => ([], [])
  | c :: rest' =>
      if hyphen before rest then ([c], rest')
      else if is_ws c then ([], rest)
      else if after_punct before && em_dash rest then ([], rest)
      else let '(w, r) := word_rest (c :: before) rest' in (c :: w, r)
  end.
Fixpoint take_ws (s : str) : str * str :=
  match s with
  | c :: s' => if is_ws c then let '(w, r) := take_ws s' in (c :: w, r) else ([], s)
  | [] => ([], [])
  end.
(** The next match of wordsep_re and what follows it *)
Definition next_chunk (before : str) (c : ascii) (rest : str) : str * str :=
  if is_ws c then take_ws (c :: rest)
  else if after_punct before && em_dash (c :: rest) then (firstn (dashes (c :: rest)) (c :: rest), skipn (dashes (c :: rest)) (c :: rest))
  else let '(w, r) := word_rest (c :: before) rest in (c :: w, r).
(** wordsep_re.split: there is a match wherever one starts, so nothing is left between them. *)
Fixpoint chunks_from (fuel : nat) (before s : str) : list str :=
  match fuel, s with
  | S n, c :: rest => let '(w, r) := next_chunk before c rest in w :: chunks_from n (rev w ++ before) r
  | _, _ => []
  end.
Definition chunks (s : str) : list str := chunks_from (List.length s) [] s.

(** ** _wrap_chunks *)

(** c.strip() is empty *)
Definition blank_chunk (s : str) : bool := str_eqb (strip s) [].
(** the inner loop: chunks that fit, from length [n] *)
Fixpoint fill_line (n : Z) (cs : list str) : list str * list str :=
  match cs with
  | c :: cs' => if n + len c <=? width then let '(l, r) := fill_line (n + len c) cs' in (c :: l, r) else ([], cs)
  | [] => ([], [])
  end.
(** _handle_long_word when long words are not broken *)
Definition long_word (line rest : list str) : list str * list str :=
  match rest with
  | c :: rest' => if (width <? len c) && match line with [] => true | _ => false end then ([c], rest') else (line, rest)
  | [] => (line, rest)
  end.
Definition drop_last_blank (line : list str) : list str :=
  match rev line with c :: r => if blank_chunk c then rev r else line | [] => [] end.
(** one line; [started]: there are lines already *)
Definition one_line (started : bool) (cs : list str) : list str * list str :=
  let cs := match cs with c :: cs' => if blank_chunk c && started then cs' else cs | [] => [] end in
  let '(line, rest) := fill_line 0 cs in
  let '(line, rest) := long_word line rest in
  (drop_last_blank line, rest).
Fixpoint wrap_chunks (fuel : nat) (started : bool) (cs : list str) : list str :=
  match fuel, cs with
  | S n, _ :: _ =>
      let '(line, rest) := one_line started cs in
      match line with
      | [] => wrap_chunks n started rest
      | _ => List.concat line :: wrap_chunks n true rest
      end
  | _, _ => []
  end.
(** TextWrapper.wrap and fill *)
Definition wrap (s : str) : list str := let cs := chunks (expandtabs 0 s) in wrap_chunks (List.length cs) false cs.
Definition fill (s : str) : str := join [NL] (wrap s).
(** __main__.py 23-28 *)
Definition wrap_help (body : str) : str :=
  join [NL] (map fill (filter (fun l => negb (str_eqb (strip l) [])) (splitlines body))).
(** The texts of the options: __main__.py 40-84 *)
Definition help_texts : list str :=
  [$"path to vmlinux, if not inside KDIR or no KDIR supplied";
   $"kernel source directory";
   $"kernel architecture/ABI combination; pass ""help"" for a list (default: autodetect)";
   $"configure and build kernel and exit";
   $"configure kernel and exit";
   $"clean kernel sources (make distclean) and exit";
   $"toolchain prefix for cross-compilation; use with -b/-c/-C";
   $"output directory for out-of-tree kernel build (make O=...); only meaningful with -b/-c/-C";
   $"output format: text, json or html (default: text)";
   $"output absolute paths instead of paths relative to KDIR";
   $"replace ORIG_KDIR with the KDIR provided with -k/--kdir for paths obtained from ELF debug information; needed if the kernel was built with ORIG_KDIR as source directory instead of KDIR, and debug info contains absolute paths to ORIG_KDIR";
   $"git checkout to REF inside KDIR before doing anything; the special value ""auto"" can be used to checkout to the tag corresponding to the detected kernel version from VMLINUX";
   $"try building kernel with reduced/disabled optimizations for more reliable location results; only meaningful with -b";
   $"quietness level:" ++ [NL] ++ $"  -q = no info, -qq = no warnings, -qqq = no errors" ++ [NL] ++ $"  -qqqq = no standard error output whatsoever";
   $"verbosity level:" ++ [NL] ++ $"  -v = info, -vv = debug, -vvv = more debug";
   $"show version information and exit"].
