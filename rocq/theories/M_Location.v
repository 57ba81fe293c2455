(** Model of /repo/src/systrack/location.py and of syscall_def_regexp() in arch/*.py.
    Names are put into the regexps as they are (the code does not escape them): a dot stands for any
    character but a newline.  (Other special characters are not modelled here; M_Pattern models the
    regexps as texts.)  Groups are not captured, as nothing uses them.  decode() is the identity
    on ASCII.  The logging calls are left out, except for the evaluation of an argument that can
    raise (location.py 409). *)
From Coq Require Import List Bool Ascii String ZArith.
From Verif Require Import PyBase Regex M_Utils M_Elf M_Syscall M_Arch.
Import ListNotations.
Open Scope Z_scope.
Open Scope list_scope.

(** What the machine provides: regular files, the output of addr2line for a list of addresses, the
    lines found by the search of location.py 80-119 (by rg or by the code). *)
Record world := World {
  w_file : path -> option bytes;
  w_addr2line : list Z -> outcome str;
  w_grep : outcome (list str)
}.
Definition loc := (option path * option Z)%type.

(** location.py 17-23, one line *)
Definition parse_loc (d : str) : outcome loc :=
  match split_char ":"%char d with
  | [file; line] =>
      if str_eqb file $"??" then Ok (None, None)
      else if isdigit line then
        if forallb is_dec line then Ok (Some (path_of_str file), Some (int_dec line)) else Raise ValueError
      else Ok (Some (path_of_str file), None)
  | _ => Raise ValueError
  end.
(** path.parent *)
Definition path_parent (p : path) : path := Path (root p) (removelast (parts p)).
(** location.py 38-47, one answer.  Without a srcdir all answers are passed on (line 40) and the
    loop finds none left. *)
Definition smart_loc (elf : path) (srcdir : option path) (d : str) : outcome loc :=
  l <- parse_loc d ;;
  match srcdir, fst l with
  | Some dir, Some f =>
      if is_relative_to f (path_parent elf)
      then r <- relative_to f (path_parent elf) ;; Ok (Some (path_join dir r), snd l)
      else Ok l
  | _, _ => Ok l
  end.
(** location.py 14-15: the answers, still as text (they are parsed when they are drawn) *)
Definition ask (w : world) (addrs : list Z) : outcome (list str) :=
  out <- w_addr2line w addrs ;; Ok (splitlines out).

(** * Regexps *)

Definition RWord : re := RWordB is_word.
Definition RSp : re := RStar c_s.
Fixpoint RAlts (l : list re) : re :=
  match l with
  | [] => REps
  | [r] => r
  | r :: l' => RAlt r (RAlts l')
  end.
(** \basmlinkage\s*(unsigned\s+)?\w+\s*  (the beginning varies) *)
Definition re_asmlinkage (beginning : re) (l : list re) : re :=
  RSeq ([beginning; RLit $"asmlinkage"; RSp; ROpt (RCat (RLit $"unsigned") (RPlus c_s)); RPlus c_w; RSp] ++ l).
(** A name within a regexp. *)
Fixpoint RName (s : str) : re :=
  match s with
  | [] => REps
  | c :: s' => RCat (if Ascii.eqb c "."%char then RCls c_dot else RChr c) (RName s')
  end.
Definition open_paren : re := RLit $"(".

(** arch_base.py 318-341, arm.py 153-161, mips.py 152-175, powerpc.py 346-352, x86.py 601-610, with
    a name.  (In '|'.join(exps) \b belongs to each alternative.) *)
Definition odd_asm (name : str) : re := re_asmlinkage RWord [RName name; RSp; open_paren].
Definition syscall_def_regexp (a : arch) (name : str) : option re :=
  match a_class a with
  | KArm =>
      if negb (str_eqb (a_abi a) $"oabi") then None
      else if startswith name $"sys_oabi_" then Some (odd_asm name)
      else Some (odd_asm ($"sys_oabi_" ++ name))
  | KMips =>
      Some (RAlts (
        [if anyprefix name [$"sysm_"; $"mipsmt_sys_"] then odd_asm name
         else re_asmlinkage RWord [RAlt (RLit $"sysm") (RLit $"mipsmt_sys"); RLit $"_"; RName name; RSp; open_paren]] ++
        (if str_eqb (a_abi a) $"n32"
         then [if anyprefix name [$"sysn32_"] then odd_asm name else odd_asm ($"sysn32_" ++ name)]
         else [])))
  | KPowerPC =>
      if negb (str_eqb (a_abi a) $"ppc32") then None
      else Some (RSeq [RWord; RLit $"PPC32_SYSCALL_DEFINE"; RCls c_d; RSp; open_paren; RName name; RWord])
  | KX86 =>
      if negb (str_eqb (a_abi a) $"x32") then None
      else if startswith name $"sys32_x32_" then Some (odd_asm name)
      else Some (odd_asm ($"sys32_x32_" ++ name))
  | KArm64 | KRiscV => None
  end.

(** location.py 73-78 *)
Definition base_exp (a : arch) : re :=
  RSeq ([RWord] ++ (if a_compat a then [ROpt (RLit $"COMPAT_")] else []) ++ [RLit $"SYSCALL"] ++
        (if a_compat a || a_bits32 a then [ROpt (RLit $"32")] else []) ++
        [RLit $"_DEFINE"; RCls c_d; RSp; open_paren]).
(** location.py 121 *)
Definition grep_exp (a : arch) (origname : str) : re :=
  RSeq [RLit $":"; base_exp a; RName origname; RAlt (RLit $",") (RLit $")")].

(** location.py 145-164 *)
Definition newstyle (a : arch) (name : str) : re :=
  RSeq ([RBol] ++ (if a_compat a then [ROpt (RLit $"COMPAT_")] else []) ++
        [RLit $"SYSCALL"; ROpt (RLit $"32"); RLit $"_DEFINE"; RCls c_d; RSp; open_paren; RName name; RWord]).
Definition oldstyle (name : str) : re :=
  re_asmlinkage RBol [RLit $"sys"; ROpt (RLit $"32"); RLit $"_"; RName name; open_paren].
Definition fullname (name : str) : re := re_asmlinkage RBol [RName name; RSp; open_paren].
Definition matches (r : re) (s : str) : bool := match re_match r s with Some _ => true | None => false end.
Definition good_definition (a : arch) (definition name : str) : bool :=
  matches (RAlt (newstyle a name) (oldstyle name)) definition
  || (startswith name $"sys_" && matches (fullname name) definition)
  || match syscall_def_regexp a name with Some r => matches r definition | None => false end.

(** location.py 166-174 *)
Definition good_location (w : world) (file : path) (line : Z) (a : arch) (s : syscall) : outcome bool :=
  match w_file w file with
  | None => Raise FileNotFoundError
  | Some content =>
      let ls := lines_keep content in
      let n := Z.to_nat (line - 1) in
      if (List.length ls <? n)%nat then Raise StopIteration
      else
        let definition := nth n ls [] in
        Ok (good_definition a definition (sc_origname s) || good_definition a definition (sc_name s))
  end.

(** location.py 211-222: j from [k] - 1 down *)
Fixpoint signature_line (lines : list bytes) (k : nat) : option Z :=
  match k with
  | O => None
  | S j =>
      match nth j lines [] with
      | [] => Some (Z.of_nat j + 1)
      | c :: _ =>
          if is_bspace c || Ascii.eqb c "#"%char then signature_line lines j else Some (Z.of_nat j + 1)
      end
  end.
(** location.py 195-229: i from [k] - 1 down; None when nothing was found *)
Fixpoint go_up (lines : list bytes) (line_0 : Z) (k : nat) : outcome (option Z) :=
  match k with
  | O => Ok None
  | S i =>
      match nth_error lines i with
      | None => Exit 1
      | Some l0 =>
          let l := brstrip l0 in
          if (Z.of_nat i <? line_0) && str_eqb l $"}" then Ok None
          else if str_eqb l $"{" then
            match signature_line lines i with
            | Some r => Ok (Some r)
            | None => Ok (Some (Z.of_nat i + 1))
            end
          else go_up lines line_0 i
      end
  end.
(** location.py 176-229 *)
Definition adjust_line (w : world) (file : path) (line : Z) : outcome Z :=
  match w_file w file with
  | None => Exit 1
  | Some content =>
      r <- go_up (lines_keep content) (line - 1) (Z.to_nat line) ;;
      Ok (match r with Some x => x | None => line end)
  end.

(** * grep_kernel_sources *)

(** location.py 123-128 *)
Definition grep_key (a : arch) (l : str) : Z :=
  let b (x : bool) := if x then 1 else 0 in
  let weight :=
    if a_compat a then b (contains l $"COMPAT") + b (contains l $"SYSCALL32")
    else if a_bits32 a then b (contains l $"SYSCALL32") else 0 in
  3 * b (startswith l $"arch") + weight.
(** location.py 134-139: exps.items(), the first that matches, and the others *)
Fixpoint take_match {A} (line : str) (exps : list (A * re)) : option (A * list (A * re)) :=
  match exps with
  | [] => None
  | (s, r) :: exps' =>
      match re_search r line with
      | Some _ => Some (s, exps')
      | None =>
          match take_match line exps' with
          | Some (x, others) => Some (x, (s, r) :: others)
          | None => None
          end
      end
  end.
(** location.py 136, 137 *)
Definition grep_loc (kdir : path) (line : str) : outcome (path * Z) :=
  match split_char ":"%char line with
  | file :: l :: _ =>
      if negb (str_eqb l []) && forallb is_dec l
      then Ok (path_join kdir (path_of_str file), int_dec l)
      else Raise ValueError
  | _ => Raise ValueError
  end.
(** location.py 133-143 *)
Fixpoint grep_lines {A} (kdir : path) (exps : list (A * re)) (out : list str)
    : outcome (list (A * option (path * Z))) :=
  match out with
  | [] => Ok (map (fun e => (fst e, None)) exps)
  | line :: out' =>
      match take_match line exps with
      | Some (s, exps') =>
          l <- grep_loc kdir line ;;
          r <- grep_lines kdir exps' out' ;;
          Ok ((s, Some l) :: r)
      | None => grep_lines kdir exps out'
      end
  end.
(** location.py 72-143; the syscalls come with something that identifies them *)
Definition grep_kernel_sources {A} (w : world) (kdir : path) (a : arch) (syscalls : list (A * syscall))
    : outcome (list (A * option (path * Z))) :=
  out <- w_grep w ;;
  grep_lines kdir (map (fun x => (fst x, grep_exp a (sc_origname (snd x)))) syscalls)
    (sort_by_rev Z.leb (grep_key a) out).

(** * extract_syscall_locations *)

Definition set_file (s : syscall) (f : option path) : syscall :=
  Syscall (sc_index s) (sc_number s) (sc_name s) (sc_origname s) (sc_symbol s) (sc_kconfig s) f
          (sc_line s) (sc_signature s) (sc_esoteric s) (sc_good s) (sc_grepped s).
Definition set_line (s : syscall) (l : option Z) : syscall :=
  Syscall (sc_index s) (sc_number s) (sc_name s) (sc_origname s) (sc_symbol s) (sc_kconfig s) (sc_file s)
          l (sc_signature s) (sc_esoteric s) (sc_good s) (sc_grepped s).
Definition set_good (s : syscall) (g : bool) : syscall :=
  Syscall (sc_index s) (sc_number s) (sc_name s) (sc_origname s) (sc_symbol s) (sc_kconfig s) (sc_file s)
          (sc_line s) (sc_signature s) (sc_esoteric s) g (sc_grepped s).
Definition set_grepped (s : syscall) (g : bool) : syscall :=
  Syscall (sc_index s) (sc_number s) (sc_name s) (sc_origname s) (sc_symbol s) (sc_kconfig s) (sc_file s)
          (sc_line s) (sc_signature s) (sc_esoteric s) (sc_good s) g.
(** sc.file = file, sc.line = line, sc.good_location = True *)
Definition found_at (s : syscall) (f : path) (l : Z) : syscall := set_good (set_line (set_file s (Some f)) (Some l)) true.

(** Syscalls are objects, changed in place: they are named by their position in the list. *)
Fixpoint update {A} (l : list A) (i : nat) (f : A -> A) : list A :=
  match l, i with
  | [], _ => []
  | x :: l', O => f x :: l'
  | x :: l', S i' => x :: update l' i' f
  end.

(** location.py 263-266 *)
Definition remap (kdir : path) (rdir : option path) (p : option path) : outcome (option path) :=
  match p with
  | None => Ok None
  | Some f =>
      match rdir with
      | None => Ok (Some (path_join kdir f))
      | Some _ =>
          r <- maybe_rel (Some f) rdir ;;
          Ok (match r with Some x => Some (path_join kdir x) | None => None end)
      end
  end.
(** file is None or not file.is_file() or line is None *)
Definition usable (w : world) (l : loc) : option (path * Z) :=
  match l with
  | (Some f, Some n) => match w_file w f with Some _ => Some (f, n) | None => None end
  | _ => None
  end.

Inductive todo := Done | Adjust | Retry | ToGrep.
(** location.py 271-306, one syscall; the boolean says that the path lies outside KDIR *)
Definition step1 (w : world) (a : arch) (kdir : path) (rdir : option path) (kres : path) (s : syscall) (l : loc)
    : outcome (syscall * todo * bool) :=
  file <- remap kdir rdir (fst l) ;;
  let s := set_good (set_file s file) false in
  let next := if 1 <? sym_size (sc_symbol s) then Adjust else ToGrep in
  match usable w (file, snd l) with
  | None => Ok (s, next, false)
  | Some (f, n) =>
      let bad := negb (is_relative_to f kres) in
      line <- adjust_line w f n ;;
      let s := set_line s (Some line) in
      if sc_esoteric s then Ok (s, Done, bad)
      else
        g <- good_location w f line a s ;;
        if g then Ok (set_good s true, Done, bad) else Ok (s, next, bad)
  end.
(** zip(syscalls, locs); syscalls without an answer stay as they are *)
Fixpoint step1_all (w : world) (a : arch) (kdir : path) (rdir : option path) (kres : path)
    (scs : list syscall) (locs : list loc) : outcome (list (syscall * todo * bool)) :=
  match scs, locs with
  | s :: scs', l :: locs' =>
      x <- step1 w a kdir rdir kres s l ;;
      r <- step1_all w a kdir rdir kres scs' locs' ;;
      Ok (x :: r)
  | _, [] => Ok (map (fun s => (s, Done, false)) scs)
  | [], _ => Ok []
  end.
(** The positions of the syscalls that need something. *)
Definition todo_eqb (a b : todo) : bool :=
  match a, b with
  | Done, Done | Adjust, Adjust | Retry, Retry | ToGrep, ToGrep => true
  | _, _ => false
  end.
Fixpoint positions (t : todo) (l : list todo) (i : nat) : list nat :=
  match l with
  | [] => []
  | x :: l' => if todo_eqb t x then i :: positions t l' (S i) else positions t l' (S i)
  end.
Definition no_syscall : syscall := Syscall None 0 [] [] (Symbol 0 0 0 [] []) None None None None false false false.
Definition at_ (scs : list syscall) (i : nat) : syscall := nth i scs no_syscall.
(** to_adjust.sort(key=attrgetter('name')) *)
Definition by_name (scs : list syscall) (l : list nat) : list nat := sort_by str_leb (fun i => sc_name (at_ scs i)) l.

(** location.py 337-370: zip(to_adjust, new_locs), the answers parsed when drawn; the lists are
    to_retry and to_grep *)
Fixpoint step2 (w : world) (a : arch) (elf : path) (kdir : path) (rdir : option path) (scs : list syscall)
    (l : list nat) (answers : list str) : outcome (list syscall * list nat * list nat) :=
  match l, answers with
  | i :: l', d :: answers' =>
      x <- smart_loc elf (Some kdir) d ;;
      file <- remap kdir rdir (fst x) ;;
      let next r := let '(scs, retry, grep) := r in
        if 2 <? sym_size (sc_symbol (at_ scs i)) then (scs, i :: retry, grep) else (scs, retry, i :: grep) in
      match usable w (file, snd x) with
      | None => r <- step2 w a elf kdir rdir scs l' answers' ;; Ok (next r)
      | Some (f, n) =>
          line <- adjust_line w f n ;;
          g <- good_location w f line a (at_ scs i) ;;
          if g then step2 w a elf kdir rdir (update scs i (fun s => found_at s f line)) l' answers'
          else r <- step2 w a elf kdir rdir scs l' answers' ;; Ok (next r)
      end
  | _, _ => Ok (scs, [], [])
  end.

(** location.py 385-402: the answers for one syscall.  [None]: not found; the booleans say whether
    no answer was usable and whether the last one had a file. *)
Fixpoint scan (w : world) (a : arch) (elf : path) (kdir : path) (rdir : option path) (s : syscall)
    (answers : list str) (invalid file : bool) : outcome (option (path * Z) * bool * bool) :=
  match answers with
  | [] => Ok (None, invalid, file)
  | d :: answers' =>
      x <- smart_loc elf (Some kdir) d ;;
      file <- remap kdir rdir (fst x) ;;
      let has_file := match file with Some _ => true | None => false end in
      match usable w (file, snd x) with
      | None => scan w a elf kdir rdir s answers' invalid has_file
      | Some (f, n) =>
          line <- adjust_line w f n ;;
          g <- good_location w f line a s ;;
          if g then Ok (Some (f, line), false, has_file)
          else scan w a elf kdir rdir s answers' false has_file
      end
  end.
(** location.py 382 *)
Definition inner_addrs (s : symbol) : list Z := zrange (sym_real s + 1) (sym_real s + sym_size s - 2).
(** location.py 381-411; rel(file) raises when file is None *)
Fixpoint step3 (w : world) (a : arch) (elf : path) (kdir : path) (rdir : option path) (scs : list syscall)
    (l : list nat) : outcome (list syscall * list nat) :=
  match l with
  | [] => Ok (scs, [])
  | i :: l' =>
      answers <- ask w (inner_addrs (sc_symbol (at_ scs i))) ;;
      x <- scan w a elf kdir rdir (at_ scs i) answers true false ;;
      let '(found, invalid, has_file) := x in
      match found with
      | Some (f, line) => step3 w a elf kdir rdir (update scs i (fun s => found_at s f line)) l'
      | None =>
          if negb invalid && negb has_file then Raise AttributeError
          else
            r <- step3 w a elf kdir rdir scs l' ;;
            Ok (fst r, i :: snd r)
      end
  end.

(** location.py 446-459 *)
Fixpoint step4 (w : world) (a : arch) (scs : list syscall) (l : list (nat * option (path * Z)))
    : outcome (list syscall) :=
  match l with
  | [] => Ok scs
  | (i, None) :: l' => step4 w a scs l'
  | (i, Some (f, line)) :: l' =>
      g <- good_location w f line a (at_ scs i) ;;
      step4 w a (if g then update scs i (fun s => set_grepped (found_at s f line) true) else scs) l'
  end.
(** location.py 444: (x[1] is not None, x[0].name) *)
Definition grepped_leb (a b : bool * str) : bool :=
  match fst a, fst b with
  | false, true => true
  | true, false => false
  | _, _ => str_leb (snd a) (snd b)
  end.
Definition sort_grepped (scs : list syscall) (l : list (nat * option (path * Z))) : list (nat * option (path * Z)) :=
  sort_by grepped_leb (fun x => (match snd x with Some _ => true | None => false end, sc_name (at_ scs (fst x)))) l.

(** Where it ends: no kernel sources (244-255), all locations bad (323-332), debug paths outside
    KDIR (413-416), or the syscalls to grep. *)
Inductive stage := NoSources | AllBad | Outside | Grep (l : list nat).

(** location.py 240-416 *)
Definition search_locations (w : world) (a : arch) (elf : path) (kdir rdir : option path) (kres : path)
    (scs : list syscall) : outcome (list syscall * stage) :=
  answers <- ask w (map (fun s => sym_real (sc_symbol s)) scs) ;;
  locs <- mapM (smart_loc elf kdir) answers ;;
  match kdir with
  | None =>
      Ok (map (fun x => set_good (set_line (set_file (fst x) (fst (snd x))) (snd (snd x))) false) (combine scs locs)
            ++ skipn (List.length locs) scs, NoSources)
  | Some kdir =>
      r1 <- step1_all w a kdir rdir kres scs locs ;;
      let scs := map (fun x => fst (fst x)) r1 in
      let todos := map (fun x => snd (fst x)) r1 in
      let bad_paths := existsb snd r1 in
      let to_adjust := by_name scs (positions Adjust todos 0) in
      let to_grep := positions ToGrep todos 0 in
      if negb (len to_adjust =? 0) && (len to_adjust =? len locs) then Ok (scs, AllBad)
      else
        r2 <- (if len to_adjust =? 0 then Ok (scs, [], [])
               else
                 answers <- ask w (map (fun i => let s := sc_symbol (at_ scs i) in sym_real s + sym_size s - 1) to_adjust) ;;
                 step2 w a elf kdir rdir scs to_adjust answers) ;;
        let '(scs, to_retry, grep2) := r2 in
        r3 <- step3 w a elf kdir rdir scs (by_name scs to_retry) ;;
        let '(scs, grep3) := r3 in
        if bad_paths then Ok (scs, Outside) else Ok (scs, Grep (to_grep ++ grep2 ++ grep3))
  end.

(** location.py 231-459; [have] says whether the command addr2line is available *)
Definition extract_syscall_locations (w : world) (have : bool) (a : arch) (elf : path) (kdir rdir : option path)
    (kres : path) (scs : list syscall) : outcome (list syscall) :=
  if negb have then Ok scs
  else
    r <- search_locations w a elf kdir rdir kres scs ;;
    match kdir, snd r with
    | Some kdir, Grep l =>
        found <- grep_kernel_sources w kdir a (map (fun i => (i, at_ (fst r) i)) l) ;;
        step4 w a (fst r) (sort_grepped (fst r) found)
    | _, _ => Ok (fst r)
    end.
