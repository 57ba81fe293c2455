(** Model of /repo/src/systrack/signature.py *)
From Coq Require Import List Bool Ascii String ZArith.
From Verif Require Import PyBase M_Utils M_Elf M_Syscall M_Build.
Import ListNotations.
Open Scope Z_scope.
Open Scope list_scope.

Definition macro_prefixes : list str :=
  [$"SC_ARG64("; $"arg_u32p("; $"compat_arg_u64_dual("; $"compat_arg_u64("].

(** [s[-1]] *)
Definition last_of (s : str) : outcome ascii :=
  match last_char s with Some c => Ok c | None => Raise IndexError end.

(** signature.py 12-26: the fields one field gives *)
Definition expand_field (big : bool) (field : str) : outcome (list str) :=
  let newfield := noprefix field macro_prefixes in
  if str_eqb newfield field then Ok [field]
  else
    c <- last_of newfield ;;
    _ <- assert_ (Ascii.eqb c ")"%char) ;;
    let field := slice_to newfield (-1) in
    Ok (if big then [$"u32"; field ++ $"_hi"; $"u32"; field ++ $"_lo"]
        else [$"u32"; field ++ $"_lo"; $"u32"; field ++ $"_hi"]).
Definition expand_macros (sig : list str) (big : bool) : outcome (list str) :=
  l <- mapM (expand_field big) sig ;; Ok (List.concat l).

(** signature.py 28-39 *)
Definition parse_signature (sig : str) (big : bool) : outcome (list str) :=
  let split_sig := map strip (split_char ","%char sig) in
  if negb (contains sig $"SC_ARG64") && negb (contains sig $"arg_u32p")
     && negb (contains sig $"compat_arg_u64")
  then
    _ <- assert_ (negb (contains sig $"(") && negb (contains sig $")")) ;;
    Ok split_sig
  else expand_macros split_sig big.

(** signature.py 44-50: next(f), line - 1 times, then readline() until the text ends with ")".
    readline() returns '' for ever at the end of the file. *)
Fixpoint read_sig (acc : str) (ls : list str) : outcome str :=
  match ls with
  | [] => Diverge
  | l :: ls' =>
      let acc := acc ++ strip l in
      if endswith acc $")" then Ok acc else read_sig acc ls'
  end.
Definition skip_lines (ls : list str) (line : Z) : outcome (list str) :=
  let n := Z.to_nat (line - 1) in
  if (List.length ls <? n)%nat then Raise StopIteration else Ok (skipn n ls).

(** signature.py 74 and 87 *)
Definition clean_sig (sig : str) : str :=
  replace (join $" " (split_ws (replace sig $" __user" []))) $"* *" $"**".

Definition define_prefixes : list str :=
  [$"SYSCALL_DEFINE"; $"SYSCALL32_DEFINE"; $"COMPAT_SYSCALL_DEFINE"; $"COMPAT_SYSCALL32_DEFINE";
   $"PPC32_SYSCALL_DEFINE"].

(** signature.py 78: zip(sig[::2], sig[1::2]) *)
Fixpoint pairs_of (l : list str) : list (str * str) :=
  match l with
  | a :: b :: l' => (a, b) :: pairs_of l'
  | _ => []
  end.
(** signature.py 78 and 143 *)
Definition param_str (t n : str) : outcome str :=
  c <- last_of t ;; Ok (t ++ (if Ascii.eqb c "*"%char then [] else $" ") ++ n).

(** signature.py 52-97 on the lines of the file from [line] on, joined *)
Definition signature_of_text (sig : str) (big : bool) : outcome (option (list str)) :=
  let newsig := noprefix sig define_prefixes in
  if negb (str_eqb sig newsig) then
    let start := find_char ","%char newsig + 1 in
    c <- index_ newsig 0 ;;
    nargs <- (if is_dec c then Ok (digit_val c) else Raise ValueError) ;;
    _ <- assert_ (nargs <=? 6) ;;
    if start =? 0 then _ <- assert_ (nargs =? 0) ;; Ok (Some [])
    else
      fields <- parse_signature (clean_sig (slice newsig start (rfind_char ")"%char newsig))) big ;;
      _ <- assert_ ((len fields mod 2 =? 0) && (len fields / 2 =? nargs)) ;;
      r <- mapM (fun p => param_str (fst p) (snd p)) (pairs_of fields) ;;
      Ok (Some r)
  else if startswith sig $"asmlinkage" then
    let start := find_char "("%char sig + 1 in
    let sig := strip (slice sig start (rfind_char ")"%char sig)) in
    if str_eqb sig [] || str_eqb sig $"void" then Ok (Some [])
    else
      let sig := clean_sig sig in
      _ <- assert_ (negb (contains sig $"(") && negb (contains sig $")")) ;;
      let r := map strip (split_char ","%char sig) in
      _ <- assert_ (len r <=? 7) ;;
      Ok (Some r)
  else Ok None.

(** signature.py 41-97, on the content of the file *)
Definition signature_from_text (content : str) (line : Z) (big : bool) : outcome (option (list str)) :=
  ls <- skip_lines (lines_keep (universal content)) line ;;
  sig <- read_sig [] ls ;;
  signature_of_text sig big.

(** signature.py 41-97; [files] gives the content of the files that exist *)
Definition syscall_signature_from_source (files : path -> option str) (file : path) (line : Z) (big : bool)
    : outcome (option (list str)) :=
  match files file with
  | None => Raise FileNotFoundError
  | Some content => signature_from_text content line big
  end.

(** signature.py 114-128, for the struct at [ptr]: unpack(meta_fmt, ...) *)
Definition unpack_meta (e : elf) (ptr : Z) : outcome (Z * Z * Z * Z) :=
  let psz := if e_bits32 e then 4 else 8 in
  let sz := 8 + 3 * psz in
  b <- vaddr_read e ptr sz ;;
  if negb (len b =? sz) then Raise StructError
  else
    Ok (uint_of (e_big e) (slice b 0 psz),
        sint_of (e_big e) (slice b (psz + 4) (psz + 8)),
        uint_of (e_big e) (slice b (psz + 8) (psz + 8 + psz)),
        uint_of (e_big e) (slice b (psz + 8 + psz) (psz + 8 + 2 * psz))).

(** signature.py 137, 138: one pointer of an array *)
Definition read_ptr (e : elf) (v : Z) : outcome Z :=
  let psz := if e_bits32 e then 4 else 8 in
  b <- vaddr_read e v psz ;; unpack_u (e_big e) psz b.

(** signature.py 136-143 *)
Definition meta_param (e : elf) (types args : Z) (i : Z) : outcome str :=
  let psz := if e_bits32 e then 4 else 8 in
  tp <- read_ptr e (types + i * psz) ;;
  ap <- read_ptr e (args + i * psz) ;;
  ts <- vaddr_read_string e tp ;;
  as_ <- vaddr_read_string e ap ;;
  param_str (replace (strip ts) $"* *" $"**") (strip as_).

(** signature.py 126-145 *)
Definition meta_entry (e : elf) (ptr : Z) : outcome (str * list str) :=
  ' (name, nargs, types, args) <- unpack_meta e ptr ;;
  _ <- assert_ ((0 <=? nargs) && ((nargs =? 0) || (negb (types =? 0) && negb (args =? 0)))) ;;
  n <- vaddr_read_string e name ;;
  sig <- mapM (meta_param e types args) (zrange 0 nargs) ;;
  Ok (noprefix (strip n) [$"sys_"], sig).

(** signature.py 100-147: None without metadata *)
Definition read_metadata (e : elf) : outcome (option (dict str (list str))) :=
  match dget str_eqb $"__start_syscalls_metadata" (e_symbols e) with
  | None => Ok None
  | Some start =>
      match dget str_eqb $"__stop_syscalls_metadata" (e_symbols e) with
      | None => Raise KeyError
      | Some stop =>
          let psz := if e_bits32 e then 4 else 8 in
          b <- vaddr_read e (sym_real start) (sym_real stop - sym_real start) ;;
          ptrs <- iter_unpack_u (e_big e) psz b ;;
          _ <- match dget str_eqb $"__syscall_meta__open" (e_symbols e) with
               | Some o => if sym_size o =? 0 then Ok tt else assert_ (8 + 3 * psz <=? sym_size o)
               | None => Ok tt
               end ;;
          l <- mapM (meta_entry e) ptrs ;;
          Ok (Some (dict_of str_eqb l))
      end
  end.

Definition set_signature (s : syscall) (sig : option (list str)) : syscall :=
  Syscall (sc_index s) (sc_number s) (sc_name s) (sc_origname s) (sc_symbol s) (sc_kconfig s) (sc_file s)
          (sc_line s) sig (sc_esoteric s) (sc_good s) (sc_grepped s).

(** signature.py 151-173, for one syscall.  A good location has a file and a line (if they were
    None, open() and range() would raise). *)
Definition sign (files : path -> option str) (big : bool) (have_source : bool)
    (meta : option (dict str (list str))) (s : syscall) : outcome syscall :=
  if sc_esoteric s then Ok s
  else if sc_good s then
    _ <- assert_ have_source ;;
    match sc_file s, sc_line s with
    | Some f, Some l =>
        sig <- syscall_signature_from_source files f l big ;;
        Ok (set_signature s sig)
    | None, _ => Raise AttributeError
    | Some _, None => Raise TypeError
    end
  else
    match meta with
    | None => Ok s
    | Some d =>
        match dget str_eqb (sc_origname s) d with
        | Some sig => Ok (set_signature s (Some sig))
        | None =>
            match dget str_eqb (sc_name s) d with
            | Some sig => Ok (set_signature s (Some sig))
            | None => Ok s
            end
        end
    end.

(** signature.py 99-175 *)
Definition extract_syscall_signatures (files : path -> option str) (syscalls : list syscall) (e : elf)
    (have_source : bool) : outcome (list syscall) :=
  meta <- read_metadata e ;;
  mapM (sign files (e_big e) have_source meta) syscalls.
