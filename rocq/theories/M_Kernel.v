(** Model of /repo/src/systrack/kernel.py *)
From Coq Require Import List Bool Ascii String ZArith.
From Verif Require Import PyBase Regex M_Utils M_Elf M_Syscall M_KconfigTables M_Arch M_Emu M_Kconfig.
Import ListNotations.
Open Scope Z_scope.
Open Scope list_scope.

(** ** Versions *)

(** kernel.py 87 *)
Definition version_re : re :=
  RSeq [ RGrp 1 (RPlus c_d); RChr "."%char; RGrp 2 (RPlus c_d);
         ROpt (RGrp 3 (RSeq [RChr "."%char; RGrp 4 (RPlus c_d)])) ].

(** kernel.py 85-92 *)
Definition version_from_str (s : str) : option version :=
  match re_match version_re s with
  | None => None
  | Some x =>
      let a := int_dec (group_or_nil 1 x) in
      let b := int_dec (group_or_nil 2 x) in
      Some match group 4 x with
           | None => [a; b]
           | Some c => [a; b; int_dec c]
           end
  end.

(** kernel.py 94-101.  decode() is the identity on ASCII. *)
Definition version_from_banner (banner : str) : option version :=
  if negb (startswith banner $"Linux version ") then None
  else version_from_str (slice_from banner 14).

(** kernel.py 103-113 *)
Definition version_from_vmlinux (e : elf) : outcome (option version) :=
  match dget str_eqb $"linux_banner" (e_symbols e) with
  | None => Ok None
  | Some s =>
      banner <- (if negb (sym_size s =? 0) then read_symbol e s else vaddr_read_string e (sym_vaddr s)) ;;
      Ok (version_from_banner banner)
  end.

(** kernel.py 115-117, given what "make kernelversion" did *)
Definition version_from_make (make : option (Z * str)) : outcome (option version) :=
  v <- ensure_command make ;; Ok (version_from_str v).

(** kernel.py 36-37: the two attributes of the object the property [version] works on *)
Record vstate := VState { vs_version : option version; vs_source : option str }.
Definition vstate0 : vstate := VState None None.

(** kernel.py 119-133: the property [version].  [vmlinux]: what reading the version from the
    image gives, if there is an image; [make]: the same for the source tree. *)
Definition get_version (vmlinux make : option (outcome (option version))) (s : vstate)
    : outcome version * vstate :=
  match vs_version s with
  | Some v => (Ok v, s)
  | None =>
      let fill (r : outcome (option version)) (source : str) :=
        match r with
        | Ok (Some v) => (Ok v, VState (Some v) (Some source))
        | Ok None => (Raise KernelVersionError, VState None (Some source))
        | Raise x => (Raise x, s)
        | Exit c => (Exit c, s)
        | Diverge => (Diverge, s)
        end in
      match vmlinux, make with
      | Some r, _ => fill r $"vmlinux"
      | None, Some r => fill r $"make"
      | None, None => (Raise KernelVersionError, s)
      end
  end.

(** What is done to the object: reading [version] (also [version_str], [version_tag], ...), or
    clean(), configure(), build() (kernel.py 642-644, 646-648, 677-679); configure() goes on to
    read the version (662) after the make targets. *)
Inductive vop := VRead | VClean | VConfigure | VBuild.
Definition reset (s : vstate) : vstate := VState None (vs_source s).
(** One operation, given what reading the version gives at that moment. *)
Definition vop_step (vmlinux : option (outcome (option version)))
    (s : vstate) (x : vop * option (outcome (option version))) : vstate :=
  match fst x with
  | VRead => snd (get_version vmlinux (snd x) s)
  | VConfigure => snd (get_version vmlinux (snd x) (reset s))
  | VClean | VBuild => reset s
  end.
Definition vops_run (vmlinux : option (outcome (option version)))
    (h : list (vop * option (outcome (option version)))) : vstate :=
  fold_left (vop_step vmlinux) h vstate0.

(** kernel.py 135-137, given version_source *)
Definition version_str (v : version) (source : str) : str :=
  join $"." (map str_of_int v) ++ $" (from " ++ source ++ $")".

(** kernel.py 139-144.  Unpacking anything but three components raises ValueError. *)
Definition version_tag (v : version) : outcome str :=
  match v with
  | [a; b; c] =>
      Ok (if c =? 0 then $"v" ++ str_of_int a ++ $"." ++ str_of_int b
          else $"v" ++ str_of_int a ++ $"." ++ str_of_int b ++ $"." ++ str_of_int c)
  | _ => Raise ValueError
  end.

(** ** The object *)

(** kernel.py 44-83: __init__, given what reading the version gives.  The result is [arch]. *)
Definition kernel_init (arch_name : option str) (vmlinux : option elf) (kdir : bool)
    (get_version : outcome version) : outcome arch :=
  if negb kdir && match vmlinux with None => true | Some _ => false end then Raise ValueError
  else if match arch_name, vmlinux with None, None => true | _, _ => false end then Raise ValueError
  else
    _ <- match vmlinux with
         | Some e => match e_symbols e with [] => Raise KernelWithoutSymbolsError | _ => Ok tt end
         | None => Ok tt
         end ;;
    a <- match arch_name, vmlinux with
         | Some n, _ => v <- get_version ;; arch_from_name n v
         | None, Some e =>
             m <- arch_from_vmlinux e ;;
             match m with
             | None => Raise KernelArchError
             | Some (k, bits32, abis) =>
                 if 1 <? len abis then Raise KernelMultiABIError
                 else v <- get_version ;; abi <- index_ abis 0 ;; arch_new k v abi bits32
             end
         | None, None => Raise ValueError
         end ;;
    match vmlinux with
    | None => Ok a
    | Some e => ok <- arch_matches a e ;; if ok : bool then Ok a else Raise KernelArchError
    end.

(** ** The syscall table *)

(** kernel.py 82-83 *)
Definition long_size (e : elf) : Z := if e_bits32 e then 4 else 8.

(** kernel.py 172-173 *)
Definition unpack_long (e : elf) (v : Z) : outcome Z :=
  b <- vaddr_read e v (long_size e) ;; unpack_u (e_big e) (long_size e) b.

(** kernel.py 175-177, 183-187 with a size *)
Definition iter_unpack_sized (e : elf) (off size : Z) : outcome (list Z) :=
  iter_unpack_u (e_big e) (long_size e) (file_read (e_file e) off size).

(** kernel.py 194-195, 206, 226: the target section *)
Definition in_target (sec : section) (v : Z) : bool :=
  (sec_vaddr sec <=? v) && (v <? sec_vaddr sec + sec_size sec).

(** kernel.py 224-235 with 179-182: reading one entry after the other.  [rest]: the file from the
    current position on; [cur]: cur_idx_vaddr; no [boundary] is infinity.  The fuel is one more
    than the length of the file, and each pass reads at least one byte or stops. *)
Fixpoint read_entries (fuel : nat) (big : bool) (n : Z) (sec : section) (boundary : option Z)
    (rest : bytes) (cur : Z) : outcome (list Z) :=
  match fuel with
  | O => Diverge
  | S fuel' =>
      v <- unpack_u big n (firstn (Z.to_nat n) rest) ;;
      if negb (in_target sec v) then Ok []
      else if match boundary with Some b => b <=? cur | None => false end then Ok []
      else r <- read_entries fuel' big n sec boundary (skipn (Z.to_nat n) rest) (cur + n) ;; Ok (v :: r)
  end.

(** kernel.py 189-237 *)
Definition unpack_syscall_table (e : elf) (tbl : symbol) (target : section) : outcome (list Z) :=
  off <- vaddr_to_file_offset e (sym_vaddr tbl) ;;
  if 128 <? sym_size tbl then iter_unpack_sized e off (sym_size tbl)
  else
    let boundary := match next_symbol e tbl with Some s => Some (sym_vaddr s) | None => None end in
    let rest := skipn (Z.to_nat off) (e_file e) in
    read_entries (S (List.length rest)) (e_big e) (long_size e) target boundary rest (sym_vaddr tbl).

(** kernel.py 239-297; [a] after adjust_abi, [name] its syscall_table_name *)
Definition vaddrs_from_table (a : arch) (e : elf) (name : str) : outcome (list (Z * Z)) :=
  match dget str_eqb name (e_symbols e) with
  | None => Ok []
  | Some tbl =>
      match dget str_eqb $".text" (e_sections e) with
      | None => Raise KeyError
      | Some text =>
          let direct := l <- unpack_syscall_table e tbl text ;; Ok (enum_from 0 l) in
          if negb (a_fdesc a) then direct
          else
            first <- unpack_long e (sym_vaddr tbl) ;;
            if in_target text first then direct
            else
              match dget str_eqb $".opd" (e_sections e) with
              | None => Ok []
              | Some opd =>
                  descs <- unpack_syscall_table e tbl opd ;;
                  l <- mapM (unpack_long e) descs ;;
                  match l with [] => direct | _ => Ok (enum_from 0 l) end
              end
      end
  end.

(** ** From addresses to syscalls *)

Definition sym_in (s : symbol) (l : list symbol) : bool := existsb (symbol_eqb s) l.

(** kernel.py 322-326: the elements of the set, in the order of .functions.  (Names are
    different, so no two are equal.) *)
Definition ni_functions (e : elf) : list symbol := filter symbol_is_ni_syscall (dvalues (e_functions e)).

(** kernel.py 344-366: one pass of the loop; [ni]: the set, [d]: symbols_by_vaddr *)
Definition pick_step (a : arch) (ni : list symbol) (seen : list Z) (d : dict Z symbol) (s : symbol)
    : dict Z symbol :=
  let v := sym_vaddr s in
  if negb (zin v seen) then d
  else match dget Z.eqb v d with
       | None => dset Z.eqb v s d
       | Some other =>
           if symbol_eqb s other then d
           else if sym_in other ni && negb (sym_in s ni) then d
           else dset Z.eqb v (preferred_symbol a s other) d
       end.
(** kernel.py 335-366.  [ni]: the set in its order of iteration. *)
Definition symbols_by_vaddr (a : arch) (e : elf) (ni : list symbol) (vaddrs : list (Z * Z))
    : dict Z symbol :=
  fold_left (pick_step a ni (map snd vaddrs))
    (sort_by str_leb sym_name (dvalues (e_symbols e)))
    (dict_of Z.eqb (map (fun s => (sym_vaddr s, s)) ni)).

(** kernel.py 411, 416-438: the entries in order, with their symbols; those without symbol are
    left out *)
Definition resolve (by_vaddr : dict Z symbol) (vaddrs : list (Z * Z)) : list (Z * symbol) :=
  flat_map (fun x => match dget Z.eqb (snd x) by_vaddr with Some s => [(fst x, s)] | None => [] end)
    (sort_by Z.leb fst vaddrs).

(** kernel.py 413, 434-435: ni_count *)
Definition sym_count_add (d : dict symbol Z) (s : symbol) : dict symbol Z :=
  dset symbol_eqb s (match dget symbol_eqb s d with Some n => n | None => 0 end + 1) d.
Definition sym_counter (l : list symbol) : dict symbol Z := fold_left sym_count_add l [].

(** kernel.py 454-467: one syscall *)
Definition make_syscall (a : arch) (v : version) (prefixes : list str) (x : Z * symbol) : syscall :=
  let '(idx, sym) := x in
  let origname := noprefix (translate_syscall_symbol_name a (sym_name sym)) prefixes in
  let name := normalize_syscall_name a origname in
  let kdeps := match kconfig_syscall_deps name v a with
               | Some d => Some d
               | None => kconfig_syscall_deps origname v a
               end in
  syscall_new (Some idx) (adjust_syscall_number a (a_base a + idx)) name origname sym kdeps None false.

(** kernel.py 469: skip_syscall reads the index and the number *)
Definition skip (a : arch) (s : syscall) : bool :=
  match sc_index s with Some i => skip_syscall a i (sc_number s) | None => false end.

(** kernel.py 492-494 *)
Definition make_esoteric (e : elf) (x : esoteric) : outcome syscall :=
  let '(num, name, sym_name, sig, kconf) := x in
  match dget str_eqb sym_name (e_symbols e) with
  | None => Raise KeyError
  | Some sym => Ok (syscall_new None num name name sym kconf (Some sig) true)
  end.

(** kernel.py 320-519: everything between the table and the locations.  [ni_order]: the order of
    iteration of the set of ni_syscall symbols.  380-409 only log: symbols_by_vaddr is never empty
    here, and the condition at 398 compares integers with symbols and never holds. *)
Definition candidates (ni_order : list symbol -> list symbol) (a : arch) (e : elf) (v : version)
    (vaddrs : list (Z * Z)) : outcome (list syscall) :=
  let ni := ni_order (ni_functions e) in
  match ni with
  | [] => Ok []
  | _ =>
      let by_vaddr := symbols_by_vaddr a e ni vaddrs in
      let entries := resolve by_vaddr vaddrs in
      let symbols := filter (fun x => negb (sym_in (snd x) ni)) entries in
      let ni_count := sym_counter (map snd (filter (fun x => sym_in (snd x) ni) entries)) in
      prefixes <- common_syscall_symbol_prefixes (map (fun x => sym_name (snd x)) symbols) 20 ;;
      let all := map (make_syscall a v prefixes) symbols in
      let kept := filter (fun s => negb (skip a s)) all in
      let n_skipped := len (filter (skip a) all) in
      let ni_total := fold_left Z.add (dvalues ni_count) 0 in
      eso <- extract_esoteric_syscalls a e ;;
      eso_syscalls <- mapM (make_esoteric e) eso ;;
      let syscalls := kept ++ eso_syscalls in
      _ <- assert_ (len syscalls =? len vaddrs - ni_total - n_skipped + len eso) ;;
      let ni_ref := match dkeys ni_count with
                    | [] => None
                    | s :: l => Some (max_by (fun k => match dget symbol_eqb k ni_count with
                                                       | Some n => n | None => 0 end) s l)
                    end in
      ni_code <- match ni_ref with
                 | Some s => c <- read_symbol e s ;; Ok (Some c)
                 | None => Ok None
                 end ;;
      filterM (fun s => d <- is_dummy_syscall a (sc_symbol s) e ni_ref ni_code ;; Ok (negb d)) syscalls
  end.

(** kernel.py 537: [path.match('kernel/sys_ni.c')], a relative pattern of two parts without
    wildcards *)
Definition is_sys_ni (p : path) : bool :=
  match rev (parts p) with
  | f :: d :: _ => str_eqb f $"sys_ni.c" && str_eqb d $"kernel"
  | _ => false
  end.
(** kernel.py 533-574: the second pass *)
Definition keep_located (kdir : option path) (s : syscall) : outcome bool :=
  if negb (sc_esoteric s) && negb (sc_good s) then
    match sc_file s with
    | None => Ok true
    | Some f =>
        p <- maybe_rel (Some f) kdir ;;
        Ok match p with Some q => negb (is_sys_ni q) | None => true end
    end
  else Ok true.

(** What the analysis gets from outside: the x86 decoder and equality and iteration order of its
    instructions, the iteration order of the set of ni_syscall symbols, and the annotation with
    locations and signatures (kernel.py 523-524, location.py, signature.py). *)
Record env := Env {
  v_decode : bool -> bytes -> Z -> list insn;
  v_same : insn -> insn -> bool;
  v_insn_order : list insn -> list insn;
  v_ni_order : list symbol -> list symbol;
  v_annotate : list syscall -> outcome (list syscall)
}.

(** kernel.py 307-315: the addresses *)
Definition syscall_vaddrs (t : env) (a : arch) (e : elf) : outcome (list (Z * Z)) :=
  match a_table a with
  | Some name => vaddrs_from_table a e name
  | None =>
      match a_class a with
      | KX86 => extract_syscall_vaddrs (v_decode t) (v_same t) (v_insn_order t) a e
      | _ => Ok []
      end
  end.

(** kernel.py 299-585: __extract_syscalls.  Without a ni_syscall nothing else is done (332-334). *)
Definition extract_syscalls (t : env) (a : arch) (e : elf) (v : version) (kdir : option path)
    : outcome (list syscall) :=
  if xorb (a_bits32 a) (e_bits32 e) then Ok []
  else
    let a := adjust_abi a e in
    vaddrs <- syscall_vaddrs t a e ;;
    match vaddrs with
    | [] => Ok []
    | _ =>
        match v_ni_order t (ni_functions e) with
        | [] => Ok []
        | _ =>
            found <- candidates (v_ni_order t) a e v vaddrs ;;
            located <- v_annotate t found ;;
            filterM (keep_located kdir) located
        end
    end.
