(** Model of /repo/src/systrack/arch/ (all files except the x86 switch emulation,
    which is in M_Emu, and syscall_def_regexp, which is in M_Location). *)
From Coq Require Import List Bool Ascii String ZArith.
From Verif Require Import PyBase M_Utils M_Elf M_Syscall M_KconfigTables.
Import ListNotations.
Open Scope Z_scope.
Open Scope list_scope.

(** arch/__init__.py 15-22: ARCH_CLASSES *)
Inductive klass := KArm | KArm64 | KMips | KPowerPC | KRiscV | KX86.
Definition ARCH_CLASSES : list klass := [KArm; KArm64; KMips; KPowerPC; KRiscV; KX86].

(** arch_base.py 11-65: the attributes of an instance, except kconfig (below). *)
Record arch := Arch {
  a_class : klass;
  a_version : version;
  a_abi : str;
  a_bits32 : bool;
  a_abi_bits32 : bool;
  a_fdesc : bool;              (* uses_function_descriptors *)
  a_compat : bool;
  a_targets : list str;        (* config_targets *)
  a_table : option str;        (* syscall_table_name *)
  a_base : Z;                  (* syscall_num_base *)
  a_num_reg : option str;      (* syscall_num_reg *)
  a_arg_regs : list str        (* syscall_arg_regs *)
}.

Definition abi_in (abi : str) (l : list str) : bool := existsb (str_eqb abi) l.
(** [version >= v] *)
Definition ver_geb (a b : version) : bool := ver_leb b a.

(** arm.py 12-15, 25-56 *)
Definition arm_new (v : version) (abi : str) (bits32 : bool) : outcome arch :=
  _ <- assert_ bits32 ;;
  _ <- assert_ (abi_in abi [$"eabi"; $"oabi"]) ;;
  let targets := if ver_geb v [3;7] then [$"multi_v7_defconfig"] else [$"defconfig"] in
  let oabi := str_eqb abi $"oabi" in
  Ok (Arch KArm v abi true true false false targets (Some $"sys_call_table")
        (if oabi then 9437184 (* 0x900000 *) else 0)
        (Some (if oabi then $"swi <NR>" else $"r7"))
        [$"r0"; $"r1"; $"r2"; $"r3"; $"r4"; $"r5"; $"r6"]).

(** arm64.py 11-14, 28-38 *)
Definition arm64_new (v : version) (abi : str) (bits32 : bool) : outcome arch :=
  _ <- assert_ (negb bits32) ;;
  _ <- assert_ (ver_geb v [3;7]) ;;
  _ <- assert_ (abi_in abi [$"aarch64"; $"aarch32"]) ;;
  let c := str_eqb abi $"aarch32" in
  Ok (Arch KArm64 v abi false c false c [$"defconfig"]
        (Some (if c then $"compat_sys_call_table" else $"sys_call_table")) 0 (Some $"w8")
        [$"x0"; $"x1"; $"x2"; $"x3"; $"x4"; $"x5"]).

(** mips.py 12-13, 23-85 *)
Definition mips_new (v : version) (abi : str) (bits32 : bool) : outcome arch :=
  _ <- assert_ (abi_in abi [$"o32"; $"n32"; $"n64"]) ;;
  let o32 := str_eqb abi $"o32" in
  let n64 := str_eqb abi $"n64" in
  let table := if o32 then (if bits32 then $"sys_call_table" else $"sys32_call_table")
               else if n64 then $"sys_call_table" else $"sysn32_call_table" in
  let base := if o32 then 4000 else if n64 then 5000 else 6000 in
  let args := if o32 then [$"a0"; $"a1"; $"a2"; $"a3"; $"stack"; $"stack"; $"stack"; $"stack"]
              else [$"a0"; $"a1"; $"a2"; $"a3"; $"a4"; $"a5"] in
  if bits32 then
    _ <- assert_ o32 ;;
    Ok (Arch KMips v abi true o32 false false [$"defconfig"] (Some table) base (Some $"v0") args)
  else
    Ok (Arch KMips v abi false o32 false (negb n64) [$"ip27_defconfig"] (Some table) base
          (Some $"v0") args).

(** powerpc.py 14-16, 57-136 *)
Definition ppc_new (v : version) (abi : str) (bits32 : bool) : outcome arch :=
  _ <- assert_ (abi_in abi [$"ppc32"; $"ppc64"; $"spu"]) ;;
  _ <- assert_ (ver_geb v [2;6;15]) ;;
  let spu := str_eqb abi $"spu" in
  let ppc32 := str_eqb abi $"ppc32" in
  _ <- (if spu then assert_ (ver_geb v [2;6;16]) else Ok tt) ;;
  let args := if ppc32 then [$"r3"; $"r4"; $"r5"; $"r6"; $"r7"; $"r8"; $"r9"]
              else [$"r3"; $"r4"; $"r5"; $"r6"; $"r7"; $"r8"] in
  if bits32 then
    _ <- assert_ (ver_geb v [2;6;31]) ;;
    Ok (Arch KPowerPC v abi true ppc32 false false [$"ppc64_defconfig"]
          (Some $"sys_call_table") 0 (Some $"r0") args)
  else
    let table := if spu then $"spu_syscall_table"
                 else if ppc32 && ver_geb v [5;0] then $"compat_sys_call_table"
                 else $"sys_call_table" in
    Ok (Arch KPowerPC v abi false ppc32 true (negb (str_eqb abi $"ppc64")) [$"ppc64_defconfig"]
          (Some table) 0 (Some $"r0") args).

(** riscv.py 11-13, 24-60 *)
Definition riscv_new (v : version) (abi : str) (bits32 : bool) : outcome arch :=
  _ <- assert_ (ver_geb v [4;15]) ;;
  _ <- assert_ (abi_in abi [$"rv32"; $"rv64"]) ;;
  let rv32 := str_eqb abi $"rv32" in
  let compat := rv32 && negb bits32 in
  _ <- (if compat then assert_ (ver_geb v [5;19]) else Ok tt) ;;
  let targets :=
    if bits32 then
      if ver_geb v [6;8] then [$"defconfig"; $"32-bit.config"]
      else if ver_geb v [5;1] then [$"rv32_defconfig"]
      else [$"defconfig"]
    else [$"defconfig"] in
  Ok (Arch KRiscV v abi bits32 rv32 false compat targets
        (Some (if compat then $"compat_sys_call_table" else $"sys_call_table")) 0 (Some $"a7")
        [$"a0"; $"a1"; $"a2"; $"a3"; $"a4"; $"a5"]).

(** x86.py 18-19, 57-141 *)
Definition x86_new (v : version) (abi : str) (bits32 : bool) : outcome arch :=
  _ <- assert_ (abi_in abi [$"x64"; $"ia32"; $"x32"]) ;;
  _ <- assert_ (ver_geb v [2;6;24]) ;;
  let ia32 := str_eqb abi $"ia32" in
  let x32 := str_eqb abi $"x32" in
  let table :=
    if ver_ltb v [6;9] then
      Some (if negb bits32 then
              if ia32 then $"ia32_sys_call_table"
              else if x32 && ver_geb v [5;4] then $"x32_sys_call_table"
              else $"sys_call_table"
            else $"sys_call_table")
    else None in
  let reg := if ia32 then $"eax" else $"rax" in
  let args := if ia32 then [$"ebx"; $"ecx"; $"edx"; $"esi"; $"edi"; $"ebp"]
              else [$"rdi"; $"rsi"; $"rdx"; $"r10"; $"r8"; $"r9"] in
  if bits32 then
    _ <- assert_ ia32 ;;
    Ok (Arch KX86 v abi true true false false [$"i386_defconfig"] table 0 (Some reg) args)
  else
    Ok (Arch KX86 v abi false ia32 false (negb (str_eqb abi $"x64")) [$"x86_64_defconfig"] table
          (if x32 then 1073741824 (* 0x40000000 *) else 0) (Some reg) args).

Definition arch_new (k : klass) : version -> str -> bool -> outcome arch :=
  match k with
  | KArm => arm_new | KArm64 => arm64_new | KMips => mips_new
  | KPowerPC => ppc_new | KRiscV => riscv_new | KX86 => x86_new
  end.

(** ** The kconfig attribute: one object per class, shared by its instances *)

Definition kconf := vdict str (list str).
Definition kentry := (version * version * str * list str)%type.

(** The class-level tables: arm.py 17-23, arm64.py 16-26, mips.py 15-21,
    powerpc.py 27-45, riscv.py 15-22, x86.py 21-35. *)
Definition class_kconfig (k : klass) : list kentry :=
  match k with
  | KArm => arm_kconfig | KArm64 => arm64_kconfig | KMips => mips_kconfig
  | KPowerPC => ppc_kconfig | KRiscV => riscv_kconfig | KX86 => x86_kconfig
  end.
(** What the constructors add: arm.py 45, 56; mips.py 54-62, 72-85; powerpc.py 93-94,
    111-136; riscv.py 47-52, 58-60; x86.py 96-111, 123-141. *)
Definition init_kconfig (k : klass) (abi : str) (bits32 : bool) : list kentry :=
  match k with
  | KArm => if str_eqb abi $"eabi" then arm_adds_45 else arm_adds_56
  | KArm64 => []
  | KMips => if bits32 then mips_adds_54 else mips_adds_72
  | KPowerPC => if bits32 then ppc_adds_93 else ppc_adds_111
  | KRiscV => if bits32 then riscv_adds_47 else riscv_adds_58
  | KX86 => if bits32 then x86_adds_96 else x86_adds_123
  end.
Definition kc_add_all (l : list kentry) (d : kconf) : kconf :=
  fold_left (fun d '(a, b, k, x) => vd_add str_eqb a b k x d) l d.

(** The state of the process: the kconfig object of each class. *)
Definition world := klass -> kconf.
Definition world0 : world := fun k => vd_new str_eqb (class_kconfig k).
Definition klass_eqb (a b : klass) : bool :=
  match a, b with
  | KArm, KArm | KArm64, KArm64 | KMips, KMips
  | KPowerPC, KPowerPC | KRiscV, KRiscV | KX86, KX86 => true
  | _, _ => false
  end.
Definition set_kconf (k : klass) (d : kconf) (w : world) : world :=
  fun k' => if klass_eqb k' k then d else w k'.

(** Instantiating a class.  All the assertions of a constructor come before its first
    kconfig.add(), so a failing constructor leaves the state alone. *)
Definition instantiate (k : klass) (v : version) (abi : str) (bits32 : bool) (w : world)
    : outcome (arch * world) :=
  a <- arch_new k v abi bits32 ;;
  Ok (a, set_kconf k (kc_add_all (init_kconfig k abi bits32) (w k)) w).
(** [arch.kconfig[version]] *)
Definition arch_kconfig (a : arch) (v : version) (w : world) : dict str (list str) * world :=
  let '(r, d) := vd_getitem str_eqb (w (a_class a)) v in (r, set_kconf (a_class a) d w).

(** The class-level kconfig_syscall_deps: powerpc.py 51-55, x86.py 37-41, else empty. *)
Definition arch_syscall_deps (k : klass) : list (version * version * str * str) :=
  match k with
  | KPowerPC => ppc_kconfig_syscall_deps
  | KX86 => x86_kconfig_syscall_deps
  | _ => []
  end.

(** ** Detection *)

Definition has_sym (e : elf) (name : str) : bool := dmem str_eqb name (e_symbols e).
Definition add_if (b : bool) (l : list str) : list str := if b then l else [].

(** arm.py 58-74.  The assignment of ['eabi'] is overwritten by the next line. *)
Definition arm_match (e : elf) : outcome (option (bool * list str)) :=
  if negb (e_machine e =? EM_ARM) then Ok None else
  _ <- assert_ (e_bits32 e) ;;
  let abis :=
    if has_sym e $"sys_oabi_call_table" then [$"eabi"; $"oabi"]
    else
      let abis := if negb (Z.land (e_flags e) EF_ARM_EABI_MASK =? 0) then [$"eabi"] else [] in
      let abis := [$"oabi"] in
      abis in
  Ok (Some (true, abis)).
(** arm64.py 40-52 *)
Definition arm64_match (e : elf) : outcome (option (bool * list str)) :=
  if negb (e_machine e =? EM_AARCH64) then Ok None else
  _ <- assert_ (negb (e_bits32 e)) ;;
  Ok (Some (false, if has_sym e $"compat_sys_call_table" then [$"aarch64"; $"aarch32"]
                   else [$"aarch64"])).
(** mips.py 87-102 *)
Definition mips_match (e : elf) : outcome (option (bool * list str)) :=
  if negb (e_machine e =? EM_MIPS) then Ok None else
  Ok (Some (e_bits32 e,
    if e_bits32 e then [$"o32"]
    else [$"n64"] ++ add_if (has_sym e $"sys32_call_table") [$"o32"]
                  ++ add_if (has_sym e $"sysn32_call_table") [$"n32"])).
(** powerpc.py 138-165 *)
Definition ppc_match (e : elf) : outcome (option (bool * list str)) :=
  if negb ((e_machine e =? EM_PPC) || (e_machine e =? EM_PPC64)) then Ok None else
  _ <- (if e_machine e =? EM_PPC then assert_ (e_bits32 e) else assert_ (negb (e_bits32 e))) ;;
  Ok (Some (e_bits32 e,
    if e_bits32 e then [$"ppc32"]
    else [$"ppc64"]
      ++ add_if (has_sym e $"compat_sys_call_table" || has_sym e $"compat_sys_execve"
                 || has_sym e $".compat_sys_execve") [$"ppc32"]
      ++ add_if (has_sym e $"spu_syscall_table") [$"spu"])).
(** riscv.py 63-76 *)
Definition riscv_match (e : elf) : outcome (option (bool * list str)) :=
  if negb (e_machine e =? EM_RISCV) then Ok None else
  Ok (Some (e_bits32 e,
    if e_bits32 e then [$"rv32"]
    else [$"rv64"] ++ add_if (has_sym e $"compat_sys_call_table") [$"rv32"])).
(** x86.py 143-172 *)
Definition x86_match (e : elf) : outcome (option (bool * list str)) :=
  if negb ((e_machine e =? EM_386) || (e_machine e =? EM_X86_64)) then Ok None else
  _ <- (if e_machine e =? EM_386 then assert_ (e_bits32 e) else assert_ (negb (e_bits32 e))) ;;
  Ok (Some (e_bits32 e,
    if e_bits32 e then [$"ia32"]
    else [$"x64"]
      ++ (if has_sym e $"ia32_sys_call_table" then [$"ia32"]
          else if has_sym e $"ia32_sys_call" then [$"ia32"] else [])
      ++ (if has_sym e $"x32_sys_call_table" then [$"x32"]
          else if has_sym e $"x32_sys_call" then [$"x32"]
          else if existsb (fun s => contains s $"x32_compat_sys") (dkeys (e_symbols e))
          then [$"x32"] else []))).
Definition arch_match (k : klass) : elf -> outcome (option (bool * list str)) :=
  match k with
  | KArm => arm_match | KArm64 => arm64_match | KMips => mips_match
  | KPowerPC => ppc_match | KRiscV => riscv_match | KX86 => x86_match
  end.

(** arch/__init__.py 126-137 *)
Fixpoint first_match (ks : list klass) (e : elf) : outcome (option (klass * bool * list str)) :=
  match ks with
  | [] => Ok None
  | k :: ks' =>
      m <- arch_match k e ;;
      match m with
      | Some (b, abis) => Ok (Some (k, b, abis))
      | None => first_match ks' e
      end
  end.
Definition arch_from_vmlinux (e : elf) : outcome (option (klass * bool * list str)) :=
  first_match ARCH_CLASSES e.

(** arm.py 76-77, arm64.py 54-55, mips.py 104-108, powerpc.py 167-173, riscv.py 78-82,
    x86.py 174-178 *)
Definition arch_matches (a : arch) (e : elf) : outcome bool :=
  match a_class a with
  | KArm => Ok (e_bits32 e && (e_machine e =? EM_ARM))
  | KArm64 => Ok (negb (e_bits32 e) && (e_machine e =? EM_AARCH64))
  | KMips => Ok ((e_machine e =? EM_MIPS) && Bool.eqb (e_bits32 e) (a_bits32 a))
  | KPowerPC =>
      _ <- assert_ (e_big e) ;;
      Ok ((e_machine e =? if a_bits32 a then EM_PPC else EM_PPC64)
          && Bool.eqb (e_bits32 e) (a_bits32 a))
  | KRiscV => Ok ((e_machine e =? EM_RISCV) && Bool.eqb (e_bits32 e) (a_bits32 a))
  | KX86 => Ok ((e_machine e =? if a_bits32 a then EM_386 else EM_X86_64)
                && Bool.eqb (e_bits32 e) (a_bits32 a))
  end.

(** ** Names *)

(** arch/__init__.py 26-46: SUPPORTED_ARCHS before the update; abi and bits32 as the
    lambdas pass them, ArchArm with its default bits32=True, the others False. *)
Definition MAIN_ARCHS : list (str * (klass * str * bool)) :=
  [ ($"x86"          , (KX86, $"ia32", true));
    ($"x86-64"       , (KX86, $"x64", false));
    ($"x86-64-x32"   , (KX86, $"x32", false));
    ($"x86-64-ia32"  , (KX86, $"ia32", false));
    ($"arm"          , (KArm, $"eabi", true));
    ($"arm-oabi"     , (KArm, $"oabi", true));
    ($"arm64"        , (KArm64, $"aarch64", false));
    ($"arm64-aarch32", (KArm64, $"aarch32", false));
    ($"mips"         , (KMips, $"o32", true));
    ($"mips64"       , (KMips, $"n64", false));
    ($"mips64-n32"   , (KMips, $"n32", false));
    ($"mips64-o32"   , (KMips, $"o32", false));
    ($"powerpc"      , (KPowerPC, $"ppc32", true));
    ($"powerpc64"    , (KPowerPC, $"ppc64", false));
    ($"powerpc64-32" , (KPowerPC, $"ppc32", false));
    ($"powerpc64-spu", (KPowerPC, $"spu", false));
    ($"riscv"        , (KRiscV, $"rv32", true));
    ($"riscv64"      , (KRiscV, $"rv64", false));
    ($"riscv64-32"   , (KRiscV, $"rv32", false)) ].

(** arch/__init__.py 48-75: (name, alias) *)
Definition ARCH_ALIASES : list (str * str) :=
  [ ($"x86", $"i386"); ($"x86", $"ia32"); ($"x86-64", $"x64"); ($"x86-64-x32", $"x32");
    ($"x86-64-ia32", $"ia32-64"); ($"arm", $"arm-eabi"); ($"arm", $"eabi"); ($"arm-oabi", $"oabi");
    ($"arm64", $"aarch64"); ($"arm64-aarch32", $"aarch32"); ($"mips", $"mips32"); ($"mips", $"o32");
    ($"mips64", $"n64"); ($"mips64-n32", $"n32"); ($"mips64-o32", $"o32-64"); ($"powerpc", $"ppc");
    ($"powerpc", $"ppc32"); ($"powerpc64", $"ppc64"); ($"powerpc64-32", $"ppc64-32");
    ($"powerpc64-spu", $"ppc64-spu"); ($"powerpc64-spu", $"spu"); ($"riscv", $"riscv32");
    ($"riscv", $"rv32"); ($"riscv64", $"rv64"); ($"riscv64-32", $"rv64-32") ].

(** arch/__init__.py 77 *)
Definition SUPPORTED_ARCHS : dict str (klass * str * bool) :=
  dupdate str_eqb MAIN_ARCHS
    (dict_of str_eqb
       (flat_map (fun '(name, alias) =>
          match dget str_eqb name MAIN_ARCHS with Some x => [(alias, x)] | None => [] end)
        ARCH_ALIASES)).

(** arch/__init__.py 120-124 *)
Definition arch_from_name (name : str) (v : version) : outcome arch :=
  match dget str_eqb name SUPPORTED_ARCHS with
  | Some (k, abi, bits32) => arch_new k v abi bits32
  | None => Raise KeyError
  end.

(** ** ABI adjustment *)

Definition set_table (a : arch) (compat : bool) (t : option str) : arch :=
  Arch (a_class a) (a_version a) (a_abi a) (a_bits32 a) (a_abi_bits32 a) (a_fdesc a) compat
       (a_targets a) t (a_base a) (a_num_reg a) (a_arg_regs a).

(** arch_base.py 92-97, arm.py 79-90, x86.py 180-188 *)
Definition adjust_abi (a : arch) (e : elf) : arch :=
  match a_class a with
  | KArm =>
      if str_eqb (a_abi a) $"oabi" && has_sym e $"sys_oabi_call_table"
      then set_table a true (Some $"sys_oabi_call_table")
      else set_table a false (Some $"sys_call_table")
  | KX86 =>
      if ver_ltb (a_version a) [6;9] then a
      else if has_sym e $"sys_call_table" && negb (a_compat a)
      then set_table a (a_compat a) (Some $"sys_call_table") else a
  | _ => a
  end.

(** ** Symbols *)

(** arch_base.py 99-110 *)
Definition prefer_compat (a : arch) (x y : symbol) : option symbol :=
  let cx := contains (sym_name x) $"compat" in
  let cy := contains (sym_name y) $"compat" in
  if xorb cx cy then
    if a_compat a then Some (if cx then x else y) else Some (if cx then y else x)
  else None.

(** arch_base.py 112-130 *)
Definition base_preferred (x y : symbol) : symbol :=
  if startswith (sym_name x) $"sys_" then x
  else if startswith (sym_name y) $"sys_" then y
  else if startswith (sym_name x) $"compat_sys_" then x else y.

(** x86.py 190-217 *)
Definition x86_preferred (a : arch) (x y : symbol) : symbol :=
  let nx := sym_name x in
  let ny := sym_name y in
  if str_eqb (a_abi a) $"ia32" then
    if startswith nx $"__ia32_" then x
    else if startswith ny $"__ia32_" then y
    else if startswith nx $"__x64_" then x
    else if startswith ny $"__x64_" then y
    else if negb (islower nx) then y
    else if negb (islower ny) then x
    else base_preferred x y
  else if str_eqb (a_abi a) $"x32" && startswith nx $"__x32_" then x
  else if str_eqb (a_abi a) $"x32" && startswith ny $"__x32_" then y
  else if startswith nx $"__x64_" then x
  else if startswith ny $"__x64_" then y
  else if startswith nx $"__ia32_" then y
  else if startswith ny $"__ia32_" then x
  else if negb (islower nx) then y
  else if negb (islower ny) then x
  else base_preferred x y.

(** powerpc.py 175-192 *)
Definition ppc_preferred (a : arch) (x y : symbol) : symbol :=
  if a_bits32 a then base_preferred x y
  else
    let nx := sym_name x in
    let ny := sym_name y in
    let xdot := startswith nx $"." in
    let ydot := startswith ny $"." in
    if xdot || ydot then
      if negb xdot then y
      else if negb ydot then x
      else if startswith nx $".sys_" then x
      else if startswith ny $".sys_" then y
      else if startswith nx $".compat_sys_" then x else y
    else base_preferred x y.

(** arm.py 92-96, arm64.py 57-65, mips.py 110-114, riscv.py 84-91, and the above *)
Definition preferred_symbol (a : arch) (x y : symbol) : symbol :=
  match a_class a with
  | KX86 => x86_preferred a x y
  | KPowerPC => ppc_preferred a x y
  | KArm | KMips =>
      match prefer_compat a x y with Some z => z | None => base_preferred x y end
  | KArm64 =>
      match prefer_compat a x y with
      | Some z => z
      | None => if startswith (sym_name x) $"__arm64_" then x
                else if startswith (sym_name y) $"__arm64_" then y
                else base_preferred x y
      end
  | KRiscV =>
      match prefer_compat a x y with
      | Some z => z
      | None => if startswith (sym_name x) $"__riscv_" then x
                else if startswith (sym_name y) $"__riscv_" then y
                else base_preferred x y
      end
  end.

(** arch_base.py 132-158; no subclass overrides it *)
Definition symbol_is_ni_syscall (s : symbol) : bool :=
  str_eqb (sym_type s) $"FUNC"
  && anysuffix (sym_name s) [$"sys_ni_syscall"; $"compat_ni_syscall"]
  && negb (startswith (sym_name s) $"_eil_addr_")
  && negb (startswith (sym_name s) $"__cfi_")
  && negb (startswith (sym_name s) $"__pfx_").

(** ** Skipping and numbering *)

(** x86.py 50-55 *)
Definition bad_x32_numbers : list Z :=
  [13; 15; 16; 19; 20; 45; 46; 47; 54; 55; 59; 101; 127; 128; 129; 131;
   134; 156; 174; 177; 178; 180; 205; 206; 209; 211; 214; 215; 222; 236;
   244; 246; 247; 273; 274; 278; 279; 295; 296; 297; 299; 307; 310; 311;
   322; 327; 328].
Definition zin (z : Z) (l : list Z) : bool := existsb (Z.eqb z) l.

(** arch_base.py 160-171, powerpc.py 194-204, x86.py 219-279.  Only called with syscalls
    from the table, so that the index is a number. *)
Definition skip_syscall (a : arch) (index number : Z) : bool :=
  match a_class a with
  | KX86 =>
      let abi := a_abi a in
      if str_eqb abi $"x64" && ((512 <=? number) && (number <=? 547)) then true
      else if str_eqb abi $"x32" && ver_geb (a_version a) [5;4] then false
      else if str_eqb abi $"x32" && zin (Z.land number (Z.lnot 1073741824)) bad_x32_numbers then true
      else if str_eqb abi $"ia32" && (negb (a_bits32 a) && zin number [113; 166]) then true
      else if str_eqb abi $"ia32" && (a_bits32 a && zin number [380; 381; 382]) then true
      else false
  | KPowerPC =>
      if a_bits32 a || ver_geb (a_version a) [5;0] then false
      else if str_eqb (a_abi a) $"ppc32" then index mod 2 =? 0
      else index mod 2 =? 1
  | _ => false
  end.

(** arch_base.py 290-295, powerpc.py 270-275 *)
Definition adjust_syscall_number (a : arch) (number : Z) : Z :=
  match a_class a with
  | KPowerPC => if a_bits32 a || ver_geb (a_version a) [5;0] then number else number / 2
  | _ => number
  end.

(** ** Syscall names *)

(** arch_base.py 173-184 *)
Definition base_translate (s : str) : str :=
  noprefix s [$"ptregs_sys_"; $"ptregs_compat_sys_"; $"__se_compat_sys_"; $"__se_sys_"; $"__sys_";
              $"compat_sys_"].
(** arm.py 98-104, powerpc.py 206-207, x86.py 281-298 *)
Definition translate_syscall_symbol_name (a : arch) (s : str) : str :=
  match a_class a with
  | KArm => nosuffix (base_translate s) [$"_wrapper"]
  | KPowerPC => base_translate (noprefix s [$".sys_"; $"."])
  | KX86 => noprefix (base_translate s) [$"stub32_"; $"stub_"]
  | _ => base_translate s
  end.

(** arch_base.py 186-192, arm.py 106-111, arm64.py 67-70, mips.py 116-120,
    powerpc.py 209-210, x86.py 300-302 *)
Definition arch_normalize (a : arch) (name : str) : str :=
  match a_class a with
  | KArm =>
      let name := if str_eqb (a_abi a) $"oabi" then noprefix name [$"oabi_"] else name in
      noprefix name [$"arm_"]
  | KArm64 => noprefix name [$"aarch32_"; $"arm64_"]
  | KMips => noprefix name [$"sysm_"; $"mips_"; $"mipsmt_sys_"]
  | KPowerPC => noprefix name [$"ppc64_"; $"ppc32_"; $"ppc_"]
  | KRiscV => name
  | KX86 => noprefix name [$"ia32_"; $"x86_"; $"x32_"]
  end.

(** arch_base.py 194-245 *)
Definition normalize_syscall_name (a : arch) (name : str) : str :=
  let name := nosuffix name [$"_time32"; $"_time64"] in
  let name := if endswith name $"time32" || endswith name $"time64" then slice_to name (-2) else name in
  let name := noprefix name [$"32_"; $"sys32_"] in
  let name := noprefix name [$"old_"] in
  arch_normalize a name.

(** ** Dummy syscalls *)

Definition bts (l : list Z) : bytes := map chr l.
Definition bytes_in (b : bytes) (l : list bytes) : bool := existsb (str_eqb b) l.

(** x86.py 304-339 *)
Definition x86_dummy (sym : symbol) (e : elf) : outcome (option bytes) :=
  let sz := sym_size sym in
  if (sz <? 6) || (16 <? sz) then Ok None else
  orig <- read_symbol e sym ;;
  let bad_imm := [bts [218; 255; 255; 255]; bts [234; 255; 255; 255]] in
  let endbr := startswith orig (bts [243; 15; 30; 250]) || startswith orig (bts [243; 15; 30; 251]) in
  let code_ := if endbr then slice_from orig 4 else orig in
  let sz := if endbr then sz - 4 else sz in
  let check sz' i b := if sz =? sz' then (c <- index_ code_ i ;; Ok (code c =? b)) else Ok false in
  r32 <- (if str_eqb (slice_to code_ 1) (bts [184]) && bytes_in (slice code_ 1 5) bad_imm then
            a <- check 6 5 195 ;;
            if a : bool then Ok true else
            b <- check 7 5 235 ;;
            if b : bool then Ok true else check 10 5 233
          else Ok false) ;;
  if r32 : bool then Ok (Some orig) else
  r64 <- (if str_eqb (slice_to code_ 3) (bts [72; 199; 192]) && bytes_in (slice code_ 3 7) bad_imm then
            a <- check 8 7 195 ;;
            if a : bool then Ok true else
            b <- check 9 7 235 ;;
            if b : bool then Ok true else check 12 7 233
          else Ok false) ;;
  if r64 : bool then Ok (Some orig) else Ok None.

(** mips.py 122-151 *)
Definition mips_dummy (sym : symbol) (e : elf) : outcome (option bytes) :=
  if negb (sym_size sym =? 8) then Ok None else
  c <- read_symbol e sym ;;
  let imm :=
    if e_big e then
      if startswith c (bts [3; 224; 0; 8; 36; 2]) then Some (sint_of true (slice_from c 6)) else None
    else
      if startswith c (bts [8; 0; 224; 3]) && endswith c (bts [2; 36])
      then Some (sint_of false (slice c 4 6)) else None in
  match imm with
  | Some i => if (i =? -22) || (i =? -89) then Ok (Some c) else Ok None
  | None => Ok None
  end.

(** arm.py 113-128 *)
Definition arm_dummy (sym : symbol) (e : elf) : outcome (option bytes) :=
  if negb (sym_size sym =? 6) then Ok None else
  c <- read_symbol e sym ;;
  if bytes_in c [bts [111; 240; 21; 0; 112; 71]; bts [111; 240; 37; 0; 112; 71]]
  then Ok (Some c) else Ok None.

(** powerpc.py 227-258: the loop.  [None]: early return. *)
Fixpoint ppc_scan (code : list Z) (dec inc : option Z) (insns : list Z)
    : option (option Z * option Z * list Z) :=
  match code with
  | [] => Some (dec, inc, insns)
  | insn :: rest =>
      let hi := Z.shiftr insn 16 in
      if zin insn [2080899750 (* 0x7c0802a6 *); 2080900006 (* 0x7c0803a6 *); 1610612736 (* 0x60000000 *)]
      then ppc_scan rest dec inc insns
      else if Z.shiftr hi 8 =? 75 (* 0x4b *) then ppc_scan rest dec inc insns
      else if zin hi [36865 (* 0x9001 *); 63489 (* 0xf801 *); 59393 (* 0xe801 *); 32769 (* 0x8001 *)]
      then ppc_scan rest dec inc insns
      else if Z.land insn 4294901763 (* 0xffff0003 *) =? 4162912257 (* 0xf8210001 *)
      then ppc_scan rest (Some (65536 - Z.land insn 65532 (* 0xfffc *))) inc insns
      else if zin hi [37921 (* 0x9421 *); 63521 (* 0xf821 *)]
      then ppc_scan rest (Some (65536 - Z.land insn 65535)) inc insns
      else if (hi =? 14369 (* 0x3821 *)) && match dec with Some _ => true | None => false end
      then ppc_scan rest dec (Some (Z.land insn 65535)) insns
      else if 2 <? len insns then None
      else ppc_scan rest dec inc (insns ++ [insn])
  end.
Definition optz_eqb (a b : option Z) : bool :=
  match a, b with Some x, Some y => x =? y | None, None => true | _, _ => false end.
(** powerpc.py 212-268.  ([r1_dec is not None or r1_inc is not None] and different is
    the same as different.) *)
Definition ppc_dummy (sym : symbol) (e : elf) : outcome (option bytes) :=
  if sym_size sym <? 8 then Ok None else
  c <- read_symbol e sym ;;
  words <- iter_unpack_u (e_big e) 4 c ;;
  match ppc_scan words None None [] with
  | None => Ok None
  | Some (dec, inc, insns) =>
      if negb (optz_eqb dec inc) then Ok None
      else if ver_eqb insns [945881050 (* 0x3860ffda *); 1317011488 (* 0x4e800020 *)]
      then Ok (Some c) else Ok None
  end.

(** arch_base.py 247-252 and the overrides above *)
Definition dummy_syscall_code (a : arch) (sym : symbol) (e : elf) : outcome (option bytes) :=
  match a_class a with
  | KX86 => x86_dummy sym e
  | KMips => mips_dummy sym e
  | KArm => arm_dummy sym e
  | KPowerPC => ppc_dummy sym e
  | _ => Ok None
  end.

(** arch_base.py 254-288.  When the code matches, the log call takes [ni_sym.name]. *)
Definition is_dummy_syscall (a : arch) (sym : symbol) (e : elf)
    (ni_sym : option symbol) (ni_code : option bytes) : outcome bool :=
  if match ni_sym with Some n => sym_real sym =? sym_real n | None => false end then Ok true else
  same <- match ni_code with
          | Some c => r <- vaddr_read e (sym_real sym) (len c) ;; Ok (str_eqb r c)
          | None => Ok false
          end ;;
  if same : bool then match ni_sym with Some _ => Ok true | None => Raise AttributeError end else
  c <- dummy_syscall_code a sym e ;;
  Ok match c with Some _ => true | None => false end.

(** ** Esoteric syscalls *)

(** (number, name, symbol name, signature, kconfig) *)
Definition esoteric := (Z * str * str * list str * option str)%type.

(** arm.py 130-152 *)
Definition arm_esoteric (a : arch) (e : elf) : list esoteric :=
  if negb (dmem str_eqb $"arm_syscall" (e_functions e)) then [] else
  let base := a_base a + 983040 (* 0x0f0000 *) in
  [ (base + 1, $"breakpoint", $"arm_syscall", [], None);
    (base + 2, $"cacheflush", $"arm_syscall",
       [$"unsigned long start"; $"unsigned long end"; $"int flags"], None);
    (base + 3, $"usr26", $"arm_syscall", [], None);
    (base + 4, $"usr32", $"arm_syscall", [], None);
    (base + 5, $"set_tls", $"arm_syscall", [$"unsigned long val"], None) ]
  ++ (if ver_geb (a_version a) [4;15] then [(base + 6, $"get_tls", $"arm_syscall", [], None)] else []).

(** [l.index(x, start)] for start >= 0: None is the ValueError *)
Fixpoint index_of (x : Z) (l : list Z) (i : Z) : option Z :=
  match l with
  | [] => None
  | y :: l' => if x =? y then Some i else index_of x l' (i + 1)
  end.
Definition index_from (x : Z) (l : list Z) (start : Z) : option Z :=
  index_of x (slice_from l start) (Z.min start (len l)).

(** powerpc.py 319-344 on the instructions; the result is whether the switch is there *)
Definition ppc_fast_switch (insns : list Z) : bool :=
  match index_of 740302526 (* 0x2c201ebe *) insns 0 with
  | None => false
  | Some idx_cmpdi =>
      match index_ insns (idx_cmpdi + 1) with
      | Ok beq =>
          let idx_mfsrr1 := idx_cmpdi + 1 + Z.land beq 65535 / 4 in
          if (len insns <=? idx_mfsrr1)
             || negb (match index_ insns idx_mfsrr1 with
                      | Ok x => x =? 2107310758 (* 0x7d9b02a6 *) | _ => false end)
          then false
          else if negb (zin (Z.shiftr beq 16)
                 [16834 (* 0x41c2 *); 16866 (* 0x41e2 *); 16770 (* 0x4182 *); 16802 (* 0x41a2 *)])
          then false
          else
            match index_from 1770782721 (* 0x698c0001 *) insns (idx_mfsrr1 + 1) with
            | None => false
            | Some idx_xori =>
                match index_from 2107311014 (* 0x7d9b03a6 *) insns (idx_xori + 1) with
                | None => false
                | Some idx_mtsrr1 =>
                    match index_from 1275068452 (* 0x4c000024 *) insns (idx_mtsrr1 + 1) with
                    | None => false
                    | Some _ => true
                    end
                end
            end
      | _ => false
      end
  end.

(** powerpc.py 277-344 *)
Definition ppc_esoteric (a : arch) (e : elf) : outcome (list esoteric) :=
  if negb (str_eqb (a_abi a) $"ppc64") || ver_geb (a_version a) [6;12] then Ok [] else
  match dget str_eqb $"exc_real_0xc00_system_call" (e_symbols e) with
  | None => Ok []
  | Some exc =>
      let boundary := match next_symbol e exc with
                      | Some s => sym_vaddr s
                      | None => sym_vaddr exc + 128
                      end in
      c <- vaddr_read e (sym_vaddr exc) (boundary - sym_vaddr exc) ;;
      insns <- iter_unpack_u (e_big e) 4 c ;;
      let kconf := if ver_geb (a_version a) [4;15] then Some $"PPC_FAST_ENDIAN_SWITCH" else None in
      Ok (if ppc_fast_switch insns
          then [(7870 (* 0x1ebe *), $"switch_endian", sym_name exc, [], kconf)] else [])
  end.

(** arch_base.py 305-316 and the overrides above *)
Definition extract_esoteric_syscalls (a : arch) (e : elf) : outcome (list esoteric) :=
  match a_class a with
  | KArm => Ok (arm_esoteric a e)
  | KPowerPC => ppc_esoteric a e
  | _ => Ok []
  end.

(** ** Executions: what a process does with the classes of arch/.  It creates instances
    (arch/__init__.py 17-46, __main__.py, kernel.py 126) and asks for the Kconfig options of
    those it has (kernel.py 733-765). *)
Inductive act :=
| New (k : klass) (v : version) (abi : str) (bits32 : bool)
| Ask (i : nat) (v : version).     (* [objs[i].kconfig[v]] *)
Record process := Process { p_world : world; p_objs : list arch }.
Definition process0 : process := Process world0 [].
Definition act_step (p : process) (x : act) : process :=
  match x with
  | New k v abi b =>
      match instantiate k v abi b (p_world p) with
      | Ok (a, w) => Process w (p_objs p ++ [a])
      | _ => p
      end
  | Ask i v =>
      match nth_error (p_objs p) i with
      | Some a => Process (snd (arch_kconfig a v (p_world p))) (p_objs p)
      | None => p
      end
  end.
Definition run_process (h : list act) : process := fold_left act_step h process0.
