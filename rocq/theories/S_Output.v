(** Specifications for the output (C71, C72, C79), stated on the data of the syscalls. *)
From Coq Require Import List Bool Ascii String ZArith.
From Verif Require Import PyBase M_Utils M_Elf M_Syscall M_Arch M_Config M_Output.
Import ListNotations.
Open Scope Z_scope.
Open Scope list_scope.

(** ** Text (C71) *)

Definition blanks (n : nat) : str := repeat " "%char n.

(** A line with one cell per column, every cell at the beginning of its column; [ws] are the
    widths of the columns, which are two blanks apart. *)
Inductive padded : list Z -> list str -> str -> Prop :=
| pd_last w c n : w = len c + Z.of_nat n -> padded [w] [c] (c ++ blanks n)
| pd_cell w c n ws cs line : w = len c + Z.of_nat n -> padded ws cs line ->
    padded (w :: ws) (c :: cs) (c ++ blanks n ++ blanks 2 ++ line).
(** The offset of a column *)
Fixpoint offset (ws : list Z) (i : nat) : Z :=
  match i, ws with
  | S i', w :: ws' => w + 2 + offset ws' i'
  | _, _ => 0
  end.

Definition decimal (z : Z) (s : str) : Prop :=
  0 <= z /\ s <> [] /\ Forall (fun c => is_dec c = true) s /\ int_dec s = z.
Inductive index_cell : option Z -> str -> Prop :=
| ic_none : index_cell None $"-  "
| ic_some i d n : decimal i d -> len d + Z.of_nat n = Z.max 3 (len d) -> index_cell (Some i) (blanks n ++ d).
Definition number_cell (z : Z) (s : str) : Prop :=
  exists d, s = $"0x" ++ d /\ d <> [] /\ Forall (fun c => is_hex c = true) d /\ int_hex d = z.
(** A location that may be wrong is marked; a line 0 means no line. *)
Inductive place : option path -> option Z -> str -> Prop :=
| pl_none l : place None l []
| pl_file f l : l = None \/ l = Some 0 -> place (Some f) l (str_of_path f)
| pl_line f l d : decimal l d -> 0 < l -> place (Some f) (Some l) (str_of_path f ++ ":"%char :: d).
Inductive place_cell : option path -> option Z -> bool -> str -> Prop :=
| pc_none l g : place_cell None l g []
| pc_good f l p : place (Some f) l p -> place_cell (Some f) l true p
| pc_bad f l p : place (Some f) l p -> place_cell (Some f) l false ($"(?) " ++ p).
Inductive kconfig_cell : option str -> str -> Prop :=
| kc_none : kconfig_cell None []
| kc_option o : ~ (exists a b, o = a ++ $"CONFIG_" ++ b) -> kconfig_cell (Some ($"CONFIG_" ++ o)) o
| kc_bare o : ~ (exists a b, o = a ++ $"CONFIG_" ++ b) -> kconfig_cell (Some o) o.
Inductive commas : list str -> str -> Prop :=
| co_one a : commas [a] a
| co_more a l s : commas l s -> commas (a :: l) (a ++ $", " ++ s).
Inductive signature_cell : option (list str) -> str -> Prop :=
| si_unknown : signature_cell None $"?"
| si_void : signature_cell (Some []) $"void"
| si_args l s : commas l s -> signature_cell (Some l) s.

Definition titles : list str :=
  [$"INDEX"; $"NUMBER"; $"NAME"; $"ORIG NAME"; $"SYMBOL"; $"LOCATION"; $"KCONFIG"; $"SIGNATURE"].
Inductive row_for (s : syscall) : list str -> Prop :=
| rf i n o p k g : index_cell (sc_index s) i -> number_cell (sc_number s) n ->
    ((sc_origname s = sc_name s /\ o = []) \/ (sc_origname s <> sc_name s /\ o = sc_origname s)) ->
    place_cell (sc_file s) (sc_line s) (sc_good s) p -> kconfig_cell (sc_kconfig s) k ->
    signature_cell (sc_signature s) g ->
    row_for s [i; n; sc_name s; o; sym_name (sc_symbol s); p; k; g].

(** One line per syscall, in order; a blank line before a syscall whose number does not follow
    the previous one. *)
Inductive prints (ws : list Z) : Z -> list syscall -> list str -> Prop :=
| pr_nil prev : prints ws prev [] []
| pr_next prev s scs cells line rest : sc_number s - prev <= 1 -> row_for s cells -> padded ws cells line ->
    prints ws (sc_number s) scs rest -> prints ws prev (s :: scs) (line :: rest)
| pr_gap prev s scs cells line rest : sc_number s - prev > 1 -> row_for s cells -> padded ws cells line ->
    prints ws (sc_number s) scs rest -> prints ws prev (s :: scs) ([] :: line :: rest).

(** Syscalls that can be printed: what extraction gives (C89).  The string of a Path is never empty. *)
Record printable (s : syscall) : Prop := {
  pt_index : forall i, sc_index s = Some i -> 0 <= i;
  pt_number : 0 <= sc_number s;
  pt_file : forall f, sc_file s = Some f -> str_of_path f <> [];
  pt_line : forall l, sc_line s = Some l -> 0 <= l;
  pt_kconfig : sc_kconfig s = None \/
    exists o, (sc_kconfig s = Some ($"CONFIG_" ++ o) \/ sc_kconfig s = Some o) /\ ~ (exists a b, o = a ++ $"CONFIG_" ++ b)
}.

(** ** JSON (C72) *)

Definition or_null {A} (f : A -> json) (x : option A) (j : json) : Prop :=
  match x with None => j = JNull | Some a => j = f a end.
(** The object of a syscall, as documented. *)
Definition object_of (s : syscall) (d : list (str * json)) : Prop :=
  map fst d = [$"index"; $"number"; $"name"; $"origname"; $"symbol"; $"file"; $"line"; $"signature";
               $"esoteric"; $"good_location"; $"grepped_location"; $"kconfig"] /\
  (forall j, In ($"index", j) d -> or_null JInt (sc_index s) j) /\
  (forall j, In ($"number", j) d -> j = JInt (sc_number s)) /\
  (forall j, In ($"name", j) d -> j = JStr (sc_name s)) /\
  (forall j, In ($"origname", j) d -> j = JStr (sc_origname s)) /\
  (forall j, In ($"symbol", j) d -> j = JStr (sym_name (sc_symbol s))) /\
  (forall j, In ($"file", j) d -> or_null (fun p => JStr (str_of_path p)) (sc_file s) j) /\
  (forall j, In ($"line", j) d -> or_null JInt (sc_line s) j) /\
  (forall j, In ($"signature", j) d -> or_null (fun l => JList (map JStr l)) (sc_signature s) j) /\
  (forall j, In ($"esoteric", j) d -> j = JBool (sc_esoteric s)) /\
  (forall j, In ($"good_location", j) d -> j = JBool (sc_good s)) /\
  (forall j, In ($"grepped_location", j) d -> j = JBool (sc_grepped s)) /\
  (forall j, In ($"kconfig", j) d ->
     (sc_kconfig s = None /\ j = JNull) \/
     (exists o, sc_kconfig s = Some ($"CONFIG_" ++ o) /\ j = JStr o) \/
     (exists o, sc_kconfig s = Some o /\ ~ (exists o', o = $"CONFIG_" ++ o') /\ j = JStr o)).

(** A value inside a document *)
Inductive at_key : list str -> json -> json -> Prop :=
| ak_here j : at_key [] j j
| ak_in k ks d j j' : In (k, j) d -> (forall j2, In (k, j2) d -> j2 = j) -> at_key ks j j' -> at_key (k :: ks) (JObj d) j'.
(** Every path to a value that is not an object *)
Inductive leaf : list str -> json -> Prop :=
| lf_here j : (forall d, j <> JObj d) -> leaf [] j
| lf_in k ks d j : In (k, j) d -> leaf ks j -> leaf (k :: ks) (JObj d).

(** ** HTML (C79) *)

Definition sum (l : list Z) : Z := fold_right Z.add 0 l.

(** ** The document (C72) *)

Definition K (l : list string) : list str := map list_ascii_of_string l.
Local Open Scope string_scope.
(** The name under which Linux knows an architecture *)
Definition linux_name (k : klass) : string :=
  match k with KArm => "arm" | KArm64 => "arm64" | KMips => "mips" | KPowerPC => "powerpc" | KRiscV => "riscv" | KX86 => "x86" end.
(** The documented places of a document, and what they hold. *)
Inductive documented (sv t source : str) (a : arch) (objects : list json) : list str -> json -> Prop :=
| do_sv : documented sv t source a objects (K ["systrack_version"]) (JStr sv)
| do_version : documented sv t source a objects (K ["kernel"; "version"]) (JStr t)
| do_source : documented sv t source a objects (K ["kernel"; "version_source"]) (JStr source)
| do_arch : documented sv t source a objects (K ["kernel"; "architecture"; "name"]) (JStr $(linux_name (a_class a)))
| do_bits : documented sv t source a objects (K ["kernel"; "architecture"; "bits"]) (JInt (if a_bits32 a then 32 else 64))
| do_abi : documented sv t source a objects (K ["kernel"; "abi"; "name"]) (JStr (a_abi a))
| do_compat : documented sv t source a objects (K ["kernel"; "abi"; "compat"]) (JBool (a_compat a))
| do_abi_bits : documented sv t source a objects (K ["kernel"; "abi"; "bits"]) (JInt (if a_abi_bits32 a then 32 else 64))
| do_nr j : or_null JStr (a_num_reg a) j ->
    documented sv t source a objects (K ["kernel"; "abi"; "calling_convention"; "syscall_nr"]) j
| do_args : documented sv t source a objects (K ["kernel"; "abi"; "calling_convention"; "parameters"])
    (JList (map JStr (a_arg_regs a)))
| do_table j : or_null JStr (a_table a) j -> documented sv t source a objects (K ["kernel"; "syscall_table_symbol"]) j
| do_syscalls : documented sv t source a objects (K ["syscalls"]) (JList objects).
