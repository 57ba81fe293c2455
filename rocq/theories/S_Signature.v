(** Specifications for the properties of signature.py (C48-C52), stated without the functions of
    the model. *)
From Coq Require Import List Bool Ascii String ZArith.
From Verif Require Import PyBase M_Utils M_Elf M_Syscall S_Elf S_Dummy PyFacts.
Import ListNotations.
Open Scope Z_scope.
Open Scope list_scope.

Definition STAR : ascii := "*"%char.
Definition COMMA : ascii := ","%char.

(** ** Source text of parameters *)

(** Blanks between two words, maybe with __user annotations among them (each after a space). *)
Inductive gap : str -> Prop :=
| gap_one c : is_space c = true -> gap [c]
| gap_more c g : is_space c = true -> gap g -> gap (c :: g)
| gap_user g : gap g -> gap ($" __user" ++ g).

(** Nothing here continues a word. *)
Definition word_ends (t : str) : Prop := match t with [] => True | c :: _ => is_word c = false end.

(** [spelled s t]: in the source, the tidy text [s] may be written [t]: with any blanks instead of
    one, with __user annotations added, with blanks inside a double pointer. *)
Inductive spelled : str -> str -> Prop :=
| sp_nil : spelled [] []
| sp_char c s t : is_space c = false -> spelled s t -> spelled (c :: s) (c :: t)
| sp_blank g s t : gap g -> spelled s t -> spelled (SP :: s) (g ++ t)
| sp_user s t : word_ends t -> spelled s t -> spelled s ($" __user" ++ t)
| sp_stars g s t : gap g -> spelled s t -> spelled (STAR :: STAR :: s) (STAR :: g ++ STAR :: t).

(** A tidy field: words separated by one space, no comma, no __user, no "* *". *)
Definition no_double_blank (f : str) : Prop := forall a b, f <> a ++ SP :: SP :: b.
Definition tidy (f : str) : Prop :=
  f <> [] /\ (forall c, In c f -> is_space c = true -> c = SP) /\ no_double_blank f /\
  (forall x, f <> SP :: x) /\ (forall x, f <> x ++ [SP]) /\
  ~ In COMMA f /\ (forall a b, SP :: f <> a ++ $" __user" ++ b) /\ (forall a b, f <> a ++ $"* *" ++ b).
Definition no_parens (f : str) : Prop := ~ In "("%char f /\ ~ In ")"%char f.

(** Fields separated by commas, with at most one space on each side. *)
Definition pad (s : str) : Prop := s = [] \/ s = [SP].
Inductive listed : list str -> str -> Prop :=
| listed_one f a b : pad a -> pad b -> listed [f] (a ++ f ++ b)
| listed_cons f fs a b w : pad a -> pad b -> listed fs w -> listed (f :: fs) (a ++ f ++ b ++ COMMA :: w).

(** ** Macros *)

Definition wide_macros : list str := [$"SC_ARG64"; $"arg_u32p"; $"compat_arg_u64_dual"; $"compat_arg_u64"].
Inductive item := Word (s : str) | Wide (m arg : str).
Definition item_text (i : item) : str :=
  match i with Word s => s | Wide m a => m ++ $"(" ++ a ++ $")" end.
Definition item_ok (i : item) : Prop :=
  match i with
  | Word s => tidy s /\ no_parens s
  | Wide m a => In m wide_macros /\ tidy (m ++ $"(" ++ a ++ $")") /\ no_parens a
  end.
(** The halves in memory order. *)
Definition halves (big : bool) (a : str) : list str :=
  if big then [a ++ $"_hi"; a ++ $"_lo"] else [a ++ $"_lo"; a ++ $"_hi"].
Definition expansion (big : bool) (i : item) : list str :=
  match i with Word s => [s] | Wide _ a => flat_map (fun h => [$"u32"; h]) (halves big a) end.

(** ** Definitions *)

Inductive param := Param (ty name : str) | Param64 (macro name : str).
Definition param_items (p : param) : list item :=
  match p with Param t n => [Word t; Word n] | Param64 m n => [Wide m n] end.
Definition param_count (p : param) : Z := match p with Param _ _ => 1 | Param64 _ _ => 2 end.
Definition total (ps : list param) : Z := fold_right Z.add 0 (map param_count ps).
(** How C declares it. *)
Definition declare (t n : str) : str :=
  match last_char t with Some "*"%char => t ++ n | _ => t ++ $" " ++ n end.
Definition declared (big : bool) (p : param) : list str :=
  match p with Param t n => [declare t n] | Param64 _ a => map (declare $"u32") (halves big a) end.

Definition blanks (s : str) : Prop := forallb is_space s = true.
Definition ident (s : str) : Prop := some_of is_word s.
Definition define_macros : list str :=
  [$"SYSCALL_DEFINE"; $"SYSCALL32_DEFINE"; $"COMPAT_SYSCALL_DEFINE"; $"COMPAT_SYSCALL32_DEFINE";
   $"PPC32_SYSCALL_DEFINE"].
(** MACROn(name, type1, name1, ...) *)
Definition define_text (m : str) (name : str) (ps : list param) (text : str) : Prop :=
  In m define_macros /\ ident name /\ exists w1 w2 w3, blanks w1 /\ blanks w2 /\ blanks w3 /\
  match ps with
  | [] => text = m ++ $"0" ++ w1 ++ $"(" ++ w2 ++ name ++ w3 ++ $")"
  | _ => exists w args, text = m ++ chr (48 + total ps) :: w1 ++ $"(" ++ w2 ++ name ++ w3 ++ COMMA :: args ++ $")" /\
           listed (map item_text (flat_map param_items ps)) w /\ spelled w args
  end.
(** No blanks around. *)
Definition trimmed (s : str) : Prop :=
  (forall c x, s = c :: x -> is_space c = false) /\ (forall c x, s = x ++ [c] -> is_space c = false).
(** asmlinkage TYPE NAME(type1 name1, ...) *)
Definition asmlinkage_text (head : str) (ps : list str) (text : str) : Prop :=
  ~ In "("%char head /\
  match ps with
  | [] => exists w1 w2 v, blanks w1 /\ blanks w2 /\ (v = [] \/ v = $"void") /\
            text = $"asmlinkage" ++ head ++ $"(" ++ w1 ++ v ++ w2 ++ $")"
  | _ => exists w1 w2 w args, blanks w1 /\ blanks w2 /\ trimmed args /\
           text = $"asmlinkage" ++ head ++ $"(" ++ w1 ++ args ++ w2 ++ $")" /\ listed ps w /\ spelled w args
  end.

(** ** Layout over lines (without their newlines) *)

Inductive broken : str -> list str -> Prop :=      (* lines end with a comma, the last one with ")" *)
| broken_last b i t : blanks i -> blanks t -> (forall c x, b = c :: x -> is_space c = false) ->
    broken (b ++ $")") [i ++ b ++ $")" ++ t]
| broken_more b i t text ls : blanks i -> blanks t -> (forall c x, b = c :: x -> is_space c = false) ->
    broken text ls -> broken (b ++ COMMA :: text) ((i ++ b ++ COMMA :: t) :: ls).
Definition one_line (l : str) : Prop := ~ In NL l /\ ~ In CR l.

(** ** Metadata in memory *)

Record meta_rec := MetaRec { mr_name : str; mr_params : list (str * str) }.
Definition psize (e : elf) : Z := if e_bits32 e then 4 else 8.
Definition pointer (e : elf) (p : Z) : bytes := enc_uint (e_big e) (Z.to_nat (psize e)) p.
Definition is_pointer (e : elf) (p : Z) : Prop := 0 <= p < 256 ^ psize e.
(** A C string at [p]. *)
Definition cstring_at (e : elf) (p : Z) (s : str) : Prop :=
  is_pointer e p /\ ~ In (chr 0) s /\ image_has e p (s ++ [chr 0]).
(** struct syscall_metadata at [p]: name, syscall_nr (4 bytes), nb_args, types, args. *)
Definition meta_at (e : elf) (p : Z) (r : meta_rec) : Prop :=
  exists name nr types args,
    cstring_at e name (mr_name r) /\ List.length nr = 4%nat /\
    is_pointer e types /\ is_pointer e args /\
    (mr_params r <> [] -> types <> 0 /\ args <> 0) /\
    len (mr_params r) < 2 ^ 31 /\
    image_has e p (pointer e name ++ nr ++ enc_uint (e_big e) 4 (len (mr_params r)) ++ pointer e types ++ pointer e args) /\
    forall i ty nm, nth_error (mr_params r) i = Some (ty, nm) -> exists tp np,
      image_has e (types + Z.of_nat i * psize e) (pointer e tp) /\ cstring_at e tp ty /\
      image_has e (args + Z.of_nat i * psize e) (pointer e np) /\ cstring_at e np nm.
(** The table between the two symbols. *)
Definition metadata (e : elf) (rs : list meta_rec) : Prop :=
  exists start stop ps,
    dget str_eqb $"__start_syscalls_metadata" (e_symbols e) = Some start /\
    dget str_eqb $"__stop_syscalls_metadata" (e_symbols e) = Some stop /\
    sym_real stop = sym_real start + psize e * len ps /\
    image_has e (sym_real start) (List.concat (map (pointer e) ps)) /\
    Forall (is_pointer e) ps /\ Forall2 (meta_at e) ps rs /\
    forall o, dget str_eqb $"__syscall_meta__open" (e_symbols e) = Some o ->
      sym_size o = 0 \/ 8 + 3 * psize e <= sym_size o.
(** Double pointers in the strings may be written with blanks. *)
Inductive squeezed : str -> str -> Prop :=         (* "* *" in the first, "**" in the second *)
| sq_nil : squeezed [] []
| sq_pair s t : squeezed s t -> squeezed ($"* *" ++ s) ($"**" ++ t)
| sq_char c s t : (forall x, c :: s <> $"* *" ++ x) -> squeezed s t -> squeezed (c :: s) (c :: t).
Definition meta_name (r : meta_rec) (n : str) : Prop :=
  mr_name r = $"sys_" ++ n \/ (mr_name r = n /\ forall x, n <> $"sys_" ++ x).
Definition meta_sig (r : meta_rec) (sig : list str) : Prop :=
  Forall2 (fun p d => exists t, squeezed (fst p) t /\ d = declare t (snd p)) (mr_params r) sig.
(** The last record of that name. *)
Definition recorded (rs : list meta_rec) (n : str) (sig : list str) : Prop :=
  exists pre r post, rs = pre ++ r :: post /\ meta_name r n /\ meta_sig r sig /\
    forall r', In r' post -> ~ meta_name r' n.

(** ** Choice of the source *)

Definition same_but_signature (s s' : syscall) : Prop :=
  s' = Syscall (sc_index s) (sc_number s) (sc_name s) (sc_origname s) (sc_symbol s) (sc_kconfig s) (sc_file s)
               (sc_line s) (sc_signature s') (sc_esoteric s) (sc_good s) (sc_grepped s).

(** ** Termination *)

(** Seen without its trailing blanks the line ends with ")". *)
Definition closes (l : str) : Prop := exists p t, blanks t /\ l = p ++ ")"%char :: t.

(** What the kernel's macros put in the records: no blanks around, types not empty. *)
Definition clean_rec (r : meta_rec) : Prop :=
  trimmed (mr_name r) /\
  Forall (fun p => trimmed (fst p) /\ fst p <> [] /\ trimmed (snd p)) (mr_params r).

(** Where the signature of a syscall has to come from: [source f l sig] is what the source says at
    that place, [known n sig] what the metadata says about a name. *)
Inductive chosen (source : path -> Z -> option (list str) -> Prop) (known : str -> list str -> Prop) (s : syscall)
    : option (list str) -> Prop :=
| from_nowhere : sc_esoteric s = true -> chosen source known s (sc_signature s)
| from_source f l sig : sc_esoteric s = false -> sc_good s = true -> sc_file s = Some f -> sc_line s = Some l ->
    source f l sig -> chosen source known s sig
| from_original sig : sc_esoteric s = false -> sc_good s = false -> known (sc_origname s) sig ->
    chosen source known s (Some sig)
| from_name sig : sc_esoteric s = false -> sc_good s = false -> (forall g, ~ known (sc_origname s) g) ->
    known (sc_name s) sig -> chosen source known s (Some sig)
| unknown : sc_esoteric s = false -> sc_good s = false -> (forall g, ~ known (sc_origname s) g) ->
    (forall g, ~ known (sc_name s) g) -> chosen source known s (sc_signature s).
