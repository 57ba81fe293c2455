(** Specifications for the command line (C46, C69, C70, C80, C81), in terms of what is done. *)
From Coq Require Import List Bool Ascii String ZArith.
From Verif Require Import PyBase M_Utils M_Elf M_Syscall M_Arch M_Kernel M_Output M_Main S_Utils S_Output S_Arch.
Import ListNotations.
Open Scope Z_scope.
Open Scope list_scope.

Definition is_said (x : action) : Prop := exists l, x = Said l.
(** The deeds are what is done apart from messages. *)
Inductive deeds : list action -> list action -> Prop :=
| de_nil : deeds [] []
| de_said s l d : deeds l d -> deeds (Said s :: l) d
| de_deed x l d : ~ is_said x -> deeds l d -> deeds (x :: l) (x :: d).

(** ** Arguments *)

(** A string argument that is given, and not empty. *)
Definition present (x : option str) : Prop := exists s, x = Some s /\ s <> [].
Definition kdir_of (g : args) (k : path) : Prop := exists s, g_kdir g = Some s /\ s <> [] /\ k = path_of_str s.
Definition preparing (g : args) : Prop := g_clean g = true \/ g_config g = true \/ g_build g = true.
(** Two letters that differ in case only, in ASCII. *)
Definition same_letter (c d : ascii) : Prop :=
  c = d \/ (65 <= code c <= 90 /\ code d = code c + 32) \/ (65 <= code d <= 90 /\ code c = code d + 32).
Definition named (n : str) (d : doc_arch) : Prop := In d documented /\ exists m, In m (d_names d) /\ Forall2 same_letter n m.
Definition known_arch (n : str) : Prop := exists d, named n d.
Definition asks_help (n : str) : Prop := Forall2 same_letter n $"help" \/ n = $"?".

(** The command line lacks something. *)
Inductive misuse (g : args) : Prop :=
| mu_nothing : ~ present (g_kdir g) -> ~ present (g_vmlinux g) -> misuse g
| mu_no_kdir : ~ present (g_kdir g) -> present (g_checkout g) \/ g_config g = true \/ g_build g = true -> misuse g
| mu_no_arch : g_arch g = None -> g_config g = true \/ g_build g = true -> misuse g.

(** ** What may be done *)

(** An architecture object for what was asked for, and for a version that make told *)
Definition made_for (m : machine) (g : args) (a : arch) : Prop :=
  (exists n d, g_arch g = Some n /\ named n d /\ a_class a = d_class d /\ a_abi a = d_abi d /\
     a_bits32 a = d_kernel32 d /\ since (d_since d) (a_version a)) /\
  exists h, mc_make_version m h = Ok (Some (a_version a)).
Definition allowed (m : machine) (g : args) (x : action) : Prop :=
  match x with
  | Said _ => ~ (0 < g_quiet g /\ g_verbose g <= 0)
  | CheckedOut d ref => (exists k, kdir_of g k /\ d = Some k) /\ present (g_checkout g) /\
      (g_checkout g <> Some $"auto" -> g_checkout g = Some ref)
  | MadeDir p => (exists s, g_out g = Some s /\ s <> [] /\ p = path_of_str s) /\ preparing g
  | Cleaned d a => (exists k, kdir_of g k /\ d = Some k) /\ preparing g /\ made_for m g a
  | Configured d a => (exists k, kdir_of g k /\ d = Some k) /\ (g_config g = true \/ g_build g = true) /\ made_for m g a
  | Built d a o => (exists k, kdir_of g k /\ d = Some k) /\ g_build g = true /\ o = g_disable_opt g /\ made_for m g a
  | Printed _ => ~ preparing g
  end.

(** ** Preparing *)

Definition explicit_checkout (g : args) (k : option path) : list action :=
  match g_checkout g with
  | Some ref => if (len ref =? 0) || str_eqb ref $"auto" then [] else [CheckedOut k ref]
  | None => []
  end.
(** The deeds of a run that prepares sources and ends well *)
Definition preparation (g : args) (k : path) (a : arch) : list action :=
  explicit_checkout g (Some k) ++
  match g_out g with Some s => if len s =? 0 then [] else [MadeDir (path_of_str s)] | None => [] end ++
  [Cleaned (Some k) a] ++
  (if g_config g || g_build g then [Configured (Some k) a] else []) ++
  (if g_build g then [Built (Some k) a (g_disable_opt g)] else []).

(** ** Analysing *)

Inductive image_of (g : args) : path -> Prop :=
| im_given s : g_vmlinux g = Some s -> s <> [] -> image_of g (path_of_str s)
| im_kdir k : ~ present (g_vmlinux g) -> kdir_of g k -> image_of g (Path (root k) (parts k ++ [$"vmlinux"])).

(** How the place of a syscall is shown *)
Inductive shown_file (g : args) : option path -> option path -> Prop :=
| sf_none : shown_file g None None
| sf_asis f : g_absolute g = true \/ ~ present (g_kdir g) -> shown_file g (Some f) (Some f)
| sf_under k t : g_absolute g = false -> kdir_of g k -> shown_file g (Some (Path (root k) (parts k ++ t))) (Some (Path [] t))
| sf_outside k f : g_absolute g = false -> kdir_of g k -> (forall t, f <> Path (root k) (parts k ++ t)) -> shown_file g (Some f) (Some f).
Record shown_as (g : args) (s s' : syscall) : Prop := {
  sh_file : shown_file g (sc_file s) (sc_file s');
  sh_rest : sc_index s' = sc_index s /\ sc_number s' = sc_number s /\ sc_name s' = sc_name s /\
    sc_origname s' = sc_origname s /\ sc_symbol s' = sc_symbol s /\ sc_kconfig s' = sc_kconfig s /\
    sc_line s' = sc_line s /\ sc_signature s' = sc_signature s /\ sc_esoteric s' = sc_esoteric s /\
    sc_good s' = sc_good s /\ sc_grepped s' = sc_grepped s }.

Inductive counted {A} (P : A -> Prop) : list A -> Z -> Prop :=
| ct_nil : counted P [] 0
| ct_yes a l n : P a -> counted P l n -> counted P (a :: l) (n + 1)
| ct_no a l n : ~ P a -> counted P l n -> counted P (a :: l) n.
(** A line about some number of syscalls, left out if there are none; [s] marks the plural. *)
Inductive tally (before after rest : str) : Z -> list str -> Prop :=
| ty_none : tally before after rest 0 []
| ty_one d : decimal 1 d -> tally before after rest 1 [before ++ d ++ after ++ rest]
| ty_more n d : 1 < n -> decimal n d -> tally before after rest n [before ++ d ++ after ++ $"s" ++ rest].
(** What is said before the result *)
Inductive report (g : args) (scs : list syscall) : list str -> Prop :=
| rp d n1 n2 n3 l1 l2 l3 :
    decimal (len scs) d ->
    counted (fun s => sc_grepped s = true) scs n1 -> tally $"Found " $" definition location" $" through grepping" n1 l1 ->
    counted (fun s => sc_file s = None) scs n2 -> tally $"Could not find definition location for " $" syscall" [] n2 l2 ->
    counted (fun s => present (g_kdir g) /\ sc_signature s = None) scs n3 ->
    tally $"Could not extract signature for " $" syscall" [] n3 l3 ->
    report g scs ([$"Found " ++ d ++ $" implemented syscalls"] ++ l1 ++ l2 ++ l3 ++ [[]]).
(** Nothing is said if silent. *)
Inductive says (g : args) : list str -> list action -> Prop :=
| sy_silent l : 0 < g_quiet g -> g_verbose g <= 0 -> says g l []
| sy_loud l : ~ (0 < g_quiet g /\ g_verbose g <= 0) -> says g l (map Said l).

(** What was checked out before extraction *)
Inductive checked (g : args) (v : version) : list action -> Prop :=
| ck_none : ~ present (g_checkout g) -> checked g v []
| ck_ref k ref : g_checkout g = Some ref -> ref <> [] -> ref <> $"auto" -> kdir_of g k -> checked g v [CheckedOut (Some k) ref]
| ck_auto k tag : g_checkout g = Some $"auto" -> kdir_of g k -> version_tag v = Ok tag -> checked g v [CheckedOut (Some k) tag].

(** ** How it ends *)

(** With a status *)
Definition ends {A} (r : outcome A) : Prop := (exists a, r = Ok a) \/ (exists c, r = Exit c).
(** Nothing outside of main fails with an exception. *)
Record steady (m : machine) : Prop := {
  st_checkout h ref : ends (mc_checkout m h ref);
  st_gcc h c : ends (mc_gcc_version m h c);
  st_elf h p : ends (mc_elf m h p);
  st_make h : ends (mc_make_version m h);
  st_clean h a : ends (mc_clean m h a);
  st_configure h a : ends (mc_configure m h a);
  st_build h a o : ends (mc_build m h a o);
  st_syscalls h a e v : ends (mc_syscalls m h a e v)
}.
(** The exceptions that escape when preparing sources *)
Inductive escapes_preparing (m : machine) (g : args) (h : list action) : exn -> Prop :=
| ep_lacking : g_arch g = None \/ ~ present (g_kdir g) -> escapes_preparing m g h ValueError
| ep_too_old n d v h0 : g_arch g = Some n -> named n d -> mc_make_version m h0 = Ok (Some v) -> before (d_since d) v ->
    escapes_preparing m g h AssertionError
| ep_version h0 k a l : deeds h l -> In (Cleaned k a) l -> mc_make_version m h0 = Ok None ->
    escapes_preparing m g h KernelVersionError.
(** The exceptions that escape when analysing an image: those of opening it, and ValueError where
    a version without three components is to be printed as a tag, and for HTML without signatures *)
Definition kernel_error (x : exn) : Prop :=
  x = KernelVersionError \/ x = KernelArchError \/ x = KernelWithoutSymbolsError \/ x = KernelMultiABIError.
Inductive escapes_analysing (m : machine) (g : args) : exn -> Prop :=
| ea_open h p e x n : image_of g p -> mc_elf m h p = Ok e ->
    n = option_map lower (g_arch g) ->
    kernel_init n (Some e) (match g_kdir g with Some (_ :: _) => true | _ => false end)
      (match version_from_vmlinux e with Ok (Some v) => Ok v | Ok None => Raise KernelVersionError
                                       | Raise y => Raise y | Exit c => Exit c | Diverge => Diverge end) = Raise x ->
    ~ kernel_error x -> escapes_analysing m g x
| ea_tag h p e v : image_of g p -> mc_elf m h p = Ok e -> version_from_vmlinux e = Ok (Some v) -> List.length v <> 3%nat ->
    g_checkout g = Some $"auto" \/ g_format g = $"json" \/ g_format g = $"html" -> escapes_analysing m g ValueError
| ea_html h a e v scs : g_format g = $"html" -> mc_syscalls m h a e v = Ok scs ->
    (forall s, In s scs -> sc_signature s = None) -> escapes_analysing m g ValueError.
