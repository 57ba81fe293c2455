(** The output of a result (C71, C72, C79). *)
From Coq Require Import List Bool Ascii String ZArith Lia.
From Verif Require Import PyBase PyFacts M_Utils M_Elf M_Syscall M_Arch M_Kernel M_Config M_Output L_Utils S_Output L_Output.
Import ListNotations.
Open Scope Z_scope.
Open Scope list_scope.

Definition ex_sym (n : str) : symbol := Symbol 4096 4096 64 $"FUNC" n.
Definition ex_sc (i n : Z) (name sym : str) (file : option path) (line : option Z) (k : option str) (sig : option (list str)) (good : bool) : syscall :=
  Syscall (Some i) n name name (ex_sym sym) k file line sig false good false.
Definition ex_read : syscall :=
  ex_sc 0 0 $"read" $"sys_read" (Some (path_of_str $"fs/read_write.c")) (Some 613) None
    (Some [$"unsigned int fd"; $"char *buf"; $"size_t count"]) true.
Definition ex_fork : syscall := ex_sc 57 57 $"fork" $"sys_fork" None None None (Some []) false.
Definition ex_bpf : syscall :=
  ex_sc 321 321 $"bpf" $"sys_bpf" (Some (path_of_str $"kernel/bpf/syscall.c")) (Some 0) (Some $"CONFIG_BPF_SYSCALL") None false.

(** ** C71 *)

(** A heading and one row per syscall, in order, with a blank line exactly where numbers are
    skipped; all rows have the same columns; no column is wider than needed. *)
Theorem C71_table s0 scs : Forall printable (s0 :: scs) ->
  exists ws head rest, output_syscalls_text (s0 :: scs) = Ok (head :: rest) /\
    padded ws titles head /\ prints ws (sc_number s0) (s0 :: scs) rest /\
    forall i w, nth_error ws i = Some w ->
      exists cells, (cells = titles \/ exists s, In s (s0 :: scs) /\ row_for s cells) /\ len (nth i cells []) = w.
Proof. exact (text_layout s0 scs). Qed.
Print Assumptions C71_table.
(** So a cell starts at an offset that depends on its column only. *)
Theorem C71_aligned ws cells line i c : padded ws cells line -> nth_error cells i = Some c ->
  exists a b, line = a ++ c ++ b /\ len a = offset ws i.
Proof. exact (padded_at ws cells line i c). Qed.
Print Assumptions C71_aligned.
Lemma ex_printable : Forall printable [ex_read; ex_fork; ex_bpf].
Proof.
  repeat apply Forall_cons; [| | |constructor]; constructor; try (intros ? [= <-]; discriminate); try discriminate; try (now left).
  right. exists $"BPF_SYSCALL". split; [now left|]. intros (a & b & E).
  assert (contains $"BPF_SYSCALL" $"CONFIG_" = true) as C by (rewrite E; apply contains_iff; eauto). discriminate C.
Qed.
Example C71_ex : output_syscalls_text [ex_read; ex_fork; ex_bpf] = Ok [
  $"INDEX  NUMBER  NAME  ORIG NAME  SYMBOL    LOCATION                  KCONFIG      SIGNATURE                               ";
  $"  0    0x0     read             sys_read  fs/read_write.c:613                    unsigned int fd, char *buf, size_t count";
  [];
  $" 57    0x39    fork             sys_fork                                         void                                    ";
  [];
  $"321    0x141   bpf              sys_bpf   (?) kernel/bpf/syscall.c  BPF_SYSCALL  ?                                       "].
Proof. vm_compute. reflexivity. Qed.

(** ** C72 *)

(** The object of a syscall has the documented keys, each with the documented value. *)
Theorem C72_object s : exists d, encode_syscall s = JObj d /\ object_of s d.
Proof. exact (json_object s). Qed.
Print Assumptions C72_object.
(** Objects tell syscalls apart. *)
Theorem C72_injective s s' : encode_syscall s = encode_syscall s' ->
  (forall f, sc_file s = Some f -> good_path f) -> (forall f, sc_file s' = Some f -> good_path f) ->
  (forall k, sc_kconfig s = Some k -> exists o, k = $"CONFIG_" ++ o) -> (forall k, sc_kconfig s' = Some k -> exists o, k = $"CONFIG_" ++ o) ->
  sc_index s = sc_index s' /\ sc_number s = sc_number s' /\ sc_name s = sc_name s' /\ sc_origname s = sc_origname s' /\
  sym_name (sc_symbol s) = sym_name (sc_symbol s') /\ sc_file s = sc_file s' /\ sc_line s = sc_line s' /\
  sc_signature s = sc_signature s' /\ sc_esoteric s = sc_esoteric s' /\ sc_good s = sc_good s' /\
  sc_grepped s = sc_grepped s' /\ sc_kconfig s = sc_kconfig s'.
Proof. exact (json_injective s s'). Qed.
Print Assumptions C72_injective.
(** The whole document has exactly the documented entries, and one object per syscall in order. *)
Theorem C72_document sv t source a scs : exists j objects, json_document sv (Ok t) source a scs = Ok j /\
  Forall2 (fun s o => exists d, o = JObj d /\ object_of s d) scs objects /\
  forall ks x, (at_key ks j x /\ forall d, x <> JObj d) <-> documented sv t source a objects ks x.
Proof. exact (document_spec sv t source a scs). Qed.
Print Assumptions C72_document.
(** The format chooses the document; any other ends the run with status 1. *)
Theorem C72_formats : forall sv tag source a scs fmt,
  (forall d, output_syscalls sv tag source a scs fmt = Ok d ->
     match d with TextDoc _ => fmt = $"text" | JsonDoc _ => fmt = $"json" | HtmlDoc _ => fmt = $"html" end) /\
  (~ In fmt [$"text"; $"json"; $"html"] -> output_syscalls sv tag source a scs fmt = Exit 1).
Proof.
  intros sv tag source a scs fmt. unfold output_syscalls.
  destruct (str_eqb fmt $"text") eqn:E1; [apply str_eqb_eq in E1|destruct (str_eqb fmt $"json") eqn:E2; [apply str_eqb_eq in E2|destruct (str_eqb fmt $"html") eqn:E3; [apply str_eqb_eq in E3|]]].
  - split; [|intros N; exfalso; apply N; left; auto]. intros d. destruct (output_syscalls_text scs); cbn [bind]; intros H; try discriminate H. injection H as <-. exact E1.
  - split; [|intros N; exfalso; apply N; right; left; auto]. intros d. destruct (json_document sv tag source a scs); cbn [bind]; intros H; try discriminate H. injection H as <-. exact E2.
  - split; [|intros N; exfalso; apply N; right; right; left; auto]. intros d. destruct (output_syscalls_html tag scs); cbn [bind]; intros H; try discriminate H. injection H as <-. exact E3.
  - split; [discriminate|reflexivity].
Qed.
Print Assumptions C72_formats.
Example C72_example_formats : output_syscalls $"1" (Ok $"v6.1") $"s" (Arch KX86 [] [] false false false false [] None 0 None []) [] $"yaml" = Exit 1 /\
  exists j, output_syscalls $"1" (Ok $"v6.1") $"s" (Arch KX86 [] [] false false false false [] None 0 None []) [] $"json" = Ok (JsonDoc j).
Proof. split; [reflexivity|]. eexists. reflexivity. Qed.
Example C72_ex : good_path (path_of_str $"kernel/bpf/syscall.c") /\ exists d, encode_syscall ex_bpf = JObj d /\
  dget str_eqb $"kconfig" d = Some (JStr $"BPF_SYSCALL") /\ dget str_eqb $"file" d = Some (JStr $"kernel/bpf/syscall.c") /\
  dget str_eqb $"symbol" d = Some (JStr $"sys_bpf") /\ dget str_eqb $"signature" d = Some JNull.
Proof.
  split; [|eexists; split; [apply encoded|repeat split]].
  split; [now left|]. change (parts (path_of_str $"kernel/bpf/syscall.c")) with [$"kernel"; $"bpf"; $"syscall.c"].
  assert (forall s : str, existsb (Ascii.eqb "/"%char) s = false -> ~ In "/"%char s) as N.
  { intros s E I. assert (existsb (Ascii.eqb "/"%char) s = true) as X by (apply existsb_exists; exists "/"%char; split; [exact I|apply Ascii.eqb_refl]). congruence. }
  repeat constructor; try discriminate; apply N; reflexivity.
Qed.

(** ** C79 *)

(** All rows of the HTML table cover the same columns: six for what is known about a syscall and
    as many as the longest signature has parameters. *)
Theorem C79_rectangle tag scs spans : output_syscalls_html tag scs = Ok spans ->
  exists m, (exists s l, In s scs /\ sc_signature s = Some l /\ len l = m) /\
    (forall s l, In s scs -> sc_signature s = Some l -> len l <= m) /\
    List.length spans = S (List.length scs) /\
    forall r, In r spans -> sum r = 6 + m /\ (0 < m -> Forall (fun x => 0 < x) r).
Proof. exact (html_table tag scs spans). Qed.
Print Assumptions C79_rectangle.
(** It can be printed iff some signature is known and the version has three components. *)
Theorem C79_printed v scs : (exists spans, output_syscalls_html (version_tag v) scs = Ok spans) <->
  (exists s l, In s scs /\ sc_signature s = Some l) /\ List.length v = 3%nat.
Proof. exact (html_ok v scs). Qed.
Print Assumptions C79_printed.
(** Without any signature, as without sources, it cannot. *)
Theorem C79_any_refuted : exists v scs, scs <> [] /\ List.length v = 3%nat /\ Forall printable scs /\
  (exists lines, output_syscalls_text scs = Ok lines) /\
  output_syscalls_html (version_tag v) scs = Raise ValueError.
Proof.
  exists [5;10;0], [ex_bpf]. split; [discriminate|]. split; [reflexivity|]. split; [exact (Forall_inv_tail (Forall_inv_tail ex_printable))|].
  split; [eexists|]; vm_compute; reflexivity.
Qed.
Print Assumptions C79_any_refuted.
Example C79_ex : output_syscalls_html (version_tag [5;10;0]) [ex_read; ex_fork; ex_bpf] =
  Ok [[2;1;1;1;1;1;1;1]; [1;1;1;1;1;1;1;1;1]; [1;1;1;1;1;1;3]; [1;1;1;1;1;1;3]].
Proof. vm_compute. reflexivity. Qed.
