(** Every result of an extraction can be printed (C89). *)
From Coq Require Import List Bool Ascii String ZArith Lia Permutation.
From Verif Require Import PyBase PyFacts M_Utils M_Elf M_Syscall M_Arch M_Kernel M_Location M_Annotate M_Output
  L_Utils S_Output L_Output L_Print P_Kernel.
Import ListNotations.
Open Scope Z_scope.
Open Scope list_scope.

(** What is extracted, whatever the image, the debug information and the sources, is printable:
    it meets the hypotheses of C71 and C72.  [good_path]: what pathlib builds from a text. *)
Theorem C89_printable k ver abi b a t e v kdir w have p rdir kres r : arch_new k ver abi b = Ok a ->
  v_annotate t = annotate w have (adjust_abi a e) e p kdir rdir kres -> (forall d, kdir = Some d -> good_path d) ->
  extract_syscalls t a e v kdir = Ok r ->
  forall s, In s r -> printable s /\ (forall f, sc_file s = Some f -> good_path f) /\
    forall o, sc_kconfig s = Some o -> (sc_esoteric s = true <-> ~ exists x, o = $"CONFIG_" ++ x).
Proof. exact (result_printable k ver abi b a t e v kdir w have p rdir kres r). Qed.
Print Assumptions C89_printable.

(** So the text output never fails on a result with a syscall, and is laid out as in C71. *)
Theorem C89_text k ver abi b a t e v kdir w have p rdir kres s0 scs : arch_new k ver abi b = Ok a ->
  v_annotate t = annotate w have (adjust_abi a e) e p kdir rdir kres -> (forall d, kdir = Some d -> good_path d) ->
  extract_syscalls t a e v kdir = Ok (s0 :: scs) ->
  exists ws head rest, output_syscalls_text (s0 :: scs) = Ok (head :: rest) /\
    padded ws titles head /\ prints ws (sc_number s0) (s0 :: scs) rest.
Proof. exact (result_text k ver abi b a t e v kdir w have p rdir kres s0 scs). Qed.
Print Assumptions C89_text.

(** And the JSON objects of any two extractions, of whatever images, tell their syscalls apart in
    every field. *)
Theorem C89_json k ver abi b a t e v kdir w have p rdir kres r k' ver' abi' b' a' t' e' v' kdir' w' have' p' rdir' kres' r' s s' :
  arch_new k ver abi b = Ok a -> arch_new k' ver' abi' b' = Ok a' ->
  v_annotate t = annotate w have (adjust_abi a e) e p kdir rdir kres -> v_annotate t' = annotate w' have' (adjust_abi a' e') e' p' kdir' rdir' kres' ->
  (forall d, kdir = Some d -> good_path d) -> (forall d, kdir' = Some d -> good_path d) ->
  extract_syscalls t a e v kdir = Ok r -> extract_syscalls t' a' e' v' kdir' = Ok r' ->
  In s r -> In s' r' -> encode_syscall s = encode_syscall s' ->
  sc_index s = sc_index s' /\ sc_number s = sc_number s' /\ sc_name s = sc_name s' /\ sc_origname s = sc_origname s' /\
  sym_name (sc_symbol s) = sym_name (sc_symbol s') /\ sc_file s = sc_file s' /\ sc_line s = sc_line s' /\
  sc_signature s = sc_signature s' /\ sc_esoteric s = sc_esoteric s' /\ sc_good s = sc_good s' /\
  sc_grepped s = sc_grepped s' /\ sc_kconfig s = sc_kconfig s'.
Proof. exact (result_json k ver abi b a t e v kdir w have p rdir kres r k' ver' abi' b' a' t' e' v' kdir' w' have' p' rdir' kres' r' s s'). Qed.
Print Assumptions C89_json.

(** An image with two syscalls and debug information, from the file to the text. *)
Definition ex_answers : world := World (fun _ => None)
  (fun l => Ok (S_Elf.unlines (map (fun a => if a =? 4112 then $"/b/fs/read_write.c:613" else $"??:?") l))) (Ok []).
Definition ex_annotated : env := Env (v_decode ex_env) (v_same ex_env) (v_insn_order ex_env) (v_ni_order ex_env)
  (annotate ex_answers true (adjust_abi ex_a ex_e) ex_e (path_of_str $"/b/vmlinux") None None (path_of_str $"/")).
Example C89_example : exists r, extract_syscalls ex_annotated ex_a ex_e [5;10] None = Ok r /\ output_syscalls_text r = Ok [
  $"INDEX  NUMBER  NAME             ORIG NAME  SYMBOL           LOCATION                    KCONFIG  SIGNATURE";
  $"  0    0x0     __x64_sys_read              __x64_sys_read   (?) /b/fs/read_write.c:613           ?        ";
  [];
  $"  2    0x2     __x64_sys_write             __x64_sys_write                                       ?        "].
Proof. eexists. split; [vm_compute; reflexivity|]. vm_compute. reflexivity. Qed.
