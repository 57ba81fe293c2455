(** Property C52: annotation (kernel.py 523, 524) when there are no kernel sources. *)
From Coq Require Import List Bool Ascii String ZArith.
From Verif Require Import PyBase M_Utils M_Elf M_Syscall M_Arch M_Signature M_Location M_Annotate
  S_Elf S_Signature S_Location P_Signature L_Sourceless.
Import ListNotations.
Open Scope Z_scope.
Open Scope list_scope.

(** The files that exist, and what grep would find in them, do not matter: whatever the syscalls
    are, only addr2line and the binary are consulted. *)
Theorem C52_sourceless : forall w w' have a e p rdir kres scs, w_addr2line w = w_addr2line w' ->
  annotate w have a e p None rdir kres scs = annotate w' have a e p None rdir kres scs.
Proof. exact annotate_sourceless. Qed.
Print Assumptions C52_sourceless.

(** All signatures come from the metadata. *)
Theorem C52_sourceless_chosen : forall w have a e p rdir kres rs scs out, metadata e rs -> Forall clean_rec rs ->
  Forall (fun s => sc_good s = false) scs -> annotate w have a e p None rdir kres scs = Ok out ->
  Forall2 (fun s s' => chosen (fun _ _ _ => False) (recorded rs) s (sc_signature s')) scs out.
Proof. exact sourceless_chosen. Qed.
Print Assumptions C52_sourceless_chosen.

(** addr2line names a file which defines the syscall: without KDIR it is not read. *)
Definition ex_wld (files : path -> option str) : world := World files (fun _ => Ok $"/k/a.c:1") (Ok []).
Definition ex_arch : arch := Arch KX86 [] $"x64" false false false false [] None 0 None [].
Example C52_example_sourceless :
  match annotate (ex_wld ex_files) true ex_arch ex_elf (path_of_str $"/b/vmlinux") None None (path_of_str $"/k")
    [ex_sc $"foo" $"foo" false false None] with
  | Ok out => map (fun s => (sc_signature s, sc_line s)) out = [(Some [$"char **p"], Some 1)]
  | _ => False
  end.
Proof. vm_compute. reflexivity. Qed.
(** A syscall that claims to be well located: the assertion of signature.py 155 fails, with that
    file or without. *)
Example C52_example_claims : forall files,
  annotate (ex_wld files) false ex_arch ex_elf (path_of_str $"/b/vmlinux") None None (path_of_str $"/k")
    [ex_sc $"foo" $"foo" true false None] = Raise AssertionError.
Proof. intros files. vm_compute. reflexivity. Qed.
