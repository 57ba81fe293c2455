(** Property C88 (what is logged about the syscalls). *)
From Coq Require Import List Bool Ascii String ZArith Lia.
From Verif Require Import PyBase PyFacts M_Utils M_Elf M_Syscall M_Arch M_Kernel S_Kernel M_Warn S_Warn L_Warn.
Import ListNotations.
Open Scope Z_scope.
Open Scope list_scope.

(** ** C88 *)

(** The messages in order: the syscalls dropped (whose line is known), the uncertain locations, the
    syscalls without a location, those without a signature. *)
Theorem C88_messages : forall kdir e l, exists r d dl b n g md mb,
  second_pass kdir e l = Ok (r, md ++ mb ++ map no_loc n ++ map no_sig g) /\
  picks (fun s => ~ dropped kdir s) l r /\ picks (dropped kdir) l d /\ picks (fun s => sc_line s <> None) d dl /\
  picks (fun s => kdir <> None /\ uncertain s) r b /\
  picks (fun s => has_lines e /\ sc_file s = None) r n /\
  picks (fun s => (has_descriptions e \/ has_lines e) /\ sc_signature s = None) r g /\
  Forall2 (says_dropped kdir) dl md /\ Forall2 (says_bad kdir) b mb.
Proof. exact second_pass_spec. Qed.
Print Assumptions C88_messages.

(** This is the pass that extract_syscalls ends with. *)
Theorem C88_same_pass : forall kdir e l, filterM (keep_located kdir) l = (x <- second_pass kdir e l ;; Ok (fst x)).
Proof. exact same_pass. Qed.
Print Assumptions C88_same_pass.

Definition ex_sym (n : str) : symbol := Symbol 0 0 0 $"FUNC" n.
Definition ex_sc (n : str) (f : option path) (line : option Z) (sig : option (list str)) (good : bool) : syscall :=
  Syscall (Some 0) 0 n n (ex_sym ($"sys_" ++ n)) None f line sig false good false.
Definition ex_elf : elf := Elf [] false false 62 0 [($".debug_line", Section_ $".debug_line" 0 0 0)] [] [].
Definition ex_k : path := path_of_str $"/k".
Example C88_example :
  second_pass (Some ex_k) ex_elf
    [ex_sc $"a" (Some (path_of_str $"/k/fs/a.c")) (Some 1) (Some []) true;
     ex_sc $"b" (Some (path_of_str $"/k/fs/b.S")) (Some 2) None false;
     ex_sc $"c" (Some (path_of_str $"/k/kernel/sys_ni.c")) (Some 3) None false;
     ex_sc $"d" None None (Some []) false] =
  Ok ([ex_sc $"a" (Some (path_of_str $"/k/fs/a.c")) (Some 1) (Some []) true;
       ex_sc $"b" (Some (path_of_str $"/k/fs/b.S")) (Some 2) None false;
       ex_sc $"d" None None (Some []) false],
      [MDropped $"c" (path_of_str $"kernel/sys_ni.c") 3;
       MBad $"b" $"sys_b" (path_of_str $"fs/b.S") (Some 2) $" (implemented in asm?)";
       MNoLoc $"d" $"sys_d"; MNoSig $"b" $"sys_b"]).
Proof. vm_compute. reflexivity. Qed.

(** A syscall whose line is unknown is dropped without a word. *)
Theorem C88_dropped_refuted : exists kdir e s, of_table s = true /\ dropped kdir s /\ second_pass kdir e [s] = Ok ([], []).
Proof.
  exists None, ex_elf, (ex_sc $"c" (Some (path_of_str $"/k/kernel/sys_ni.c")) None None false). split; [reflexivity|]. split; [|vm_compute; reflexivity].
  split; [reflexivity|]. split; [reflexivity|]. exists (path_of_str $"/k/kernel/sys_ni.c"), (path_of_str $"/k/kernel/sys_ni.c"), [$"k"]. split; [reflexivity|]. split; [reflexivity|]. vm_compute. reflexivity.
Qed.
Print Assumptions C88_dropped_refuted.
