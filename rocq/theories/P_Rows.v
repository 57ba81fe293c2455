(** Property C112: with the same lines, both searches find the same places. *)
From Coq Require Import List Bool Ascii String ZArith Lia.
From Verif Require Import PyBase PyFacts M_Utils M_Elf M_Syscall M_Arch M_Location M_Search M_Program S_Elf S_Signature S_Location S_Search L_Search2 S_Rows L_Rows P_Search.
Import ListNotations.
Open Scope Z_scope.
Open Scope list_scope.

(** The places found do not depend on the search, as long as no line that is found has one of the characters
    which only [str.splitlines] takes for the end of a line. *)
Theorem C112_same : forall A w w' kdir a (scs : list (A * syscall)) hits own, Forall plain_hit hits -> Forall row_hit hits ->
  w_grep w = Ok (splitlines (unlines (map raw_line hits))) -> w_grep w' = Ok own -> Forall2 own_line hits own ->
  grep_kernel_sources w kdir a scs = grep_kernel_sources w' kdir a scs.
Proof. exact @same_places. Qed.
Print Assumptions C112_same.

(** With such a character they differ. *)
Definition ex_ff : ascii := chr 12.
Definition ex_hit (text : bytes) : hit := ([$"kernel"; $"fork.c"], 7, text).
Definition ex_rg (text : bytes) : world := World (fun _ => None) (fun _ => Ok []) (Ok (splitlines (unlines (map raw_line [ex_hit text])))).
Definition ex_own (text : bytes) : world := World (fun _ => None) (fun _ => Ok []) (Ok [report [$"kernel"; $"fork.c"] 7 (brstrip text)]).
Lemma ex_plain text : plain_hit (ex_hit text).
Proof.
  split; [discriminate|]. split; [|split; [|lia]]; repeat constructor; try discriminate; vm_compute; intuition discriminate.
Qed.
Lemma ex_own_line text : Forall2 own_line [ex_hit text] [report [$"kernel"; $"fork.c"] 7 (brstrip text)].
Proof. repeat constructor. exists (brstrip text). split; [now apply stripped_brstrip|reflexivity]. Qed.
Theorem C112_refuted : exists w w' kdir a s hits own, Forall plain_hit hits /\
  w_grep w = Ok (splitlines (unlines (map raw_line hits))) /\ w_grep w' = Ok own /\ Forall2 own_line hits own /\
  grep_kernel_sources w kdir a [(tt, s)] = Ok [(tt, None)] /\
  grep_kernel_sources w' kdir a [(tt, s)] = Ok [(tt, Some (path_of_str $"/k/kernel/fork.c", 7))].
Proof.
  set (text := $"SYSCALL_DEFINE0" ++ [ex_ff] ++ $"(fork)").
  exists (ex_rg text), (ex_own text), (path_of_str $"/k"), ex_x86, (ex_sys $"fork"), [ex_hit text], [report [$"kernel"; $"fork.c"] 7 (brstrip text)].
  split; [constructor; [apply ex_plain|constructor]|]. split; [reflexivity|]. split; [reflexivity|]. split; [apply ex_own_line|].
  split; vm_compute; reflexivity.
Qed.
Print Assumptions C112_refuted.
(** The program can even fail, with a line that is not one of ripgrep's. *)
Theorem C112_error_refuted : exists w w' kdir a s hits own, Forall plain_hit hits /\
  w_grep w = Ok (splitlines (unlines (map raw_line hits))) /\ w_grep w' = Ok own /\ Forall2 own_line hits own /\
  grep_kernel_sources w kdir a [(tt, s)] = Raise ValueError /\
  grep_kernel_sources w' kdir a [(tt, s)] = Ok [(tt, Some (path_of_str $"/k/kernel/fork.c", 7))].
Proof.
  set (text := $"/*" ++ [ex_ff] ++ $"see:SYSCALL_DEFINE0(fork) */").
  exists (ex_rg text), (ex_own text), (path_of_str $"/k"), ex_x86, (ex_sys $"fork"), [ex_hit text], [report [$"kernel"; $"fork.c"] 7 (brstrip text)].
  split; [constructor; [apply ex_plain|constructor]|]. split; [reflexivity|]. split; [reflexivity|]. split; [apply ex_own_line|].
  split; vm_compute; reflexivity.
Qed.
Print Assumptions C112_error_refuted.

(** *** Examples *)
Example C112_example : let text := $"SYSCALL_DEFINE0(fork)  " in
  Forall plain_hit [ex_hit text] /\ Forall row_hit [ex_hit text] /\ w_grep (ex_rg text) = Ok [$"kernel/fork.c:7:SYSCALL_DEFINE0(fork)  "] /\
  w_grep (ex_own text) = Ok [$"kernel/fork.c:7:SYSCALL_DEFINE0(fork)"] /\
  grep_kernel_sources (ex_rg text) (path_of_str $"/k") ex_x86 [(tt, ex_sys $"fork")] = Ok [(tt, Some (path_of_str $"/k/kernel/fork.c", 7))].
Proof.
  split; [constructor; [apply ex_plain|constructor]|]. split; [repeat constructor; vm_compute; intuition discriminate|]. repeat split; vm_compute; reflexivity.
Qed.
Example C112_splitlines : splitlines ($"a" ++ [NL] ++ $"b" ++ [CR; NL; NL] ++ $"c" ++ [ex_ff; CR]) = [$"a"; $"b"; []; $"c"; []].
Proof. vm_compute. reflexivity. Qed.
