(** Property C104: the files the two searches look through. *)
From Coq Require Import List Bool Ascii String ZArith Lia.
From Verif Require Import PyBase PyFacts M_Arch M_Program M_Ripgrep S_Search S_Ripgrep L_Ripgrep P_Kernel.
Import ListNotations.
Open Scope Z_scope.
Open Scope list_scope.

(** What ripgrep reads with the globs it is given. *)
Theorem C104_reads : forall a ignored rel, rg_reads a ignored rel = true <-> read_by_ripgrep (a_class a) ignored rel.
Proof. exact rg_reads_spec. Qed.
Print Assumptions C104_reads.
(** All that is searched without ripgrep. *)
Theorem C104_covers : forall k ignored rel, (forall r, ignored r = false) -> searched k rel -> read_by_ripgrep k ignored rel.
Proof. exact searched_read. Qed.
Print Assumptions C104_covers.
(** What it reads besides, if no directory has the name of a C source and none of these is hidden: the C
    sources that lie directly in a directory which is to be left out. *)
Theorem C104_besides : forall k ignored rel, usual rel -> read_by_ripgrep k ignored rel ->
  searched k rel \/ (exists d name, rel = [d; name] /\ unsearched d /\ c_name name) \/ rel = [$"arch"; arch_dir k].
Proof. exact read_not_searched. Qed.
Print Assumptions C104_besides.
Theorem C104_left_out : forall k ignored d name, (forall r, ignored r = false) -> unsearched d -> c_name name ->
  read_by_ripgrep k ignored [d; name] /\ ~ searched k [d; name].
Proof. exact unsearched_read. Qed.
Print Assumptions C104_left_out.
(** So they differ. *)
Theorem C104_same_refuted : exists a rel, rg_reads a (fun _ => false) rel = true /\ ~ searched (a_class a) rel.
Proof.
  exists ex_a, [$"lib"; $"kobject.c"]. split; [vm_compute; reflexivity|].
  apply (unsearched_read _ (fun _ => false)); [reflexivity|right; right; now left|now exists $"kobject"].
Qed.
Print Assumptions C104_same_refuted.

Example C104_example : map (rg_reads ex_a (fun _ => false))
   [[$"kernel"; $"fork.c"]; [$"arch"; $"x86"; $"kernel"; $"ldt.c"]; [$"lib"; $"kobject.c"]; [$"kernel"; $".fork.c"];
    [$"arch"; $"arm"; $"kernel"; $"sys_arm.c"]; [$"drivers"; $"net"; $"tun.c"]; [$"kernel"; $"fork.h"]; [$".git"; $"a.c"]] =
   [true; true; true; true; false; false; false; false].
Proof. vm_compute. reflexivity. Qed.
Example C104_example_searched : searched (a_class ex_a) [$"arch"; $"x86"; $"kernel"; $"ldt.c"] /\ usual [$"lib"; $"kobject.c"].
Proof.
  split.
  - split; [exists [$"arch"; $"x86"; $"kernel"], $"ldt"; reflexivity|]. split; [intros c x I; repeat destruct I as [<-|I]; discriminate || contradiction|]. split.
    + intros d m l [= <- _ _] I. unfold unsearched in I. cbn in I. intuition discriminate.
    + intros x m l [= <- _ _]. reflexivity.
  - split.
    + intros above d m l E. assert (d = $"lib") as ->; [|intros (x & X); destruct x as [|? [|? [|? [|? ?]]]]; discriminate].
      destruct above as [|x above]; [now injection E|]. destruct above as [|y above]; [discriminate|]. destruct above; discriminate.
    + intros dirs name E. apply (app_inj_tail [$"lib"]) in E as (_ & <-). intros (x & X). discriminate.
Qed.
