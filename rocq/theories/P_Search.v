(** Property C87 (the search through the sources). *)
From Coq Require Import List Bool Ascii String ZArith Lia Permutation.
From Verif Require Import PyBase PyFacts M_Utils M_Elf M_Syscall M_Arch M_Location
  S_Elf S_Signature S_Location M_Search S_Search L_Search L_Search2.
Import ListNotations.
Open Scope Z_scope.
Open Scope list_scope.

(** ** C87 *)

(** What the search prints: the lines of the searched files that may be definitions. *)
Theorem C87_search : forall a sources out, tree_ok sources -> python_search a sources = Ok out ->
  forall line, In line out <-> exists rel n text s, source_line sources (a_class a) rel n text /\ candidate a text /\ stripped text s /\
    line = report rel n s.
Proof. exact search_all. Qed.
Print Assumptions C87_search.

(** Each of them once. *)
Theorem C87_once : forall a sources out, tree_ok sources -> tidy sources -> python_search a sources = Ok out -> NoDup out.
Proof. exact search_nodup. Qed.
Print Assumptions C87_once.

(** There must be a directory "arch". *)
Theorem C87_error : forall a sources, tree_ok sources ->
  (python_search a sources = Raise FileNotFoundError <-> ~ exists es archs, sources = NDir es /\ In ($"arch", NDir archs) es).
Proof. exact search_error. Qed.
Print Assumptions C87_error.

(** A location found is that of a line of a searched file which has a definition of the syscall. *)
Theorem C87_place : forall A w kdir a sources (scs : list (A * syscall)) r, tree_ok sources -> tidy sources ->
  w_grep w = python_search a sources -> grep_kernel_sources w kdir a scs = Ok r ->
  forall x f n, In (x, Some (f, n)) r -> exists s rel text, In (x, s) scs /\ source_line sources (a_class a) rel n text /\
    macro_line blanks a (sc_origname s) text /\ f = path_join kdir (Path [] rel).
Proof. exact @found_place. Qed.
Print Assumptions C87_place.

(** No location: every line that has a definition of the syscall was given to another one, which
    it is a definition of too. *)
Theorem C87_missed : forall A w kdir a sources (scs : list (A * syscall)) r, tree_ok sources -> tidy sources ->
  w_grep w = python_search a sources -> grep_kernel_sources w kdir a scs = Ok r ->
  forall x, In (x, None) r -> exists s, In (x, s) scs /\
    forall rel n text, source_line sources (a_class a) rel n text -> macro_line bblanks a (sc_origname s) text ->
      (exists c t, sc_origname s = c :: t /\ is_bword c = true) ->
      exists y s', In (y, s') scs /\ macro_line blanks a (sc_origname s') text /\ In (y, Some (path_join kdir (Path [] rel), n)) r.
Proof. exact @missed. Qed.
Print Assumptions C87_missed.

(** So a syscall is found if some line of the searched files defines it and no other syscall searched for. *)
Theorem C87_found : forall A w kdir a sources (scs : list (A * syscall)) r, tree_ok sources -> tidy sources ->
  w_grep w = python_search a sources -> grep_kernel_sources w kdir a scs = Ok r ->
  forall x s rel n text, NoDup (map fst scs) -> In (x, s) scs ->
    source_line sources (a_class a) rel n text -> macro_line bblanks a (sc_origname s) text ->
    (exists c t, sc_origname s = c :: t /\ is_bword c = true) ->
    (forall y s', In (y, s') scs -> macro_line blanks a (sc_origname s') text -> y = x) ->
    exists f n', In (x, Some (f, n')) r.
Proof. exact @found_only. Qed.
Print Assumptions C87_found.

(** *** Examples *)

Definition ex_def : bytes := unlines [$"#include <linux/syscalls.h>"; $"SYSCALL_DEFINE2(foo, int, a, int, b) "; $"COMPAT_SYSCALL_DEFINE0(bar)"].
Definition ex_oabi : bytes := unlines [$"/* OABI */"; $"asmlinkage long sys_oabi_connect(int fd)"].
Definition ex_tree : node :=
  NDir [($"Kbuild", NFile ex_def);
        ($".git", NDir [($"a.c", NFile ex_def)]);
        ($"arch", NDir [($"arm", NDir [($"kernel", NDir [($"oabi.c", NFile ex_oabi)])]); ($"x86", NDir [($"b.c", NFile ex_def)])]);
        ($"drivers", NDir [($"c.c", NFile ex_def)]);
        ($"fs", NDir [($"d.c", NFile ex_def); ($"d.h", NFile ex_def); ($"link", NOther)])].
Definition ex_arm : arch := Arch KArm [] $"oabi" true true false false [] None 0 None [].
Definition ex_x86 : arch := Arch KX86 [] $"x64" false false false false [] None 0 None [].
Definition ex_world (a : arch) : world := World (fun _ => None) (fun _ => Ok []) (python_search a ex_tree).
Definition ex_sys (n : str) : syscall := Syscall (Some 0) 0 n n (Symbol 0 0 0 $"FUNC" ($"sys_" ++ n)) None None None None false false false.
Lemma ex_tree_ok : tree_ok ex_tree.
Proof.
  repeat first [apply to_file | apply to_other | apply to_dir | apply Forall_nil | apply Forall_cons | apply NoDup_nil | apply NoDup_cons];
    cbn [map fst]; intros H; vm_compute in H; intuition discriminate.
Qed.
Lemma ex_tidy : tidy ex_tree.
Proof.
  assert (forall n rel content, file_at n rel content ->
    (fix ok (n : node) : Prop := match n with NDir es => (fix go l : Prop := match l with [] => True | x :: l' => plain_name (fst x) /\ ok (snd x) /\ go l' end) es | _ => True end) n -> Forall plain_name rel) as G.
  { induction 1 as [|es name m rel content I F IH]; [constructor|]. intros H.
    assert (plain_name name /\ (fix ok (n : node) : Prop := match n with NDir es => (fix go l : Prop := match l with [] => True | x :: l' => plain_name (fst x) /\ ok (snd x) /\ go l' end) es | _ => True end) m) as [H1 H2].
    { clear -I H. induction es as [|x es IH]; [destruct I|]. destruct H as (H1 & H2 & H3). destruct I as [->|I]; [auto|now apply IH]. }
    constructor; [exact H1|]. now apply IH. }
  intros rel content F. apply (G _ _ _ F). clear. cbn [ex_tree fst snd].
  repeat split; try discriminate; intros H; vm_compute in H; intuition discriminate.
Qed.
Example C87_example_x86 : python_search ex_x86 ex_tree =
  Ok [$"arch/x86/b.c:2:SYSCALL_DEFINE2(foo, int, a, int, b)"; $"fs/d.c:2:SYSCALL_DEFINE2(foo, int, a, int, b)"].
Proof. vm_compute. reflexivity. Qed.
Example C87_example_arm : python_search ex_arm ex_tree =
  Ok [$"arch/arm/kernel/oabi.c:2:asmlinkage long sys_oabi_connect(int fd)"; $"fs/d.c:2:SYSCALL_DEFINE2(foo, int, a, int, b)"].
Proof. vm_compute. reflexivity. Qed.
Example C87_example_found : grep_kernel_sources (ex_world ex_x86) (path_of_str $"/k") ex_x86 [(1%nat, ex_sys $"foo"); (2%nat, ex_sys $"bar")] =
  Ok [(1%nat, Some (path_of_str $"/k/arch/x86/b.c", 2)); (2%nat, None)].
Proof. vm_compute. reflexivity. Qed.
Lemma ex_line k rel content ls n text : file_at ex_tree rel content -> searched k rel -> lines_of content ls -> 1 <= n ->
  nth_error ls (Z.to_nat (n - 1)) = Some text -> source_line ex_tree k rel n text.
Proof. intros. exists content, ls. auto. Qed.
Lemma ex_oabi_line : source_line ex_tree KArm [$"arch"; $"arm"; $"kernel"; $"oabi.c"] 2 ($"asmlinkage long sys_oabi_connect(int fd)" ++ [NL]).
Proof.
  apply (ex_line _ _ ex_oabi (lines_keep ex_oabi)).
  - eapply fa_dir; [right; right; left; reflexivity|]. eapply fa_dir; [left; reflexivity|]. eapply fa_dir; [left; reflexivity|]. eapply fa_dir; [left; reflexivity|]. constructor.
  - split; [exists [$"arch"; $"arm"; $"kernel"], $"oabi"; reflexivity|]. split.
    + intros c x I. cbn [In] in I. decompose [or] I; subst; try discriminate; contradiction.
    + split; [intros d m l [= <- _ _]; vm_compute; intuition discriminate|]. intros x m l [= <- _ _]. reflexivity.
  - apply L_Location.lines_of_ex.
  - lia.
  - vm_compute. reflexivity.
Qed.
(** The search finds other kinds of definitions too, but their syscalls still get no location. *)
Theorem C87_odd_refuted : exists w kdir a sources s rel n text t, tree_ok sources /\ tidy sources /\ w_grep w = python_search a sources /\
  source_line sources (a_class a) rel n text /\ text = $"asmlinkage long sys_" ++ sc_origname s ++ $"(" ++ t /\ odd_head a text t /\
  (exists out s', python_search a sources = Ok out /\ stripped text s' /\ In (report rel n s') out) /\
  grep_kernel_sources w kdir a [(tt, s)] = Ok [(tt, None)].
Proof.
  exists (ex_world ex_arm), (path_of_str $"/k"), ex_arm, ex_tree, (ex_sys $"oabi_connect"), [$"arch"; $"arm"; $"kernel"; $"oabi.c"], 2,
    ($"asmlinkage long sys_oabi_connect(int fd)" ++ [NL]), ($"int fd)" ++ [NL]).
  split; [apply ex_tree_ok|]. split; [apply ex_tidy|]. split; [reflexivity|]. split; [apply ex_oabi_line|]. split; [reflexivity|]. split.
  - apply oh_arm; [reflexivity|reflexivity|]. exists [" "%char], [], $"long", [" "%char], $"sys_oabi_", $"connect", []. split; [reflexivity|]. split; [now left|].
    split; [split; [discriminate|reflexivity]|]. split; [reflexivity|]. split; [now left|]. split; [split; [discriminate|reflexivity]|]. split; reflexivity.
  - split; [|vm_compute; reflexivity]. eexists. exists $"asmlinkage long sys_oabi_connect(int fd)". split; [exact C87_example_arm|]. split.
    + exists [NL]. split; [reflexivity|]. split; [reflexivity|]. intros x c E. change $"asmlinkage long sys_oabi_connect(int fd)" with ($"asmlinkage long sys_oabi_connect(int fd" ++ [")"%char]) in E.
      apply app_inj_tail in E as [_ <-]. reflexivity.
    + left. vm_compute. reflexivity.
Qed.
Print Assumptions C87_odd_refuted.
