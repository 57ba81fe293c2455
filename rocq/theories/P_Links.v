(** Property C110: searching sources that have symbolic links. *)
From Coq Require Import List Bool Ascii String ZArith Lia.
From Verif Require Import PyBase PyFacts M_Utils M_Elf M_Syscall M_Arch M_Location S_Elf S_Signature S_Location
  L_Location M_Search S_Search L_Search L_Search2 M_Links S_Links L_Links L_Links2 L_Links3 L_Links4.
Import ListNotations.
Open Scope Z_scope.
Open Scope list_scope.

(** What the search prints: the lines that may be definitions, of the C sources it can get to by names that
    are not hidden, through directories none of which is, where the links lead, one to be left out. *)
Theorem C110_search : forall root limit kdir a out, sane root ->
  linked_search root limit kdir (enough root limit) a = Fine out ->
  forall line, In line out <-> exists rel n text s, visited_line root limit kdir (a_class a) rel n text /\
    candidate a text /\ stripped text s /\ line = report rel n s.
Proof. intros root limit kdir a out S F. exact (linked_all root limit kdir a S out F). Qed.
Print Assumptions C110_search.

(** It ends, whatever the links: the system does not follow more than [limit] of them. *)
Theorem C110_ends : forall root limit kdir a, sane root -> linked_search root limit kdir (enough root limit) a <> Endless.
Proof. intros root limit kdir a S. exact (proj1 (linked_ends root limit kdir a S)). Qed.
Print Assumptions C110_ends.

(** It fails only if there is no directory "arch", or if one of the names to be left out leads nowhere. *)
Theorem C110_fails : forall root limit kdir a e, sane root -> linked_search root limit kdir (enough root limit) a = Error e ->
  e = LoopError /\ (exists rel, to_avoid root limit kdir (a_class a) rel /\ forall real, ~ reaches root limit (kdir ++ rel) real) \/
  e <> LoopError /\ forall real archs, reaches root limit (kdir ++ [$"arch"]) real -> ~ located root real (LDir archs).
Proof.
  intros root limit kdir a e S F. destruct (proj2 (linked_ends root limit kdir a S) e F) as [(E & rel & A & L)|N]; [left|right; exact N].
  split; [exact E|]. exists rel. split; [exact A|]. intros real R. apply (go_reaches root limit S) in R as (m & R). rewrite L in R. discriminate.
Qed.
Print Assumptions C110_fails.

(** Without links this is the search of C87. *)
Theorem C110_no_links : forall root limit kdir a sources out, tree_ok sources -> place root kdir = Some (unlinked sources) ->
  Forall (fun x : str => x <> $"." /\ x <> $"..") kdir ->
  (forall es archs x m, sources = NDir es -> In ($"arch", NDir archs) es -> In (x, m) archs -> x <> $"." /\ x <> $"..") ->
  python_search a sources = Ok out -> linked_search root limit kdir (enough root limit) a = Fine out.
Proof. exact linked_unlinked. Qed.
Print Assumptions C110_no_links.

(** *** What links can do *)

Definition C110_x86 : arch := Arch KX86 [5;10] $"x64" false false false false [] None 0 None [].
Definition C110_fork : lnode := LFile $"SYSCALL_DEFINE0(fork)".
Definition C110_arm : lnode := LFile $"SYSCALL_DEFINE1(set_tls, int, x)".
(** The sources with an additional entry in the directory "kernel" and one in "arch". *)
Definition C110_root (kernel archs : list (str * lnode)) : lnode :=
  LDir [($"k", LDir [($"kernel", LDir (($"fork.c", C110_fork) :: kernel));
                     ($"arch", LDir ([($"arm", LDir [($"kernel", LDir [($"traps.c", C110_arm)])]);
                                      ($"x86", LDir [($"ldt.c", LFile $"SYSCALL_DEFINE3(modify_ldt, int, f)")])] ++ archs));
                     ($"lib", LDir [($"fork.c", C110_fork)])])].
Local Notation run kernel archs := (linked_search (C110_root kernel archs) 40 [$"k"] (enough (C110_root kernel archs) 40) C110_x86).

Lemma C110_sane kernel archs : NoDup ($"fork.c" :: map fst kernel) -> NoDup ($"arm" :: $"x86" :: map fst archs) ->
  Forall (fun x => sane (snd x)) kernel -> Forall (fun x => sane (snd x)) archs -> sane (C110_root kernel archs).
Proof.
  intros N1 N2 F1 F2.
  repeat (constructor; cbn [map fst snd app]; try assumption; try (intros H; repeat destruct H as [H|H]; discriminate H || destruct H)).
Qed.

(** The directories to be left out are left out by whatever name they are called. *)
Example C110_ex_avoided : run [($"more", LLink false [$".."; $"lib"])] [] =
  Fine [$"kernel/fork.c:1:SYSCALL_DEFINE0(fork)"; $"arch/x86/ldt.c:1:SYSCALL_DEFINE3(modify_ldt, int, f)"].
Proof. vm_compute. reflexivity. Qed.

(** But what is inside them is not: the sources of another architecture are read if a link leads there. *)
Theorem C110_other_refuted : exists root kdir a out rel content, sane root /\
  linked_search root 40 kdir (enough root 40) a = Fine out /\
  located root (kdir ++ [$"arch"; $"arm"; $"kernel"; $"traps.c"]) (LFile content) /\ a_class a = KX86 /\
  reaches root 40 (kdir ++ rel) (kdir ++ [$"arch"; $"arm"; $"kernel"; $"traps.c"]) /\
  In (report rel 1 content) out.
Proof.
  set (kernel := [($"more", LLink false [$".."; $"arch"; $"arm"; $"kernel"])]).
  assert (sane (C110_root kernel [])) as S by (apply C110_sane; repeat (constructor; cbn; try (intros H; repeat destruct H as [H|H]; discriminate H || destruct H))).
  exists (C110_root kernel []), [$"k"], C110_x86.
  exists [$"kernel/fork.c:1:SYSCALL_DEFINE0(fork)"; $"kernel/more/traps.c:1:SYSCALL_DEFINE1(set_tls, int, x)";
          $"arch/x86/ldt.c:1:SYSCALL_DEFINE3(modify_ldt, int, f)"], [$"kernel"; $"more"; $"traps.c"], $"SYSCALL_DEFINE1(set_tls, int, x)".
  split; [exact S|]. split; [vm_compute; reflexivity|]. split; [apply (place_located _ S); vm_compute; reflexivity|]. split; [reflexivity|].
  split; [apply (go_reaches _ 40 S); exists 39%nat; vm_compute; reflexivity|]. right. left. vm_compute. reflexivity.
Qed.
Print Assumptions C110_other_refuted.

(** A link to a directory above makes the same file be read over and over: once for each number of
    links that the system follows. *)
Theorem C110_once_refuted : exists root kdir a out content, sane root /\
  linked_search root 3 kdir (enough root 3) a = Fine out /\
  located root (kdir ++ [$"kernel"; $"fork.c"]) (LFile content) /\
  In (report [$"kernel"; $"fork.c"] 1 content) out /\
  In (report [$"kernel"; $"self"; $"fork.c"] 1 content) out /\
  In (report [$"kernel"; $"self"; $"self"; $"self"; $"fork.c"] 1 content) out.
Proof.
  set (kernel := [($"self", LLink false [$"."])]).
  assert (sane (C110_root kernel [])) as S by (apply C110_sane; repeat (constructor; cbn; try (intros H; repeat destruct H as [H|H]; discriminate H || destruct H))).
  exists (C110_root kernel []), [$"k"], C110_x86.
  exists [$"kernel/fork.c:1:SYSCALL_DEFINE0(fork)"; $"kernel/self/fork.c:1:SYSCALL_DEFINE0(fork)";
          $"kernel/self/self/fork.c:1:SYSCALL_DEFINE0(fork)"; $"kernel/self/self/self/fork.c:1:SYSCALL_DEFINE0(fork)";
          $"arch/x86/ldt.c:1:SYSCALL_DEFINE3(modify_ldt, int, f)"], $"SYSCALL_DEFINE0(fork)".
  split; [exact S|]. split; [vm_compute; reflexivity|]. split; [apply (place_located _ S); vm_compute; reflexivity|].
  vm_compute. auto 8.
Qed.
Print Assumptions C110_once_refuted.

(** A second name for the directory of the architecture itself leaves it out. *)
Theorem C110_found_refuted : exists root kdir a out content, sane root /\
  linked_search root 40 kdir (enough root 40) a = Fine out /\ a_class a = KX86 /\
  located root (kdir ++ [$"arch"; $"x86"; $"ldt.c"]) (LFile content) /\ candidate a content /\
  forall rel n s, In (report rel n s) out -> s <> content.
Proof.
  set (archs := [($"i386", LLink false [$"x86"])]).
  assert (sane (C110_root [] archs)) as S by (apply C110_sane; repeat (constructor; cbn; try (intros H; repeat destruct H as [H|H]; discriminate H || destruct H))).
  exists (C110_root [] archs), [$"k"], C110_x86.
  exists [$"kernel/fork.c:1:SYSCALL_DEFINE0(fork)"], $"SYSCALL_DEFINE3(modify_ldt, int, f)".
  split; [exact S|]. split; [vm_compute; reflexivity|]. split; [reflexivity|]. split; [apply (place_located _ S); vm_compute; reflexivity|].
  split; [apply search_spec; vm_compute; discriminate|].
  intros rel n s [E|[]] ->. unfold report in E. apply (f_equal (@rev ascii)) in E. rewrite !app_assoc, rev_app_distr in E. vm_compute in E. discriminate E.
Qed.
Print Assumptions C110_found_refuted.

(** A loop among the names to be left out ends the run with an exception. *)
Example C110_ex_loop : run [] [($"um", LLink false [$"um"])] = Error LoopError.
Proof. vm_compute. reflexivity. Qed.

(** The hypotheses of C110_search: a file read through a link. *)
Example C110_ex_visited : let root := C110_root [($"more", LLink true [$"k"; $"arch"; $"arm"; $"kernel"])] [] in
  sane root /\ visited_line root 40 [$"k"] KX86 [$"kernel"; $"more"; $"traps.c"] 1 $"SYSCALL_DEFINE1(set_tls, int, x)".
Proof.
  intros root.
  assert (sane root) as S by (apply C110_sane; repeat (constructor; cbn; try (intros H; repeat destruct H as [H|H]; discriminate H || destruct H))).
  split; [exact S|].
  destruct (exclude_real root 40 [$"k"] C110_x86) as [ex| |] eqn:E; [|vm_compute in E; discriminate E..].
  pose proof (proj2 (exclude_avoided root 40 [$"k"] C110_x86 S ex E)) as A. cbn [a_class C110_x86] in A. vm_compute in E. injection E as <-.
  exists $"SYSCALL_DEFINE1(set_tls, int, x)", [$"SYSCALL_DEFINE1(set_tls, int, x)"].
  split; [|split; [apply lines_of_ex|split; [lia|reflexivity]]].
  unfold visited. split; [exists [$"kernel"; $"more"], $"traps"; reflexivity|].
  split; [intros c x [<-|[<-|[<-|[]]]]; discriminate|].
  split; [exists [$"k"; $"arch"; $"arm"; $"kernel"; $"traps.c"]; split; [apply (go_reaches _ 40 S); exists 39%nat; vm_compute; reflexivity|apply (place_located _ S); vm_compute; reflexivity]|].
  intros [|x1 [|x2 [|x3 [|x4 pre]]]] suf Eq N1 N2; [congruence| | |injection Eq as <- <- <- Eq; now destruct N2|discriminate Eq].
  - injection Eq as <- Eq. exists [$"k"; $"kernel"]. split; [apply (go_reaches _ 40 S); exists 40%nat; vm_compute; reflexivity|].
    rewrite <- A. intros H. vm_compute in H. repeat destruct H as [H|H]; discriminate H || destruct H.
  - injection Eq as <- <- Eq. exists [$"k"; $"arch"; $"arm"; $"kernel"]. split; [apply (go_reaches _ 40 S); exists 39%nat; vm_compute; reflexivity|].
    rewrite <- A. intros H. vm_compute in H. repeat destruct H as [H|H]; discriminate H || destruct H.
Qed.
