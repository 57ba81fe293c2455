(** Properties C65-C68 (building the kernel, the version across operations). *)
From Coq Require Import List Bool Ascii String ZArith Lia.
From Verif Require Import PyBase M_Utils M_Kernel M_Build S_Build L_Build.
Import ListNotations.
Open Scope Z_scope.
Open Scope list_scope.

Definition ex_make (l : list Z) (i : nat) : option Z := nth_error l i.
Definition ex_makefile : str := $"CC = gcc
KBUILD_CFLAGS	+= -O2
KBUILD_CFLAGS += -O2
".
Definition ex_o0 : str := $"CC = gcc
KBUILD_CFLAGS	+= -O0
KBUILD_CFLAGS += -O2
".
Definition ex_o1 : str := $"CC = gcc
KBUILD_CFLAGS	+= -O1
KBUILD_CFLAGS += -O2
".

(** ** C65 *)

(** When build() runs to its end the Makefile is the original one, whatever make does. *)
Theorem C65_restored_at_end_partial : forall make mk o, plain_text mk ->
  b_file (r_state (run_build make o mk None)) = mk.
Proof. intros make mk o H. exact (build_restored make mk H o). Qed.
Print Assumptions C65_restored_at_end_partial.

(** Interrupted before step [n], followed by a normal exit of the interpreter (which runs a
    registered __restore_makefile): the exact list of steps where the original is lost.  Step 3 is
    between the writing of the patched file and atexit.register(); steps 12-15 go from the writing
    of the -O1 file to the end of the second restoration: the first one has unregistered the
    handler. *)
Theorem C65_interrupted_partial : forall make mk n, plain_text mk ->
  (after_exit (r_state (run_build make true mk (Some n))) = mk <->
   ~ (has_flag mk /\ (n = 3%nat \/ (make 0%nat <> Some 0 /\ (12 <= n <= 15)%nat)))).
Proof. exact build_interrupted'. Qed.
Print Assumptions C65_interrupted_partial.

Theorem C65_interrupted_plain : forall make mk n, after_exit (r_state (run_build make false mk (Some n))) = mk.
Proof. exact build_interrupted_plain. Qed.
Print Assumptions C65_interrupted_plain.

(** The steps of C65_interrupted_partial: the second run of make has not started before step 12,
    and has after it. *)
Theorem C65_during_second_make_refuted : exists make mk n, plain_text mk /\
  r_makes (run_build make true mk (Some n)) = [ex_o0; ex_o1] /\
  after_exit (r_state (run_build make true mk (Some n))) <> mk.
Proof.
  exists (ex_make [2; 2; 0]), ex_makefile, 13%nat. split; [|split; [vm_compute; reflexivity|vm_compute; discriminate]].
  intros H. assert (forallb (fun c => negb (Ascii.eqb c CR)) ex_makefile = true) as F by (vm_compute; reflexivity).
  rewrite forallb_forall in F. specialize (F _ H). discriminate F.
Qed.
Print Assumptions C65_during_second_make_refuted.

(** Carriage returns: the file is read with universal newlines and written back without them. *)
Theorem C65_newlines : forall make mk, has_flag (universal mk) ->
  b_file (r_state (run_build make true mk None)) = universal mk.
Proof. exact build_newlines. Qed.
Print Assumptions C65_newlines.

Theorem C65_newlines_refuted : exists make mk, b_file (r_state (run_build make true mk None)) <> mk.
Proof. exists (fun _ => Some 0), (CR :: ex_makefile). vm_compute. discriminate. Qed.
Print Assumptions C65_newlines_refuted.

Example C65_example :
  run_build (ex_make [2; 2; 0]) true ex_makefile None =
    Result (BState ex_makefile (Some ex_makefile) false) [ex_o0; ex_o1; ex_makefile] (Some (Ok tt)) /\
  after_exit (r_state (run_build (ex_make [2; 2; 0]) true ex_makefile (Some 5%nat))) = ex_makefile /\
  r_makes (run_build (ex_make [2; 2; 0]) true ex_makefile (Some 5%nat)) = [ex_o0] /\
  after_exit (r_state (run_build (ex_make [2; 2; 0]) true ex_makefile (Some 3%nat))) = ex_o0.
Proof. vm_compute. repeat split. Qed.

(** ** C66 *)

Theorem C66_patch : forall data level new, set_level data level = Some new <-> patched data level new.
Proof. exact level_iff. Qed.
Print Assumptions C66_patch.

(** There is only one way to do that. *)
Theorem C66_unique : forall data level a b, patched data level a -> patched data level b -> a = b.
Proof. exact patched_unique. Qed.
Print Assumptions C66_unique.

Theorem C66_no_flag : forall data level, set_level data level = None <-> ~ has_flag data.
Proof. exact level_none. Qed.
Print Assumptions C66_no_flag.

(** At every moment the Makefile is untouched, and what is done is an ordinary build. *)
Theorem C66_no_flag_build : forall make mk, ~ has_flag (universal mk) ->
  (forall n, after_exit (r_state (run_build make true mk n)) = mk) /\
  r_makes (run_build make true mk None) = r_makes (run_build make false mk None) /\
  r_end (run_build make true mk None) = r_end (run_build make false mk None).
Proof. exact no_flag_build. Qed.
Print Assumptions C66_no_flag_build.

Example C66_example : patched ex_makefile 0 ex_o0 /\ set_level $"KBUILD_CFLAGS += -Os
# KBUILD_CFLAGS += -O2
" 0 = None.
Proof. split; [apply level_iff|]; vm_compute; reflexivity. Qed.

(** ** C67 *)

Theorem C67_order : forall make mk p0 p1, plain_text mk -> patched mk 0 p0 -> patched mk 1 p1 ->
  let r := run_build make true mk None in
  r_makes r = attempts make 0 [p0; p1; mk] /\ b_file (r_state r) = mk /\
  (r_end r = Some (Ok tt) /\ last_ok make (List.length (r_makes r)) \/
   (exists c, r_end r = Some (Exit c) /\ c <> 0) /\ ~ last_ok make (List.length (r_makes r))).
Proof. exact build_attempts. Qed.
Print Assumptions C67_order.

(** Both files exist as soon as the flag does. *)
Theorem C67_levels : forall mk, has_flag mk -> exists p0 p1, patched mk 0 p0 /\ patched mk 1 p1.
Proof. exact flag_levels. Qed.
Print Assumptions C67_levels.

Theorem C67_plain : forall make mk o, o = false \/ ~ has_flag (universal mk) ->
  let r := run_build make o mk None in
  r_makes r = [mk] /\ b_file (r_state r) = mk /\
  (r_end r = Some (Ok tt) /\ last_ok make 1 \/ (exists c, r_end r = Some (Exit c) /\ c <> 0) /\ ~ last_ok make 1).
Proof. exact build_once. Qed.
Print Assumptions C67_plain.

Example C67_example :
  r_makes (run_build (ex_make [2; 0; 7]) true ex_makefile None) = [ex_o0; ex_o1] /\
  r_end (run_build (ex_make [2; 0; 7]) true ex_makefile None) = Some (Ok tt) /\
  r_end (run_build (ex_make [2; 1; 7]) true ex_makefile None) = Some (Exit 1) /\
  r_makes (run_build (ex_make [2; 0; 7]) false ex_makefile None) = [ex_makefile].
Proof. vm_compute. repeat split. Qed.

(** ** C68 *)

(** After any history of operations (each with what make would say at that moment), reading the
    version gives the first version successfully read since the last clean(), configure() or
    build(), and without one it is read now. *)
Theorem C68_version : forall vm h m, fst (get_version vm m (vops_run vm h)) =
  match first_success vm (reads_since (rev h)) with Some v => Ok v | None => fresh vm m end.
Proof. exact version_read. Qed.
Print Assumptions C68_version.

Theorem C68_recomputed : forall vm h o m m', o = VClean \/ o = VBuild ->
  fst (get_version vm m (vops_run vm (h ++ [(o, m')]))) = fresh vm m.
Proof. exact version_after_reset. Qed.
Print Assumptions C68_recomputed.

(** configure() itself reads the version after its reset. *)
Theorem C68_configure : forall vm h m m' v, fresh vm m' = Ok v ->
  fst (get_version vm m (vops_run vm (h ++ [(VConfigure, m')]))) = Ok v.
Proof. exact version_configure. Qed.
Print Assumptions C68_configure.

(** With a vmlinux nothing make says matters. *)
Theorem C68_vmlinux : forall r h h' m m', map fst h = map fst h' ->
  fst (get_version (Some r) m (vops_run (Some r) h)) = fst (get_version (Some r) m' (vops_run (Some r) h')).
Proof. exact version_vmlinux. Qed.
Print Assumptions C68_vmlinux.

Example C68_example :
  let v s := Some (Ok (Some s)) in
  fst (get_version None (v [6;3;0]) (vops_run None [(VRead, v [6;1;0]); (VRead, v [6;2;0])])) = Ok [6;1;0] /\
  fst (get_version None (v [6;3;0]) (vops_run None [(VRead, v [6;1;0]); (VBuild, None)])) = Ok [6;3;0] /\
  fst (get_version (v [5;0;0]) (v [6;3;0]) (vops_run (v [5;0;0]) [(VClean, None)])) = Ok [5;0;0].
Proof. vm_compute. repeat split. Qed.
