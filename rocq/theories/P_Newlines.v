(** Properties C65 and C67 for Makefiles with any line ends. *)
From Coq Require Import List Bool Ascii String ZArith Lia.
From Verif Require Import PyBase PyFacts M_Utils M_Elf M_Kernel M_Build S_Build L_Build S_Ends L_Ends L_Build2 P_Build.
Import ListNotations.
Open Scope Z_scope.
Open Scope list_scope.

(** ** C65 *)

(** When build() runs to its end the Makefile is read as before: the same but for line ends. *)
Theorem C65_reads_same : forall make mk u o, reads_as mk u ->
  reads_as (b_file (r_state (run_build make o mk None))) u.
Proof. exact restored_any. Qed.
Print Assumptions C65_reads_same.

(** And exactly when it is lost by an interruption. *)
Theorem C65_reads_lost : forall make mk u n, reads_as mk u ->
  (reads_as (after_exit (r_state (run_build make true mk (Some n)))) u <->
   ~ (has_flag u /\ (n = 3%nat \/ (make 0%nat <> Some 0 /\ (12 <= n <= 15)%nat)))).
Proof. exact lost_any. Qed.
Print Assumptions C65_reads_lost.

(** There is one text a file is read as. *)
Theorem C65_reads : forall s, exists t, reads_as s t /\ forall t', reads_as s t' -> t' = t.
Proof. exact (fun s => ex_intro _ _ (conj (reads_universal s) (fun t' H => reads_as_universal s t' H))). Qed.
Print Assumptions C65_reads.

(** ** C67 *)

Theorem C67_newlines : forall make mk u p0 p1, reads_as mk u -> patched u 0 p0 -> patched u 1 p1 ->
  let r := run_build make true mk None in
  r_makes r = attempts make 0 [p0; p1; u] /\ b_file (r_state r) = u /\
  (r_end r = Some (Ok tt) /\ last_ok make (List.length (r_makes r)) \/
   (exists c, r_end r = Some (Exit c) /\ c <> 0) /\ ~ last_ok make (List.length (r_makes r))).
Proof. exact attempts_any. Qed.
Print Assumptions C67_newlines.

(** The Makefile of P_Build.v, with lines that end with CR LF. *)
Definition ex_crlf : str := flat_map (fun c => if Ascii.eqb c NL then [CR; NL] else [c]) ex_makefile.
Example C65_example_crlf : ex_crlf <> ex_makefile /\ reads_as ex_crlf ex_makefile /\
  b_file (r_state (run_build (ex_make [0]) true ex_crlf None)) = ex_makefile /\
  after_exit (r_state (run_build (ex_make [0]) true ex_crlf (Some 2%nat))) = ex_crlf /\
  after_exit (r_state (run_build (ex_make [0]) true ex_crlf (Some 3%nat))) = ex_o0.
Proof.
  split; [vm_compute; discriminate|]. split; [|vm_compute; auto].
  replace ex_makefile with (universal ex_crlf) by (vm_compute; reflexivity). apply reads_universal.
Qed.
Example C67_example_crlf : patched ex_makefile 0 ex_o0 /\ patched ex_makefile 1 ex_o1 /\
  r_makes (run_build (ex_make [2; 0]) true ex_crlf None) = [ex_o0; ex_o1].
Proof. split; [apply level_iff; vm_compute; reflexivity|split; [apply level_iff; vm_compute; reflexivity|vm_compute; reflexivity]]. Qed.
