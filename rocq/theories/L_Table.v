(** Lemmas: what was read as a table is in the file (C19, C103). *)
From Coq Require Import List Bool Ascii String ZArith Lia.
From Verif Require Import PyBase PyFacts M_Utils M_Elf M_Syscall M_Arch M_Kernel S_Elf S_Kernel L_Dummy2 L_Kernel2 L_Kernel3 L_Kernel10.
Import ListNotations.
Open Scope Z_scope.
Open Scope list_scope.

Lemma iter_unpack_Ok e c ps : iter_unpack_u (e_big e) (long_size e) c = Ok ps <-> c = stored e ps /\ Forall (is_pointer e) ps.
Proof.
  split; [|intros (-> & F); now apply iter_unpack_stored].
  unfold iter_unpack_u. rewrite long_size_bytes, Nat2Z.id. pose proof (pointer_bytes_pos e) as Hp.
  destruct (chunks (List.length c) (pointer_bytes e) c) as [l|] eqn:E; [|discriminate].
  intros H. injection H as <-. apply chunks_spec in E as (-> & F); [|lia]. split.
  - unfold stored. f_equal. rewrite map_map. clear - F. induction F as [|x l Hx F IH]; [reflexivity|]. cbn [map]. f_equal; [|exact IH].
    pose proof (enc_uint_of (e_big e) x) as U. rewrite Hx in U. now rewrite U.
  - apply Forall_forall. intros w I. apply in_map_iff in I as (x & <- & I). rewrite Forall_forall in F. specialize (F x I).
    pose proof (uint_of_range (e_big e) x) as U. unfold len in U. rewrite F in U. exact U.
Qed.

(** A file that ends within the table *)
Lemma sized_truncated e tbl target pre ps : 128 < sym_size tbl -> place e (sym_vaddr tbl) (len pre) ->
  e_file e = pre ++ stored e ps -> Forall (is_pointer e) ps -> len ps * Z.of_nat (pointer_bytes e) <= sym_size tbl ->
  unpack_syscall_table e tbl target = Ok ps.
Proof.
  intros H1 P F Hp L. apply place_iff in P. unfold unpack_syscall_table. rewrite P. cbn [bind].
  destruct (Z.ltb_spec 128 (sym_size tbl)); [|lia]. unfold iter_unpack_sized, file_read. rewrite F, (skipn_pre pre _ _ eq_refl).
  destruct (Z.ltb_spec (sym_size tbl) 0); [lia|]. rewrite firstn_all2 by (rewrite stored_length; unfold len in L; nia). now apply iter_unpack_stored.
Qed.
Lemma pointers_prefix e v ps qs : pointers_at e v (ps ++ qs) -> pointers_at e v ps.
Proof.
  intros (off & pre & post & P & L & F & Hp). exists off, pre, (stored e qs ++ post). split; [exact P|]. split; [exact L|].
  apply Forall_app in Hp as [Hp _]. split; [|exact Hp]. rewrite F. unfold stored. rewrite map_app, concat_app, <- app_assoc. reflexivity.
Qed.
Lemma table_read e tbl target ps : loaded e -> unpack_syscall_table e tbl target = Ok ps -> ps = [] \/ pointers_at e (sym_vaddr tbl) ps.
Proof.
  intros L H. assert (forall off, place e (sym_vaddr tbl) off -> 0 <= off) as Hoff by (intros off; exact (wf_place e _ off (loaded_wf e L))).
  destruct (Z.ltb_spec 128 (sym_size tbl)) as [S|S].
  - unfold unpack_syscall_table in H. destruct (vaddr_to_file_offset e (sym_vaddr tbl)) as [off| | |] eqn:P; try discriminate H. cbn [bind] in H.
    destruct (Z.ltb_spec 128 (sym_size tbl)); [|lia]. apply place_iff in P. specialize (Hoff off P). unfold iter_unpack_sized in H. apply iter_unpack_Ok in H as (E & F).
    destruct ps as [|p ps]; [now left|right]. unfold file_read in E. destruct (Z.ltb_spec (sym_size tbl) 0); [lia|].
    exists off, (firstn (Z.to_nat off) (e_file e)), (skipn (Z.to_nat (sym_size tbl)) (skipn (Z.to_nat off) (e_file e))). split; [exact P|]. split; [|split; [|exact F]].
    + unfold len. rewrite firstn_length. destruct (Nat.le_gt_cases (Z.to_nat off) (List.length (e_file e))) as [Hl|Hl]; [lia|]. exfalso.
      rewrite skipn_all2, firstn_nil in E by lia. apply (f_equal (@List.length ascii)) in E. rewrite stored_length in E. pose proof (pointer_bytes_pos e). cbn in E. lia.
    + rewrite <- E, !firstn_skipn. reflexivity.
  - right. destruct (unsized_table_Ok e tbl target ps S Hoff H) as [(X & _)|(_ & stop & X & _)]; [lia|]. now apply pointers_prefix in X.
Qed.
