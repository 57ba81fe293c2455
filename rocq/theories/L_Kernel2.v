(** Lemmas about the model of kernel.py: reading the syscall table. *)
From Coq Require Import List Bool Ascii String ZArith Lia.
From Verif Require Import PyBase PyFacts M_Utils S_Utils M_Elf S_Elf L_Elf M_Syscall M_Arch S_Arch
  M_Emu M_Kconfig M_Kernel S_Kernel.
Import ListNotations.
Open Scope Z_scope.
Open Scope list_scope.

(** * Encodings *)

Lemma le_bytes_le_val b : le_bytes (List.length b) (le_val b) = b.
Proof.
  induction b as [|c b IH]; [reflexivity|]. cbn [List.length le_bytes le_val].
  pose proof (code_range c).
  replace ((code c + 256 * le_val b) mod 256) with (code c)
    by (rewrite Z.mul_comm, Z.mod_add, Z.mod_small; lia).
  replace ((code c + 256 * le_val b) / 256) with (le_val b)
    by (rewrite Z.mul_comm, Z.div_add, Z.div_small; lia).
  now rewrite IH, chr_code.
Qed.
Lemma enc_uint_of big b : enc_uint big (List.length b) (uint_of big b) = b.
Proof.
  unfold enc_uint, uint_of. destruct big; [|apply le_bytes_le_val].
  rewrite <- (rev_length b), le_bytes_le_val. apply rev_involutive.
Qed.

Lemma pointer_bytes_pos e : (0 < pointer_bytes e)%nat.
Proof. unfold pointer_bytes. destruct (e_bits32 e); lia. Qed.
Lemma long_size_bytes e : long_size e = Z.of_nat (pointer_bytes e).
Proof. unfold long_size, pointer_bytes. now destruct (e_bits32 e). Qed.

Lemma stored_cons e p ps : stored e (p :: ps) = enc_uint (e_big e) (pointer_bytes e) p ++ stored e ps.
Proof. reflexivity. Qed.
Lemma stored_length e ps : List.length (stored e ps) = (List.length ps * pointer_bytes e)%nat.
Proof.
  induction ps as [|p ps IH]; [reflexivity|]. rewrite stored_cons, app_length, enc_uint_length, IH. cbn. lia.
Qed.
Lemma stored_app e a b : stored e (a ++ b) = stored e a ++ stored e b.
Proof. unfold stored. now rewrite map_app, concat_app. Qed.

(** Every byte string of a fitting length is a list of pointers. *)
Lemma bytes_stored e k b : List.length b = (k * pointer_bytes e)%nat ->
  exists ps, b = stored e ps /\ Forall (is_pointer e) ps /\ List.length ps = k.
Proof.
  revert b; induction k as [|k IH]; intros b H.
  - destruct b; [|discriminate H]. exists []. now repeat split.
  - cbn in H. destruct (IH (skipn (pointer_bytes e) b)) as (ps & E & F & L).
    { rewrite skipn_length. lia. }
    assert (List.length (firstn (pointer_bytes e) b) = pointer_bytes e) as Lf by (rewrite firstn_length; lia).
    set (h := firstn (pointer_bytes e) b) in *.
    exists (uint_of (e_big e) h :: ps).
    rewrite stored_cons, <- E. pose proof (enc_uint_of (e_big e) h) as Eh. rewrite Lf in Eh. rewrite Eh.
    split; [unfold h; now rewrite firstn_skipn|]. split.
    + apply Forall_cons; [|exact F]. unfold is_pointer. rewrite <- Lf.
      exact (uint_of_range (e_big e) h).
    + cbn. now rewrite L.
Qed.

(** * Places *)

Lemma place_iff e v off : place e v off <-> vaddr_to_file_offset e v = Ok off.
Proof.
  unfold vaddr_to_file_offset, dvalues. split.
  - intros (s1 & s & s2 & E & C & N & ->). rewrite E. rewrite vaddr_to_off_first.
    + reflexivity.
    + apply in_section_iff. exact C.
    + intros x Hx. destruct (in_section x v) eqn:Ex; [|reflexivity].
      apply in_section_iff in Ex. exfalso. apply (N x Hx). exact Ex.
  - intros H. unfold place. induction (map snd (e_sections e)) as [|s l IH]; cbn in H; [discriminate|].
    destruct (in_section s v) eqn:Es.
    + exists [], s, l. split; [reflexivity|]. split; [apply in_section_iff; exact Es|]. split; [intros x []|].
      injection H as <-. lia.
    + destruct (IH H) as (s1 & s' & s2 & -> & C & N & O). exists (s :: s1), s', s2.
      split; [reflexivity|]. split; [exact C|]. split; [|exact O]. intros x [<-|Hx]; [|now apply N].
      intros Hc. apply in_section_iff in Hc. congruence.
Qed.

(** * One pointer *)

Lemma is_pointer_unpack e p : is_pointer e p ->
  unpack_u (e_big e) (long_size e) (enc_uint (e_big e) (pointer_bytes e) p) = Ok p.
Proof. intros H. rewrite long_size_bytes. now apply unpack_enc. Qed.

Lemma firstn_enc e p x : firstn (Z.to_nat (long_size e)) (enc_uint (e_big e) (pointer_bytes e) p ++ x)
  = enc_uint (e_big e) (pointer_bytes e) p.
Proof. rewrite long_size_bytes, Nat2Z.id. rewrite <- (enc_uint_length (e_big e) (pointer_bytes e) p) at 1. apply firstn_app_exact. Qed.
Lemma skipn_enc e p x : skipn (Z.to_nat (long_size e)) (enc_uint (e_big e) (pointer_bytes e) p ++ x) = x.
Proof. rewrite long_size_bytes, Nat2Z.id. rewrite <- (enc_uint_length (e_big e) (pointer_bytes e) p) at 1. apply skipn_app_exact. Qed.

Lemma skipn_pre (pre x : bytes) off : len pre = off -> skipn (Z.to_nat off) (pre ++ x) = x.
Proof. intros <-. unfold len. rewrite Nat2Z.id. apply skipn_app_exact. Qed.

Lemma unpack_long_at e v p : pointers_at e v [p] -> unpack_long e v = Ok p.
Proof.
  intros (off & pre & post & P & L & F & Hp). apply place_iff in P.
  unfold unpack_long, vaddr_read. rewrite P. cbn [bind]. unfold file_read.
  rewrite F, (skipn_pre pre _ off L). rewrite stored_cons. cbn [stored map List.concat].
  change (stored e []) with (@nil ascii). rewrite app_nil_r.
  destruct (Z.ltb_spec (long_size e) 0) as [Hn|_]; [rewrite long_size_bytes in Hn; lia|].
  rewrite firstn_enc. apply is_pointer_unpack. now inversion Hp.
Qed.

Lemma unpack_long_Ok e v p : (forall off, place e v off -> 0 <= off) ->
  unpack_long e v = Ok p -> pointers_at e v [p].
Proof.
  intros Hoff H. unfold unpack_long, vaddr_read in H.
  destruct (vaddr_to_file_offset e v) as [off| | |] eqn:P; try discriminate H. cbn [bind] in H.
  unfold unpack_u, file_read in H. apply place_iff in P. specialize (Hoff off P).
  destruct (Z.ltb_spec (long_size e) 0) as [Hn|_]; [rewrite long_size_bytes in Hn; lia|].
  set (r := skipn (Z.to_nat off) (e_file e)) in *.
  destruct (Z.eqb_spec (len (firstn (Z.to_nat (long_size e)) r)) (long_size e)) as [L|]; [|discriminate H].
  injection H as Hp. rewrite long_size_bytes, Nat2Z.id in *. unfold len in L. apply Nat2Z.inj in L.
  exists off, (firstn (Z.to_nat off) (e_file e)), (skipn (pointer_bytes e) r).
  split; [exact P|]. split.
  - unfold len. rewrite firstn_length. destruct (Nat.le_gt_cases (Z.to_nat off) (List.length (e_file e))) as [Hl|Hl]; [lia|].
    exfalso. assert (r = []) as Er by (apply skipn_all2; lia). rewrite Er, firstn_nil in L. cbn in L.
    pose proof (pointer_bytes_pos e). lia.
  - split.
    + rewrite stored_cons. change (stored e []) with (@nil ascii). rewrite app_nil_r, <- Hp.
      pose proof (enc_uint_of (e_big e) (firstn (pointer_bytes e) r)) as U. rewrite L in U. rewrite U.
      unfold r. now rewrite !firstn_skipn.
    + apply Forall_cons; [|constructor]. rewrite <- Hp. unfold is_pointer.
      pose proof (uint_of_range (e_big e) (firstn (pointer_bytes e) r)) as U. unfold len in U. now rewrite L in U.
Qed.

(** * Sized tables *)

Lemma iter_unpack_stored e ps : Forall (is_pointer e) ps ->
  iter_unpack_u (e_big e) (long_size e) (stored e ps) = Ok ps.
Proof.
  intros F. unfold iter_unpack_u. rewrite long_size_bytes, Nat2Z.id. unfold stored.
  rewrite chunks_concat; [|apply pointer_bytes_pos| |].
  - f_equal. rewrite map_map. rewrite <- (map_id ps) at 2. apply map_ext_in. intros p Hp.
    rewrite Forall_forall in F. apply uint_of_enc, (F p Hp).
  - apply Forall_forall. intros c Hc. apply in_map_iff in Hc as (p & <- & _). apply enc_uint_length.
  - constructor.
Qed.

Lemma sized_table e tbl target ps : 128 < sym_size tbl ->
  sym_size tbl = len ps * Z.of_nat (pointer_bytes e) -> pointers_at e (sym_vaddr tbl) ps ->
  unpack_syscall_table e tbl target = Ok ps.
Proof.
  intros H1 H2 (off & pre & post & P & L & F & Hp). apply place_iff in P.
  unfold unpack_syscall_table. rewrite P. cbn [bind].
  destruct (Z.ltb_spec 128 (sym_size tbl)); [|lia].
  unfold iter_unpack_sized, file_read. rewrite F, (skipn_pre pre _ off L).
  destruct (Z.ltb_spec (sym_size tbl) 0); [lia|].
  replace (Z.to_nat (sym_size tbl)) with (List.length (stored e ps))
    by (rewrite stored_length, H2; unfold len; nia).
  rewrite firstn_app_exact. now apply iter_unpack_stored.
Qed.

Lemma split_file (file : bytes) off n : 0 <= off -> 0 <= n -> off + n <= len file ->
  exists pre x post, file = pre ++ x ++ post /\ len pre = off /\ len x = n /\
    x = firstn (Z.to_nat n) (skipn (Z.to_nat off) file).
Proof.
  intros H1 H2 H3. unfold len in *. exists (firstn (Z.to_nat off) file), (firstn (Z.to_nat n) (skipn (Z.to_nat off) file)),
    (skipn (Z.to_nat n) (skipn (Z.to_nat off) file)).
  rewrite !firstn_skipn. split; [reflexivity|]. rewrite !firstn_length, skipn_length. split; [lia|]. split; [lia|reflexivity].
Qed.

Lemma sized_table_total e tbl target off : 128 < sym_size tbl -> place e (sym_vaddr tbl) off -> 0 <= off ->
  off + sym_size tbl <= len (e_file e) -> sym_size tbl mod Z.of_nat (pointer_bytes e) = 0 ->
  exists ps, len ps = sym_size tbl / Z.of_nat (pointer_bytes e) /\
    pointers_at e (sym_vaddr tbl) ps /\ unpack_syscall_table e tbl target = Ok ps.
Proof.
  intros H1 P H2 H3 H4. pose proof (pointer_bytes_pos e) as Hpos.
  destruct (split_file (e_file e) off (sym_size tbl)) as (pre & x & post & F & L & Lx & _); [lia..|].
  destruct (bytes_stored e (Z.to_nat (sym_size tbl / Z.of_nat (pointer_bytes e))) x) as (ps & -> & Fp & Lp).
  { unfold len in Lx. pose proof (Z.div_mod (sym_size tbl) (Z.of_nat (pointer_bytes e))) as D.
    assert (0 <= sym_size tbl / Z.of_nat (pointer_bytes e)) by (apply Z.div_pos; lia). nia. }
  assert (0 <= sym_size tbl / Z.of_nat (pointer_bytes e)) by (apply Z.div_pos; lia).
  assert (len ps = sym_size tbl / Z.of_nat (pointer_bytes e)) as Lps by (unfold len; lia).
  assert (pointers_at e (sym_vaddr tbl) ps) by (exists off, pre, post; auto).
  exists ps. split; [exact Lps|]. split; [assumption|]. apply sized_table; auto.
  rewrite Lps. pose proof (Z.div_mod (sym_size tbl) (Z.of_nat (pointer_bytes e))). lia.
Qed.

Lemma sized_table_odd e tbl target off : 128 < sym_size tbl -> place e (sym_vaddr tbl) off -> 0 <= off ->
  off + sym_size tbl <= len (e_file e) -> sym_size tbl mod Z.of_nat (pointer_bytes e) <> 0 ->
  unpack_syscall_table e tbl target = Raise StructError.
Proof.
  intros H1 P H2 H3 H4. pose proof (pointer_bytes_pos e) as Hpos. apply place_iff in P.
  unfold unpack_syscall_table. rewrite P. cbn [bind].
  destruct (Z.ltb_spec 128 (sym_size tbl)); [|lia].
  unfold iter_unpack_sized, file_read. destruct (Z.ltb_spec (sym_size tbl) 0); [lia|].
  destruct (split_file (e_file e) off (sym_size tbl)) as (pre & x & post & F & L & Lx & Ex); [lia..|].
  rewrite <- Ex. unfold iter_unpack_u. rewrite long_size_bytes, Nat2Z.id.
  destruct (chunks (List.length x) (pointer_bytes e) x) as [l|] eqn:E; [|reflexivity].
  exfalso. apply H4. assert (exists l, chunks (List.length x) (pointer_bytes e) x = Some l) as Hex by eauto.
  apply (chunks_Some_iff (List.length x) (pointer_bytes e) x) in Hex; [|assumption|constructor].
  rewrite <- Lx. unfold len. rewrite <- Nat2Z.inj_mod. lia.
Qed.

(** * Unsized tables *)

Lemma boundary_ok e tbl cur :
  (match match next_symbol e tbl with Some s => Some (sym_vaddr s) | None => None end with
   | Some b => b <=? cur | None => false end) = false <->
  forall s, In s (map snd (e_symbols e)) -> sym_real tbl < sym_real s -> cur < sym_vaddr s.
Proof.
  unfold next_symbol, dvalues. 
  set (l := filter (fun x => sym_real tbl <? sym_real x) (map snd (e_symbols e))).
  assert (Hl : forall s, In s l <-> In s (map snd (e_symbols e)) /\ sym_real tbl < sym_real s).
  { intros s. unfold l. rewrite filter_In. now rewrite Z.ltb_lt. }
  destruct l as [|c cs].
  - split; [intros _ s H1 H2; destruct (proj2 (Hl s) (conj H1 H2))|reflexivity].
  - rewrite Z.leb_gt. split.
    + intros H s H1 H2. pose proof (min_by_le sym_vaddr c cs s (proj2 (Hl s) (conj H1 H2))). lia.
    + intros H. destruct (proj1 (Hl _) (min_by_in sym_vaddr c cs)) as [H1 H2]. now apply H.
Qed.

Lemma in_target_iff sec v : in_target sec v = true <-> inside sec v.
Proof. unfold in_target, inside. lia. Qed.

Lemma good_entry_iff e tbl target i p cur : cur = sym_vaddr tbl + i * Z.of_nat (pointer_bytes e) ->
  (good_entry e tbl target i p <-> in_target target p = true /\
   (match match next_symbol e tbl with Some s => Some (sym_vaddr s) | None => None end with
    | Some b => b <=? cur | None => false end) = false).
Proof.
  intros ->. unfold good_entry. rewrite in_target_iff. pose proof (boundary_ok e tbl (sym_vaddr tbl + i * Z.of_nat (pointer_bytes e))).
  tauto.
Qed.

Lemma read_entries_run e tbl target stop post : forall run i fuel,
  Forall (is_pointer e) (run ++ [stop]) ->
  (forall j p, nth_error run j = Some p -> good_entry e tbl target (i + Z.of_nat j) p) ->
  ~ good_entry e tbl target (i + len run) stop ->
  (List.length run < fuel)%nat ->
  read_entries fuel (e_big e) (long_size e) target
    (match next_symbol e tbl with Some s => Some (sym_vaddr s) | None => None end)
    (stored e (run ++ [stop]) ++ post) (sym_vaddr tbl + i * Z.of_nat (pointer_bytes e)) = Ok run.
Proof.
  induction run as [|p run IH]; intros i fuel Fp Hg Hs Hf; (destruct fuel as [|fuel]; [cbn in Hf; lia|]);
    cbn [read_entries app]; rewrite stored_cons, <- app_assoc, firstn_enc; inversion Fp as [|? ? Hp Fp'];
    rewrite is_pointer_unpack by assumption; cbn [bind].
  - change (len (@nil Z)) with 0 in Hs. rewrite Z.add_0_r in Hs.
    rewrite (good_entry_iff e tbl target i stop _ eq_refl) in Hs.
    destruct (in_target target stop); cbn [negb]; [|reflexivity].
    destruct (match match next_symbol e tbl with Some s => Some (sym_vaddr s) | None => None end with
              | Some b => b <=? _ | None => false end); [reflexivity|]. exfalso. now apply Hs.
  - specialize (Hg O p eq_refl) as Hg0. cbn in Hg0. rewrite Z.add_0_r in Hg0.
    apply (good_entry_iff e tbl target i p _ eq_refl) in Hg0 as [-> ->]. cbn [negb].
    rewrite skipn_enc. rewrite long_size_bytes at 2.
    replace (sym_vaddr tbl + i * Z.of_nat (pointer_bytes e) + Z.of_nat (pointer_bytes e))
      with (sym_vaddr tbl + (i + 1) * Z.of_nat (pointer_bytes e)) by lia.
    rewrite IH; [reflexivity|assumption| | |cbn in Hf; lia].
    + intros j q Hq. specialize (Hg (S j) q Hq). now replace (i + 1 + Z.of_nat j) with (i + Z.of_nat (S j)) by lia.
    + rewrite len_cons in Hs. now replace (i + 1 + len run) with (i + (1 + len run)) by lia.
Qed.

Lemma unsized_table e tbl target run stop : sym_size tbl <= 128 ->
  pointers_at e (sym_vaddr tbl) (run ++ [stop]) ->
  (forall i p, nth_error run i = Some p -> good_entry e tbl target (Z.of_nat i) p) ->
  ~ good_entry e tbl target (len run) stop ->
  unpack_syscall_table e tbl target = Ok run.
Proof.
  intros H1 (off & pre & post & P & L & F & Hp) Hg Hs. apply place_iff in P.
  unfold unpack_syscall_table. rewrite P. cbn [bind]. destruct (Z.ltb_spec 128 (sym_size tbl)); [lia|].
  cbv zeta. rewrite F, (skipn_pre pre _ off L).
  replace (sym_vaddr tbl) with (sym_vaddr tbl + 0 * Z.of_nat (pointer_bytes e)) at 1 by lia.
  apply read_entries_run; auto. rewrite app_length, stored_length, app_length.
  pose proof (pointer_bytes_pos e). cbn. nia.
Qed.

Lemma read_entries_Ok e tbl target l : forall fuel rest i,
  read_entries fuel (e_big e) (long_size e) target
    (match next_symbol e tbl with Some s => Some (sym_vaddr s) | None => None end)
    rest (sym_vaddr tbl + i * Z.of_nat (pointer_bytes e)) = Ok l ->
  exists stop post, rest = stored e (l ++ [stop]) ++ post /\ Forall (is_pointer e) (l ++ [stop]) /\
    (forall j p, nth_error l j = Some p -> good_entry e tbl target (i + Z.of_nat j) p) /\
    ~ good_entry e tbl target (i + len l) stop.
Proof.
  intros fuel. revert l. induction fuel as [|fuel IH]; intros l rest i H; cbn [read_entries] in H; [discriminate|].
  unfold unpack_u in H. rewrite long_size_bytes, Nat2Z.id in H. set (h := firstn (pointer_bytes e) rest) in *.
  destruct (Z.eqb_spec (len h) (Z.of_nat (pointer_bytes e))) as [Lh|]; [|discriminate H]. cbn [bind] in H.
  unfold len in Lh. apply Nat2Z.inj in Lh. set (p := uint_of (e_big e) h) in *.
  assert (Hp : is_pointer e p).
  { unfold is_pointer, p. pose proof (uint_of_range (e_big e) h) as U. unfold len in U. now rewrite Lh in U. }
  assert (Er : rest = enc_uint (e_big e) (pointer_bytes e) p ++ skipn (pointer_bytes e) rest).
  { unfold p. pose proof (enc_uint_of (e_big e) h) as Eh. rewrite Lh in Eh. rewrite Eh. unfold h. now rewrite firstn_skipn. }
  assert (Hbad : l = [] -> ~ good_entry e tbl target i p -> exists stop post, rest = stored e (l ++ [stop]) ++ post /\ Forall (is_pointer e) (l ++ [stop]) /\
    (forall j p, nth_error l j = Some p -> good_entry e tbl target (i + Z.of_nat j) p) /\
    ~ good_entry e tbl target (i + len l) stop).
  { intros -> Hb. exists p, (skipn (pointer_bytes e) rest). cbn [app]. rewrite stored_cons.
    change (stored e []) with (@nil ascii). rewrite app_nil_r. split; [exact Er|].
    split; [now apply Forall_cons|]. split; [intros [|j] q Hq; discriminate Hq|].
    change (len (@nil Z)) with 0. now rewrite Z.add_0_r. }
  pose proof (good_entry_iff e tbl target i p _ eq_refl) as G.
  destruct (in_target target p) eqn:T; cbn [negb] in H.
  2:{ injection H as <-. apply Hbad; [reflexivity|]. rewrite G. intros [? _]. congruence. }
  destruct (match match next_symbol e tbl with Some s => Some (sym_vaddr s) | None => None end with
            | Some b => b <=? _ | None => false end) eqn:B.
  { injection H as <-. apply Hbad; [reflexivity|]. rewrite G. intros [_ ?]. congruence. }
  replace (sym_vaddr tbl + i * Z.of_nat (pointer_bytes e) + Z.of_nat (pointer_bytes e))
      with (sym_vaddr tbl + (i + 1) * Z.of_nat (pointer_bytes e)) in H by lia.
  rewrite <- long_size_bytes in H.
  match type of H with (r <- ?X ;; _) = _ => destruct X as [l'| | |] eqn:E; try discriminate H end.
  cbn [bind] in H. injection H as <-.
  rewrite long_size_bytes in E at 2; apply IH in E as (stop & post & Es & Fp & Hg & Hs). exists stop, post.
  cbn [app]. rewrite stored_cons, <- app_assoc, <- Es. split; [exact Er|]. split; [now apply Forall_cons|]. split.
  - intros [|j] q Hq.
    + injection Hq as <-. rewrite Z.add_0_r. now apply G.
    + specialize (Hg j q Hq). now replace (i + Z.of_nat (S j)) with (i + 1 + Z.of_nat j) by lia.
  - rewrite len_cons. now replace (i + (1 + len l')) with (i + 1 + len l') by lia.
Qed.

Lemma unsized_table_Ok e tbl target l : sym_size tbl <= 128 -> (forall off, place e (sym_vaddr tbl) off -> 0 <= off) ->
  unpack_syscall_table e tbl target = Ok l -> table_entries e tbl target l.
Proof.
  intros H1 Hoff H. right. split; [exact H1|]. unfold unpack_syscall_table in H.
  destruct (vaddr_to_file_offset e (sym_vaddr tbl)) as [off| | |] eqn:P; try discriminate H. cbn [bind] in H.
  destruct (Z.ltb_spec 128 (sym_size tbl)); [lia|]. cbv zeta in H.
  apply place_iff in P. specialize (Hoff off P).
  replace (sym_vaddr tbl) with (sym_vaddr tbl + 0 * Z.of_nat (pointer_bytes e)) in H at 1 by lia.
  apply read_entries_Ok in H as (stop & post & Es & Fp & Hg & Hs). exists stop.
  split; [|split; [exact Hg|exact Hs]].
  exists off, (firstn (Z.to_nat off) (e_file e)), post. split; [exact P|]. split.
  - unfold len. rewrite firstn_length.
    destruct (Nat.le_gt_cases (Z.to_nat off) (List.length (e_file e))) as [Hl|Hl]; [lia|]. exfalso.
    rewrite skipn_all2 in Es by lia. apply (f_equal (@List.length ascii)) in Es.
    rewrite app_length, stored_length, app_length in Es. pose proof (pointer_bytes_pos e). cbn in Es. nia.
  - split; [|exact Fp]. rewrite <- Es. now rewrite firstn_skipn.
Qed.

Lemma table_entries_ok e tbl target ps : table_entries e tbl target ps -> unpack_syscall_table e tbl target = Ok ps.
Proof.
  intros [(H1 & H2 & H3)|(H1 & stop & H2 & H3 & H4)]; [now apply sized_table|now apply (unsized_table e tbl target ps stop)].
Qed.
