(** Lemmas about the output. *)
From Coq Require Import List Bool Ascii String ZArith Lia.
From Verif Require Import PyBase PyFacts M_Utils M_Elf M_Syscall M_Arch M_Kernel M_Config M_Output S_Output L_Utils.
Import ListNotations.
Open Scope Z_scope.
Open Scope list_scope.

(** ** Text *)

Lemma ljust_blanks c w : len c <= w -> exists n, ljust c w = c ++ blanks n /\ w = len c + Z.of_nat n.
Proof. intros L. exists (Z.to_nat (w - len c)). split; [reflexivity|lia]. Qed.

Lemma padded_print cells ws : Forall2 (fun c w => len c <= w) cells ws -> cells <> [] ->
  padded ws cells (print_row ws (Some cells)).
Proof.
  induction 1 as [|c w cs ws L F IH]; intros N; [congruence|]. cbn [print_row combine map].
  destruct (ljust_blanks c w L) as (n & E & W). destruct F as [|c' w' cs ws L' F].
  - cbn [combine map join]. rewrite E. now constructor.
  - specialize (IH ltac:(discriminate)). cbn [print_row combine map] in IH |- *. cbn [join]. cbn [join] in IH. rewrite E, <- app_assoc.
    now apply pd_cell.
Qed.

Lemma fold_max_ge l : forall z, z <= fold_left Z.max l z.
Proof. induction l as [|x l IH]; intros z; cbn [fold_left]; [lia|]. specialize (IH (Z.max z x)). lia. Qed.
Lemma fold_max_in l x : forall z, In x l -> x <= fold_left Z.max l z.
Proof.
  induction l as [|y l IH]; intros z I; [destruct I|]. cbn [fold_left]. destruct I as [->|I]; [|now apply IH].
  pose proof (fold_max_ge l (Z.max z x)). lia.
Qed.
Lemma fold_max_or l : forall z, fold_left Z.max l z = z \/ In (fold_left Z.max l z) l.
Proof.
  induction l as [|y l IH]; intros z; cbn [fold_left]; [now left|]. destruct (IH (Z.max z y)) as [E|I]; [|right; now right].
  rewrite E. destruct (Z.max_spec z y) as [[_ ->]|[_ ->]]; [right; now left|now left].
Qed.

Definition eight (r : row) : Prop := forall cells, r = Some cells -> List.length cells = 8%nat.
Lemma width_ok table cells : Forall eight table -> In (Some cells) table -> Forall2 (fun c w => len c <= w) cells (widths table).
Proof.
  intros F I. assert (List.length cells = 8%nat) as L by (rewrite Forall_forall in F; exact (F _ I _ eq_refl)).
  unfold widths. change (List.length header) with 8%nat. rewrite <- L.
  assert (forall l k, (forall i, nth_error l i = nth_error cells (k + i)) -> Forall2 (fun c w => len c <= w) l (map (width table) (seq k (List.length l)))) as H.
  { induction l as [|c l IH]; intros k E; cbn [List.length seq map]; constructor.
    - unfold width. assert (In (len c) (map (cell_width k) table)) as J; [|now apply fold_max_in].
      apply in_map_iff. exists (Some cells). split; [|exact I]. cbn [cell_width]. specialize (E O). cbn [nth_error] in E.
      rewrite Nat.add_0_r in E. symmetry in E. apply f_equal. exact (nth_error_nth cells k [] E).
    - apply IH. intros i. specialize (E (S i)). cbn [nth_error] in E. rewrite E. f_equal. lia. }
  apply (H cells O). reflexivity.
Qed.
Lemma width_attained table i : In (Some header) table -> (i < 8)%nat ->
  exists cells, In (Some cells) table /\ len (nth i cells []) = width table i.
Proof.
  intros I L. unfold width. destruct (fold_max_or (map (cell_width i) table) 0) as [E|J].
  - exfalso. assert (In (cell_width i (Some header)) (map (cell_width i) table)) as J by (apply in_map_iff; eauto).
    apply (fold_max_in _ _ 0) in J. rewrite E in J. clear E I.
    do 8 (destruct i as [|i]; [vm_compute in J; congruence|]). lia.
  - apply in_map_iff in J as (r & E & J). destruct r as [cells|]; [exists cells; auto|]. cbn [cell_width] in E.
    exists header. split; [exact I|]. exfalso.
    assert (In (cell_width i (Some header)) (map (cell_width i) table)) as K by (apply in_map_iff; eauto).
    apply (fold_max_in _ _ 0) in K. rewrite <- E in K. clear E I J.
    do 8 (destruct i as [|i]; [vm_compute in K; congruence|]). lia.
Qed.

(** Cells *)
Lemma decimal_str z : 0 <= z -> decimal z (str_of_int z).
Proof.
  intros H. unfold str_of_int. replace (z <? 0) with false by lia. split; [exact H|]. split; [apply digits_ne|]. split; [apply digits_dec|].
  unfold int_dec. now apply int_of_digits_digits.
Qed.
Lemma hex_digits z : Forall (fun c => is_hex c = true) (digits 16 z).
Proof.
  apply digits_fuel_forall; [lia| |constructor]. intros d D. assert (d = 0 \/ d = 1 \/ d = 2 \/ d = 3 \/ d = 4 \/ d = 5 \/ d = 6 \/ d = 7 \/ d = 8 \/
    d = 9 \/ d = 10 \/ d = 11 \/ d = 12 \/ d = 13 \/ d = 14 \/ d = 15) as H by lia.
  repeat (destruct H as [->|H]; [vm_compute; reflexivity|]). subst. vm_compute. reflexivity.
Qed.
Lemma number_str z : 0 <= z -> number_cell z (hex z).
Proof.
  intros H. unfold hex. replace (z <? 0) with false by lia. exists (digits 16 z). split; [reflexivity|]. split; [apply digits_ne|].
  split; [apply hex_digits|]. unfold int_hex. apply int_of_digits_digits; lia.
Qed.
Lemma index_str i : (forall z, i = Some z -> 0 <= z) -> index_cell i (match i with Some z => rjust_with SP (str_of_int z) 3 | None => $"-  " end).
Proof.
  intros H. destruct i as [z|]; [|constructor]. unfold rjust_with. apply ic_some; [apply decimal_str; auto|]. lia.
Qed.
Lemma replace_fuel_none n s old new : old <> [] -> contains s old = false -> replace_fuel n s old new = s.
Proof.
  intros N. revert s. induction n as [|n IH]; intros s C; [reflexivity|]. cbn [replace_fuel]. destruct s as [|c s]; [reflexivity|].
  destruct old as [|d old]; [congruence|]. cbn [contains] in C. apply orb_false_elim in C as [C1 C2]. rewrite C1. f_equal. now apply IH.
Qed.
Lemma replace_fuel_hit n old s : old <> [] -> replace_fuel (S n) (old ++ s) old [] = replace_fuel n s old [].
Proof.
  intros N. cbn [replace_fuel]. destruct (old ++ s) as [|c t] eqn:E; [destruct old; [congruence|discriminate E]|].
  rewrite <- E, startswith_app, skipn_app_exact by reflexivity. reflexivity.
Qed.
Lemma replace_prefix o : ~ (exists a b, o = a ++ $"CONFIG_" ++ b) -> replace ($"CONFIG_" ++ o) $"CONFIG_" [] = o.
Proof.
  intros N. assert (contains o $"CONFIG_" = false) as C.
  { destruct (contains o $"CONFIG_") eqn:C; [|reflexivity]. destruct N. now apply contains_iff. }
  unfold replace. rewrite app_length. change (List.length $"CONFIG_") with 7%nat. change (7 + List.length o)%nat with (S (6 + List.length o)).
  rewrite replace_fuel_hit by discriminate. apply replace_fuel_none; [discriminate|exact C].
Qed.

Lemma location_str s : (forall f, sc_file s = Some f -> str_of_path f <> []) -> (forall l, sc_line s = Some l -> 0 <= l) ->
  place_cell (sc_file s) (sc_line s) (sc_good s) (location_cell s).
Proof.
  intros N L. unfold location_cell. destruct (sc_file s) as [f|]; [|constructor].
  assert (exists p, place (Some f) (sc_line s) p /\ p <> [] /\
    match sc_line s with Some l => if l =? 0 then str_of_path f else str_of_path f ++ $":" ++ str_of_int l | None => str_of_path f end = p) as (p & P & NE & E).
  { specialize (N f eq_refl). destruct (sc_line s) as [l|].
    - destruct (Z.eqb_spec l 0) as [->|NZ]; [exists (str_of_path f); repeat split; auto; constructor; auto|].
      specialize (L l eq_refl). eexists. split; [|split; [|reflexivity]].
      + apply pl_line; [now apply decimal_str|lia].
      + destruct (str_of_path f); [congruence|discriminate].
    - exists (str_of_path f). repeat split; auto. constructor. auto. }
  replace (match sc_line s with Some l => if l =? 0 then str_of_path f else str_of_path f ++ $":" ++ str_of_int l | None => str_of_path f end) with p.
  destruct p as [|c p]; [congruence|]. destruct (sc_good s); now constructor.
Qed.
Lemma kconfig_str k : (k = None \/ exists o, (k = Some ($"CONFIG_" ++ o) \/ k = Some o) /\ ~ (exists a b, o = a ++ $"CONFIG_" ++ b)) ->
  kconfig_cell k (match k with Some (c :: k) => replace (c :: k) $"CONFIG_" [] | _ => [] end).
Proof.
  intros [->|(o & [->| ->] & N)]; [constructor| |].
  2: { assert (contains o $"CONFIG_" = false) as C.
       { destruct (contains o $"CONFIG_") eqn:C; [|reflexivity]. destruct N. now apply contains_iff. }
       destruct o as [|c o]; [now apply kc_bare|]. unfold replace. rewrite replace_fuel_none; [now apply kc_bare|discriminate|exact C]. }
  change ($"CONFIG_" ++ o) with ("C"%char :: $"ONFIG_" ++ o) at 2. cbn iota.
  change ("C"%char :: $"ONFIG_" ++ o) with ($"CONFIG_" ++ o). rewrite (replace_prefix o N). now constructor.
Qed.
Lemma commas_join l : l <> [] -> commas l (join $", " l).
Proof.
  induction l as [|a l IH]; [congruence|]. intros _. destruct l as [|b l]; [apply co_one|]. apply (co_more a (b :: l)). apply IH. discriminate.
Qed.
Lemma signature_str g : signature_cell g (match g with Some (a :: l) => join $", " (a :: l) | Some [] => $"void" | None => $"?" end).
Proof. destruct g as [[|a l]|]; [constructor| |constructor]. apply si_args. apply commas_join. discriminate. Qed.
Lemma cells_row s : printable s -> row_for s (syscall_cells s).
Proof.
  intros [P1 P2 P3 P4 P5]. unfold syscall_cells. apply rf.
  - now apply index_str.
  - now apply number_str.
  - destruct (str_eqb (sc_origname s) (sc_name s)) eqn:E; [left|right]; (split; [|reflexivity]).
    + now apply str_eqb_eq.
    + now apply str_eqb_neq.
  - now apply location_str.
  - now apply kconfig_str.
  - apply signature_str.
Qed.

Lemma rows_print table scs : Forall eight table -> Forall printable scs -> forall prev,
  (forall r, In r (table_rows prev scs) -> In r table) ->
  prints (widths table) prev scs (map (print_row (widths table)) (table_rows prev scs)).
Proof.
  intros F. induction 1 as [|s scs P Ps IH]; intros prev I; [constructor|]. cbn [table_rows] in *.
  assert (padded (widths table) (syscall_cells s) (print_row (widths table) (Some (syscall_cells s)))) as A.
  { apply padded_print; [|discriminate]. apply width_ok; [exact F|]. apply I. apply in_or_app. right. now left. }
  assert (prints (widths table) (sc_number s) scs (map (print_row (widths table)) (table_rows (sc_number s) scs))) as B.
  { apply IH. intros r R. apply I. apply in_or_app. right. now right. }
  destruct (Z.ltb_spec 1 (sc_number s - prev)) as [G|G]; cbn [app map].
  - apply (pr_gap _ prev s scs (syscall_cells s)); auto; [lia|now apply cells_row].
  - apply (pr_next _ prev s scs (syscall_cells s)); auto. now apply cells_row.
Qed.
Lemma rows_eight prev scs : Forall eight (table_rows prev scs).
Proof.
  revert prev. induction scs as [|s scs IH]; intros prev; [constructor|]. cbn [table_rows]. apply Forall_app. split.
  - destruct (1 <? _); repeat constructor. intros c E. discriminate.
  - constructor; [|apply IH]. intros c [= <-]. reflexivity.
Qed.
Lemma rows_of prev scs cells : In (Some cells) (table_rows prev scs) -> exists s, In s scs /\ cells = syscall_cells s.
Proof.
  revert prev. induction scs as [|s scs IH]; intros prev; [intros []|]. cbn [table_rows]. rewrite in_app_iff. intros [I|[[= <-]|I]].
  - destruct (1 <? _); [destruct I as [I|[]]; discriminate I|destruct I].
  - exists s. split; [now left|reflexivity].
  - destruct (IH _ I) as (s' & A & B). exists s'. split; [now right|exact B].
Qed.

Lemma text_layout s0 scs : Forall printable (s0 :: scs) ->
  exists ws head rest, output_syscalls_text (s0 :: scs) = Ok (head :: rest) /\
    padded ws titles head /\ prints ws (sc_number s0) (s0 :: scs) rest /\
    forall i w, nth_error ws i = Some w ->
      exists cells, (cells = titles \/ exists s, In s (s0 :: scs) /\ row_for s cells) /\ len (nth i cells []) = w.
Proof.
  intros P. set (table := Some header :: table_rows (sc_number s0) (s0 :: scs)).
  assert (Forall eight table) as F by (constructor; [intros c [= <-]; reflexivity|apply rows_eight]).
  exists (widths table). eexists _, _. split; [reflexivity|]. fold table. split; [|split].
  - apply padded_print; [|discriminate]. apply width_ok; [exact F|now left].
  - apply rows_print; [exact F|exact P|]. intros r R. now right.
  - intros i w E. assert (i < 8)%nat as L.
    { assert (nth_error (widths table) i <> None) as X by congruence. apply nth_error_Some in X. unfold widths in X.
      rewrite map_length, seq_length in X. exact X. }
    destruct (width_attained table i) as (cells & I & W); [now left|exact L|]. exists cells. split.
    + destruct I as [[= <-]|I]; [now left|]. apply rows_of in I as (s & I & ->). right. exists s. split; [exact I|].
      apply cells_row. rewrite Forall_forall in P. auto.
    + unfold widths in E. change (List.length header) with 8%nat in E.
      rewrite nth_error_map in E. rewrite (nth_error_nth' (seq 0 8) O) in E by (rewrite seq_length; exact L).
      rewrite seq_nth in E by exact L. injection E as <-. exact W.
Qed.
(** Cells begin at the same place in all lines. *)
Lemma padded_at ws cells line i c : padded ws cells line -> nth_error cells i = Some c ->
  exists a b, line = a ++ c ++ b /\ len a = offset ws i.
Proof.
  intros P. revert i. induction P as [w c' n W|w c' n ws cs line W P IH]; intros i E.
  - destruct i as [|i]; [|destruct i; discriminate E]. injection E as ->. exists [], (blanks n). auto.
  - destruct i as [|i].
    + injection E as ->. exists [], (blanks n ++ blanks 2 ++ line). auto.
    + cbn [nth_error] in E. destruct (IH i E) as (a & b & -> & L). exists (c' ++ blanks n ++ blanks 2 ++ a), b.
      split; [now rewrite <- !app_assoc|]. cbn [offset]. rewrite !len_app, L, W. unfold blanks, len. rewrite !repeat_length. lia.
Qed.

(** ** JSON *)

Definition kconfig_value (k : option str) : json :=
  match k with Some (c :: k) => JStr (noprefix (c :: k) [$"CONFIG_"]) | k => jopt JStr k end.
Lemma encoded s : encode_syscall s = JObj
  [($"index", jopt JInt (sc_index s)); ($"number", JInt (sc_number s));
   ($"name", JStr (sc_name s)); ($"origname", JStr (sc_origname s)); ($"symbol", JStr (sym_name (sc_symbol s)));
   ($"file", jopt (fun p => JStr (str_of_path p)) (sc_file s)); ($"line", jopt JInt (sc_line s));
   ($"signature", jopt (fun l => JList (map JStr l)) (sc_signature s));
   ($"esoteric", JBool (sc_esoteric s)); ($"good_location", JBool (sc_good s));
   ($"grepped_location", JBool (sc_grepped s)); ($"kconfig", kconfig_value (sc_kconfig s))].
Proof. unfold encode_syscall, slots, kconfig_value. destruct (sc_kconfig s) as [[|c k]|]; reflexivity. Qed.

Lemma kconfig_value_cases k : let j := kconfig_value k in
  (k = None /\ j = JNull) \/ (exists o, k = Some ($"CONFIG_" ++ o) /\ j = JStr o) \/
  (exists o, k = Some o /\ ~ (exists o', o = $"CONFIG_" ++ o') /\ j = JStr o).
Proof.
  unfold kconfig_value. destruct k as [k|]; [|auto]. right. destruct (startswith k $"CONFIG_") eqn:E.
  - apply startswith_iff in E as [o ->]. left. exists o. split; [reflexivity|].
    change (JStr (noprefix ($"CONFIG_" ++ o) [$"CONFIG_"]) = JStr o). reflexivity.
  - right. exists k. split; [reflexivity|]. split; [intros [o ->]; rewrite startswith_app in E; discriminate|].
    destruct k as [|c k]; [reflexivity|]. f_equal. cbn [noprefix]. now rewrite E.
Qed.

Lemma json_object s : exists d, encode_syscall s = JObj d /\ object_of s d.
Proof.
  eexists. split; [apply encoded|]. split; [reflexivity|].
  repeat split; intros j I; repeat (destruct I as [I|I]; [first [discriminate I | injection I as <-]|]); try destruct I; try reflexivity.
  all: try (now destruct (sc_index s)); try (now destruct (sc_file s)); try (now destruct (sc_line s)); try (now destruct (sc_signature s)).
  apply kconfig_value_cases.
Qed.

Lemma map_JStr_inj l l' : map JStr l = map JStr l' -> l = l'.
Proof. revert l'. induction l as [|a l IH]; intros [|b l'] E; try discriminate; [reflexivity|]. cbn [map] in E. injection E as -> E. f_equal. auto. Qed.
Lemma json_injective s s' : encode_syscall s = encode_syscall s' ->
  (forall f, sc_file s = Some f -> good_path f) -> (forall f, sc_file s' = Some f -> good_path f) ->
  (forall k, sc_kconfig s = Some k -> exists o, k = $"CONFIG_" ++ o) -> (forall k, sc_kconfig s' = Some k -> exists o, k = $"CONFIG_" ++ o) ->
  sc_index s = sc_index s' /\ sc_number s = sc_number s' /\ sc_name s = sc_name s' /\ sc_origname s = sc_origname s' /\
  sym_name (sc_symbol s) = sym_name (sc_symbol s') /\ sc_file s = sc_file s' /\ sc_line s = sc_line s' /\
  sc_signature s = sc_signature s' /\ sc_esoteric s = sc_esoteric s' /\ sc_good s = sc_good s' /\
  sc_grepped s = sc_grepped s' /\ sc_kconfig s = sc_kconfig s'.
Proof.
  rewrite !encoded. pose proof (kconfig_value_cases (sc_kconfig s)) as C. pose proof (kconfig_value_cases (sc_kconfig s')) as C'.
  cbv zeta in C, C'. revert C C'. generalize (kconfig_value (sc_kconfig s)), (kconfig_value (sc_kconfig s')). intros j j' C C'. intros [= E1 E2 E3 E4 E5 E6 E7 E8 E9 E10 E11 E12] G G' K K'.
  repeat (split; [first [assumption | destruct (sc_index s), (sc_index s'); cbn in E1; congruence | idtac]|]).
  - destruct (sc_file s) as [f|], (sc_file s') as [f'|]; cbn in E6; try congruence. injection E6 as E6. f_equal.
    rewrite <- (path_str_roundtrip f (G f eq_refl)), <- (path_str_roundtrip f' (G' f' eq_refl)). now rewrite E6.
  - destruct (sc_line s), (sc_line s'); cbn in E7; congruence.
  - destruct (sc_signature s), (sc_signature s'); cbn in E8; try congruence. injection E8 as E8. f_equal. now apply map_JStr_inj.
  - subst j'. destruct C as [[-> ->]|[(o & -> & ->)|(o & B & N & _)]]; [| |destruct N; destruct (K o B) as [o' ->]; eauto];
    (destruct C' as [[-> A']|[(o2 & -> & A')|(o2 & B & N & _)]]; [| |destruct N; destruct (K' o2 B) as [o' ->]; eauto]); congruence.
Qed.

(** ** HTML *)

Lemma sum_app l m : sum (l ++ m) = sum l + sum m.
Proof. induction l as [|x l IH]; [reflexivity|]. cbn [app sum fold_right]. fold (sum (l ++ m)). fold (sum l). rewrite IH. lia. Qed.
Lemma sum_ones n : sum (repeat 1 n) = Z.of_nat n.
Proof. induction n as [|n IH]; [reflexivity|]. cbn [repeat sum fold_right]. fold (sum (repeat 1 n)). lia. Qed.
Lemma lens_in scs s l : In s scs -> sc_signature s = Some l -> In (len l) (flat_map (fun s => match sc_signature s with Some l => [len l] | None => [] end) scs).
Proof. intros I E. apply in_flat_map. exists s. split; [exact I|]. rewrite E. now left. Qed.
Lemma max_args_ok scs m : max_args scs = Ok m <->
  (exists s l, In s scs /\ sc_signature s = Some l /\ len l = m) /\ (forall s l, In s scs -> sc_signature s = Some l -> len l <= m).
Proof.
  unfold max_args. set (lens := flat_map _ scs).
  assert (forall x, In x lens -> exists s l, In s scs /\ sc_signature s = Some l /\ len l = x) as A.
  { intros x I. apply in_flat_map in I as (s & I & J). destruct (sc_signature s) as [l|] eqn:E; [|destruct J]. destruct J as [<-|[]]. eauto. }
  assert (forall s l, In s scs -> sc_signature s = Some l -> In (len l) lens) as B by (intros; now apply (lens_in scs s)).
  clearbody lens. destruct lens as [|n l].
  - split; [discriminate|]. intros [(s & l & I & E & _) _]. destruct (B s l I E).
  - assert (forall s l0, In s scs -> sc_signature s = Some l0 -> len l0 <= fold_left Z.max l n) as U.
    { intros s l0 I E. destruct (B s l0 I E) as [<-|J]; [apply fold_max_ge|now apply fold_max_in]. }
    assert (exists s l0, In s scs /\ sc_signature s = Some l0 /\ len l0 = fold_left Z.max l n) as X.
    { apply A. destruct (fold_max_or l n) as [->|J]; [now left|now right]. }
    split; [intros [= <-]; auto|]. intros [(s & l0 & I & E & <-) V]. f_equal. destruct X as (s' & l' & I' & E' & X).
    pose proof (U s l0 I E). pose proof (V s' l' I' E'). lia.
Qed.
Lemma max_args_fails scs : max_args scs = Raise ValueError <-> forall s, In s scs -> sc_signature s = None.
Proof.
  unfold max_args. destruct (flat_map _ scs) as [|n l] eqn:E; split; try discriminate; try reflexivity.
  - intros _ s I. destruct (sc_signature s) as [g|] eqn:G; [|reflexivity]. pose proof (lens_in scs s g I G) as J. rewrite E in J. destruct J.
  - intros H. exfalso. assert (In n (flat_map (fun s => match sc_signature s with Some l => [len l] | None => [] end) scs)) as J by (rewrite E; now left).
    apply in_flat_map in J as (s & I & J). rewrite (H s I) in J. destruct J.
Qed.
Lemma max_args_cases scs : (exists m, max_args scs = Ok m) \/ max_args scs = Raise ValueError.
Proof. unfold max_args. destruct (flat_map _ scs); eauto. Qed.
Lemma html_rectangle tag scs spans : output_syscalls_html tag scs = Ok spans ->
  exists m, spans = header_spans m :: map (row_spans m) scs /\ 0 <= m /\ List.length spans = S (List.length scs) /\
    forall r, In r spans -> sum r = 6 + m.
Proof.
  intros E. unfold output_syscalls_html in E. destruct (max_args scs) as [m| | |] eqn:M; try discriminate. cbn [bind] in E.
  destruct tag as [t| | |]; try discriminate. injection E as <-. exists m. split; [reflexivity|].
  apply max_args_ok in M as [(s & l & I & S & <-) U]. pose proof (len_nonneg l). split; [lia|].
  split; [cbn [List.length]; now rewrite map_length|]. intros r [<-|R].
  - unfold header_spans. rewrite sum_app, sum_ones. change (sum [2; 1; 1; 1; 1]) with 6. lia.
  - apply in_map_iff in R as (s' & <- & R). unfold row_spans. rewrite sum_app. change (sum [1; 1; 1; 1; 1; 1]) with 6. f_equal.
    destruct (sc_signature s') as [[|a g]|] eqn:G; try (cbn [sum fold_right]; lia).
    rewrite sum_app, sum_ones. pose proof (U _ _ R G) as L. change (Z.of_nat (List.length (a :: g))) with (len (a :: g)).
    destruct (Z.ltb_spec 0 (len l - len (a :: g))); cbn [sum fold_right]; lia.
Qed.

(** ** The document *)

Definition not_object (j : json) : Prop := forall d, j <> JObj d.
Lemma at_key_cases ks d x : at_key ks (JObj d) x -> not_object x -> exists k j ks', ks = k :: ks' /\ In (k, j) d /\ at_key ks' j x.
Proof. intros A N. inversion A; subst; [destruct (N d eq_refl)|eauto 6]. Qed.
Lemma at_key_leaf ks j x : not_object j -> at_key ks j x -> ks = [] /\ x = j.
Proof. intros N A. inversion A; subst; [auto|]. edestruct N. reflexivity. Qed.
Ltac open_at A N :=
  lazymatch type of A with
  | at_key _ (JObj _) _ =>
      let k := fresh "k" in let j := fresh "j" in let ks := fresh "ks" in let I := fresh "I" in
      apply at_key_cases in A as (k & j & ks & -> & I & A); [|exact N];
      repeat (destruct I as [I|I]; [injection I as <- <-; open_at A N|]); try destruct I
  | _ => apply at_key_leaf in A as [-> ->]; [|intros ? E; try discriminate E]
  end.
Lemma jopt_or_null {A} (f : A -> json) x : or_null f x (jopt f x).
Proof. now destruct x. Qed.
Lemma jopt_not_object (x : option str) : not_object (jopt JStr x).
Proof. destruct x; intros d E; discriminate E. Qed.
Lemma or_null_eq {A} (f : A -> json) x j : or_null f x j -> j = jopt f x.
Proof. now destruct x. Qed.
Lemma linux_class k : class_name k = $(linux_name k).
Proof. now destruct k. Qed.
Lemma document_spec sv t source a scs : exists j objects, json_document sv (Ok t) source a scs = Ok j /\
  Forall2 (fun s o => exists d, o = JObj d /\ object_of s d) scs objects /\
  forall ks x, (at_key ks j x /\ not_object x) <-> documented sv t source a objects ks x.
Proof.
  eexists _, (map encode_syscall scs). split; [reflexivity|]. split.
  { induction scs as [|s scs IH]; constructor; [apply json_object|exact IH]. }
  set (objects := map encode_syscall scs). clearbody objects. rewrite linux_class. intros ks x. split.
  - intros [A N]. open_at A N; try (now destruct (a_num_reg a)); try (now destruct (a_table a));
      try (now destruct (a_bits32 a)); try (now destruct (a_abi_bits32 a)); try constructor; try apply jopt_or_null.
  - intros D.
    assert (not_object x) as N.
    { destruct D as [ | | | | | | | |j H| |j H| ]; try (intros d E; discriminate E); rewrite (or_null_eq _ _ _ H); apply jopt_not_object. }
    split; [|exact N]. destruct D as [ | | | | | | | |j H| |j H| ]; try (apply or_null_eq in H; subst j).
    all: unfold K; cbn [map];
      repeat (eapply ak_in; [ cbn [In]; repeat (first [left; reflexivity | right]) | intros j2 J; cbn [In] in J; repeat (destruct J as [J|J]; [first [discriminate J | injection J as J; symmetry; exact J]|]); destruct J | ]);
      try apply ak_here.
Qed.

Lemma spans_positive m s : 0 < m -> (forall l, sc_signature s = Some l -> len l <= m) ->
  Forall (fun x => 0 < x) (header_spans m) /\ Forall (fun x => 0 < x) (row_spans m s).
Proof.
  intros M L. assert (forall n, Forall (fun x => 0 < x) (repeat 1 n)) as R by (induction n; constructor; [lia|assumption]).
  split; [unfold header_spans; apply Forall_app; split; [repeat constructor|apply R]|].
  unfold row_spans. apply Forall_app; split; [repeat constructor|]. destruct (sc_signature s) as [[|c l]|]; try (repeat constructor; lia).
  apply Forall_app. split; [apply R|]. destruct (Z.ltb_spec 0 (m - len (c :: l))); repeat constructor. lia.
Qed.
Lemma html_table tag scs spans : output_syscalls_html tag scs = Ok spans ->
  exists m, (exists s l, In s scs /\ sc_signature s = Some l /\ len l = m) /\
    (forall s l, In s scs -> sc_signature s = Some l -> len l <= m) /\
    List.length spans = S (List.length scs) /\
    forall r, In r spans -> sum r = 6 + m /\ (0 < m -> Forall (fun x => 0 < x) r).
Proof.
  intros E. pose proof E as E'. unfold output_syscalls_html in E'. destruct (max_args scs) as [m| | |] eqn:M; try discriminate. cbn [bind] in E'.
  destruct tag as [t| | |]; try discriminate. injection E' as E'. apply max_args_ok in M as [X U]. exists m. split; [exact X|]. split; [exact U|].
  apply html_rectangle in E as (m' & E & M' & L & R). assert (m' = m) as ->.
  { rewrite <- E' in E. apply (f_equal (hd [])) in E. cbn [hd] in E. apply (f_equal sum) in E. unfold header_spans in E.
    rewrite !sum_app, !sum_ones in E. destruct X as (s & l & _ & _ & X). pose proof (len_nonneg l). lia. }
  split; [exact L|]. intros r I. split; [now apply R|]. intros P. rewrite E in I. destruct I as [<-|I].
  - now apply (spans_positive m (Syscall None 0 [] [] (Symbol 0 0 0 [] []) None None None None false false false)).
  - apply in_map_iff in I as (s & <- & I). apply spans_positive; [exact P|]. intros l S. exact (U s l I S).
Qed.
Lemma html_ok v scs : (exists spans, output_syscalls_html (version_tag v) scs = Ok spans) <->
  (exists s l, In s scs /\ sc_signature s = Some l) /\ List.length v = 3%nat.
Proof.
  unfold output_syscalls_html. split.
  - intros [spans E]. destruct (max_args scs) as [m| | |] eqn:M; try discriminate. cbn [bind] in E.
    apply max_args_ok in M as [(s & l & I & S & _) _]. split; [eauto|]. unfold version_tag in E.
    destruct v as [|x [|y [|z [|w v]]]]; try discriminate. reflexivity.
  - intros [(s & l & I & S) L]. destruct (max_args_cases scs) as [[m ->]|F].
    + destruct v as [|x [|y [|z [|w v]]]]; try discriminate L. cbn. unfold version_tag. destruct (z =? 0); cbn; eauto.
    + apply (proj1 (max_args_fails scs)) with (s := s) in F; [congruence|exact I].
Qed.
