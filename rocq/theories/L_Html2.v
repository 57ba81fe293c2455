(** Lemmas for C93: the table of the page, and what it tells. *)
From Coq Require Import List Bool Ascii String ZArith Lia.
From Verif Require Import PyBase PyFacts M_Utils M_Elf M_Syscall M_Arch M_Config M_Output M_Templates M_Html S_Html L_Html.
Import ListNotations.
Open Scope Z_scope.
Open Scope list_scope.

(** * Nesting *)

Definition balanced (ts : list token) : Prop := forall st r, nested st (ts ++ r) = nested st r.
Lemma balanced_nil : balanced [].
Proof. intros st r. reflexivity. Qed.
Lemma balanced_app a b : balanced a -> balanced b -> balanced (a ++ b).
Proof. intros A B st r. rewrite <- app_assoc, A. apply B. Qed.
Lemma balanced_chars l : balanced (chars l).
Proof. induction l as [|c l IH]; intros st r; [reflexivity|]. cbn. apply IH. Qed.
Lemma balanced_elt n l ts : is_void n = false -> balanced ts -> balanced (elt n l ts).
Proof.
  intros V B st r. unfold elt. cbn [app nested]. rewrite V, <- app_assoc, B. cbn [app nested]. now rewrite str_eqb_refl.
Qed.
Lemma balanced_line n ts : balanced ts -> balanced (on_line n ts).
Proof. intros B. unfold on_line. repeat apply balanced_app; auto using balanced_chars. Qed.
Lemma balanced_flat {A} (f : A -> list token) l : (forall x, balanced (f x)) -> balanced (flat_map f l).
Proof. intros H. induction l; [apply balanced_nil|]. cbn. now apply balanced_app. Qed.
(** A line with an opening or a closing tag *)
Lemma line_start n name l st r : is_void name = false -> nested st (on_line n [TStart name l] ++ r) = nested (name :: st) r.
Proof. intros V. unfold on_line. rewrite <- !app_assoc, balanced_chars. cbn [app nested]. rewrite V. apply (balanced_chars [10]). Qed.
Lemma line_void n name l st r : is_void name = true -> nested st (on_line n [TStart name l] ++ r) = nested st r.
Proof. intros V. unfold on_line. rewrite <- !app_assoc, balanced_chars. cbn [app nested]. rewrite V. apply (balanced_chars [10]). Qed.
Lemma line_end n name st r : nested (name :: st) (on_line n [TEnd name] ++ r) = nested st r.
Proof. unfold on_line. rewrite <- !app_assoc, balanced_chars. cbn [app nested]. rewrite str_eqb_refl. apply (balanced_chars [10]). Qed.
Lemma line_doctype n t st r : nested st (on_line n [TDoctype t] ++ r) = nested st r.
Proof. unfold on_line. rewrite <- !app_assoc, balanced_chars. cbn [app nested]. apply (balanced_chars [10]). Qed.
(** An element over several lines *)
Lemma balanced_block n m name l ts : is_void name = false -> balanced ts -> balanced (on_line n [TStart name l] ++ ts ++ on_line m [TEnd name]).
Proof. intros V B st r. rewrite <- !app_assoc, line_start, B, line_end; auto. Qed.

Lemma balanced_place tag f line anchor : balanced (place_tokens tag f line anchor).
Proof. unfold place_tokens. apply balanced_line. destruct (relative f); [apply balanced_elt; [reflexivity|]|]; apply balanced_chars. Qed.
Lemma balanced_location tag s : balanced (location_tokens tag s).
Proof.
  unfold location_tokens. destruct (sc_file s); [apply balanced_block; [reflexivity|apply balanced_place]|].
  apply balanced_line, balanced_elt; [reflexivity|apply balanced_chars].
Qed.
Lemma balanced_simple s : balanced (simple s).
Proof. apply balanced_line, balanced_elt; [reflexivity|apply balanced_chars]. Qed.
Lemma balanced_arg x : balanced (arg_tokens x).
Proof.
  apply balanced_line, balanced_elt; [reflexivity|]. apply balanced_app; apply balanced_elt; try reflexivity; apply balanced_chars.
Qed.
Lemma balanced_signature m s : balanced (signature_tokens m s).
Proof.
  unfold signature_tokens. destruct (sc_signature s) as [[|x l]|].
  - apply balanced_line, balanced_elt; [reflexivity|]. apply balanced_elt; [reflexivity|apply balanced_chars].
  - apply balanced_app; [apply balanced_flat, balanced_arg|]. destruct (len (x :: l) <? m); [|apply balanced_nil].
    apply balanced_line, balanced_elt; [reflexivity|apply balanced_nil].
  - apply balanced_line, balanced_elt; [reflexivity|apply balanced_chars].
Qed.
Lemma balanced_row tag m s : balanced (row_tokens tag m s).
Proof.
  intros st r. unfold row_tokens. rewrite <- !app_assoc, line_start by reflexivity.
  rewrite !balanced_simple. unfold name_tokens, txt. rewrite (balanced_line _ _ (balanced_elt $"td" _ _ eq_refl (balanced_chars _))).
  rewrite !balanced_simple, balanced_location, balanced_simple, balanced_signature. apply line_end.
Qed.
Lemma balanced_header a m : balanced (header_tokens a m).
Proof.
  intros st r. unfold header_tokens, txt. rewrite <- !app_assoc, line_start by reflexivity.
  rewrite (balanced_line _ _ (balanced_elt $"th" _ _ eq_refl (balanced_chars _))).
  rewrite !(balanced_line _ _ (balanced_elt $"th" sortable _ eq_refl (balanced_chars _))).
  rewrite (balanced_flat (arg_header_tokens a)) by (intros i; apply balanced_line, balanced_elt; [reflexivity|apply balanced_chars]).
  apply line_end.
Qed.
Lemma page_nested sv copy tag a m scs : nested [] (page_tokens sv copy tag a m scs) = true.
Proof.
  unfold page_tokens, head_tokens, txt. rewrite <- !app_assoc. rewrite line_doctype, !line_start by reflexivity.
  rewrite (balanced_line _ _ (balanced_elt $"title" _ _ eq_refl (balanced_chars _))).
  rewrite !line_void by reflexivity.
  rewrite (balanced_line _ _ (balanced_elt $"style" _ _ eq_refl (balanced_chars _))).
  rewrite line_end, line_start by reflexivity.
  rewrite (balanced_line _ _ (balanced_elt $"h1" _ _ eq_refl (balanced_chars _))).
  rewrite !(balanced_line _ _ (balanced_elt $"h2" _ _ eq_refl (balanced_chars _))).
  rewrite !line_start by reflexivity.
  rewrite balanced_header, (balanced_flat _ _ (balanced_row tag m)). unfold tail_tokens, txt. rewrite !line_end.
  rewrite (balanced_line 2 (elt $"p" _ _)).
  2:{ apply balanced_elt; [reflexivity|]. apply balanced_app; [apply balanced_chars|]. apply balanced_app; [apply balanced_elt; [reflexivity|apply balanced_chars]|].
      apply balanced_app; apply balanced_chars. }
  rewrite (balanced_line 2 (elt $"script" _ _) (balanced_elt $"script" _ _ eq_refl (balanced_chars _))). rewrite line_end. reflexivity.
Qed.

(** * The table *)

Notation reads := (fold_left read_token).
Lemma reads_out l R row : reads (chars l) (Reading R row None) = Reading R row None.
Proof. induction l as [|c l IH]; [reflexivity|]. exact IH. Qed.
Lemma reads_in l R row x : reads (chars l) (Reading R row (Some x)) = Reading R row (Some (Cell (c_head x) (c_attrs x) (c_links x) (c_text x ++ l))).
Proof.
  revert x. induction l as [|c l IH]; intros x.
  - cbn. rewrite app_nil_r. now destruct x.
  - cbn [chars map fold_left read_token rd_cell rd_rows rd_row]. fold (chars l). rewrite IH. cbn. now rewrite <- app_assoc.
Qed.
Lemma reads_line n ts R row R' row' : reads ts (Reading R row None) = Reading R' row' None ->
  reads (on_line n ts) (Reading R row None) = Reading R' row' None.
Proof. intros E. unfold on_line. rewrite !fold_left_app, reads_out, E. apply reads_out. Qed.
Lemma reads_cell n l ts R row x : is_cell n = true -> str_eqb n $"tr" = false ->
  reads ts (Reading R row (Some (Cell (str_eqb n $"th") l [] []))) = Reading R row (Some x) ->
  reads (elt n l ts) (Reading R row None) = Reading R (row ++ [x]) None.
Proof.
  intros C T E. unfold elt. cbn [fold_left read_token]. rewrite T, C. cbn [rd_rows rd_row]. rewrite fold_left_app, E.
  cbn [fold_left read_token]. rewrite T, C. reflexivity.
Qed.
Lemma reads_td l t R row : reads (elt $"td" l (chars t)) (Reading R row None) = Reading R (row ++ [Cell false l [] t]) None.
Proof. apply reads_cell; try reflexivity. rewrite reads_in. reflexivity. Qed.
Lemma reads_th l t R row : reads (elt $"th" l (chars t)) (Reading R row None) = Reading R (row ++ [Cell true l [] t]) None.
Proof. apply reads_cell; try reflexivity. rewrite reads_in. reflexivity. Qed.
Lemma reads_span l t R row x : reads (elt $"span" l (chars t)) (Reading R row (Some x)) =
  Reading R row (Some (Cell (c_head x) (c_attrs x) (c_links x) (c_text x ++ t))).
Proof.
  unfold elt. cbn [fold_left]. rewrite fold_left_app. change (read_token (Reading R row (Some x)) (TStart $"span" l)) with (Reading R row (Some x)).
  rewrite reads_in. reflexivity.
Qed.

Definition adds (ts : list token) (cells : list cell) : Prop := forall R row, reads ts (Reading R row None) = Reading R (row ++ cells) None.
Lemma adds_nil : adds [] [].
Proof. intros R row. cbn. now rewrite app_nil_r. Qed.
Lemma adds_app a b ca cb : adds a ca -> adds b cb -> adds (a ++ b) (ca ++ cb).
Proof. intros A B R row. rewrite fold_left_app, A, B. now rewrite app_assoc. Qed.
Lemma adds_line n ts c : adds ts c -> adds (on_line n ts) c.
Proof. intros A R row. now apply reads_line. Qed.
Lemma adds_flat {A} (f : A -> list token) (g : A -> cell) l : (forall x, In x l -> adds (f x) [g x]) -> adds (flat_map f l) (map g l).
Proof.
  induction l as [|x l IH]; intros H; [apply adds_nil|]. cbn [flat_map map]. change (g x :: map g l) with ([g x] ++ map g l).
  apply adds_app; [apply H; now left|]. apply IH. intros y I. apply H. now right.
Qed.
Lemma adds_simple s : adds (simple s) [plain (codes s)].
Proof. apply adds_line. intros R row. apply reads_td. Qed.
Lemma adds_name s : adds (name_tokens s) [marked (if sc_esoteric s then [($"class", $"esoteric"); ($"title", $"This syscall has an esoteric implementation")] else []) [] (codes (sc_name s))].
Proof. apply adds_line. intros R row. apply reads_td. Qed.
Lemma line_td n l R row : reads (on_line n [TStart $"td" l]) (Reading R row None) = Reading R row (Some (Cell false l [] [10])).
Proof. unfold on_line. rewrite !fold_left_app, reads_out. reflexivity. Qed.
Lemma adds_location tag s : adds (location_tokens tag s) [location tag s].
Proof.
  assert (forall f, sc_file s = Some f -> location tag s = marked (location_attrs s) (if relative f then [source_link tag f (location_anchor s)] else [])
        (indent 6 ++ codes (str_of_path f ++ $":" ++ location_line s) ++ indent 5)) as Q.
  { intros f E. unfold location, location_attrs, location_line, location_anchor. rewrite E. now destruct (sc_line s). }
  unfold location_tokens. destruct (sc_file s) as [f|] eqn:E; [|unfold location; rewrite E; apply adds_line; intros R row; apply reads_td].
  rewrite (Q f eq_refl). clear Q.
  intros R row. rewrite !fold_left_app.
  rewrite line_td.
  set (line := location_line s). set (anchor := location_anchor s).
  assert (forall x, reads (place_tokens tag f line anchor) (Reading R row (Some x)) =
    Reading R row (Some (Cell (c_head x) (c_attrs x) (c_links x ++ if relative f then [source_link tag f anchor] else [])
      (c_text x ++ repeat 9 6 ++ codes (str_of_path f ++ $":" ++ line) ++ [10])))) as P.
  { intros x. unfold place_tokens, on_line. rewrite !fold_left_app, reads_in. destruct (relative f).
    - unfold elt. cbn [fold_left]. rewrite fold_left_app.
      match goal with |- context [read_token ?r (TStart $"a" (link_attrs tag f anchor))] =>
        change (read_token r (TStart $"a" (link_attrs tag f anchor))) with
          (Reading R row (Some (push_link (href (link_attrs tag f anchor)) (Cell (c_head x) (c_attrs x) (c_links x) (c_text x ++ repeat 9 6))))) end.
      unfold txt. rewrite reads_in. cbn [fold_left].
      match goal with |- context [read_token ?r (TEnd $"a")] => change (read_token r (TEnd $"a")) with r end.
      rewrite reads_in. cbn [push_link c_head c_attrs c_links c_text]. rewrite <- !app_assoc. reflexivity.
    - unfold txt. rewrite !reads_in. cbn [c_head c_attrs c_links c_text]. rewrite app_nil_r, <- !app_assoc. reflexivity. }
  rewrite P. cbn [c_head c_attrs c_links c_text]. unfold on_line. rewrite !fold_left_app, reads_in. cbn [fold_left].
  match goal with |- context [read_token (Reading R row (Some ?y)) (TEnd $"td")] => change (read_token (Reading R row (Some y)) (TEnd $"td")) with (Reading R (row ++ [y]) None) end.
  rewrite reads_out. cbn [c_head c_attrs c_links c_text app]. f_equal. f_equal. f_equal. unfold marked. rewrite <- !app_assoc. reflexivity.
Qed.
Lemma split_at (s : str) i : slice_to s i ++ slice_from s i = s.
Proof. unfold slice_to, slice_from. apply firstn_skipn. Qed.
Lemma adds_arg x : adds (arg_tokens x) [plain (codes x)].
Proof.
  apply adds_line. intros R row. apply reads_cell; try reflexivity. unfold txt. rewrite fold_left_app, !reads_span. cbn [c_head c_attrs c_links c_text app].
  unfold plain. now rewrite <- codes_app, split_at.
Qed.
Lemma adds_signature m s : adds (signature_tokens m s) (parameters m s).
Proof.
  unfold signature_tokens, parameters. destruct (sc_signature s) as [[|x l]|].
  - apply adds_line. intros R row. apply reads_cell; try reflexivity.
  - apply adds_app; [apply adds_flat; intros y _; apply adds_arg|]. destruct (len (x :: l) <? m); [|apply adds_nil].
    apply adds_line. intros R row. apply (reads_td _ []).
  - apply adds_line. intros R row. apply reads_td.
Qed.
Lemma hex_fmt z : 0 <= z -> fmt_0x z = hex z.
Proof. intros Z. unfold fmt_0x, hex. destruct (Z.ltb_spec z 0); [lia|reflexivity]. Qed.
Lemma line_tr n R row : reads (on_line n [TStart $"tr" []]) (Reading R row None) = Reading R [] None.
Proof. apply reads_line. reflexivity. Qed.
Lemma line_tr_end n R row : reads (on_line n [TEnd $"tr"]) (Reading R row None) = Reading (R ++ [row]) [] None.
Proof. apply reads_line. reflexivity. Qed.
Lemma reads_row tag m s R row : 0 <= sc_number s -> reads (row_tokens tag m s) (Reading R row None) = Reading (R ++ [row_of tag m s]) [] None.
Proof.
  intros Z. unfold row_tokens. rewrite !fold_left_app, line_tr, !adds_simple, adds_name, adds_simple, adds_location, adds_simple, adds_signature, line_tr_end.
  rewrite (hex_fmt _ Z). unfold row_of. rewrite <- !app_assoc. reflexivity.
Qed.
Lemma reads_rows tag m scs : Forall (fun s => 0 <= sc_number s) scs -> forall R row, scs <> [] ->
  reads (flat_map (row_tokens tag m) scs) (Reading R row None) = Reading (R ++ map (row_of tag m) scs) [] None.
Proof.
  induction 1 as [|s scs P F IH]; intros R row N; [now destruct N|]. cbn [flat_map map]. rewrite fold_left_app, (reads_row tag m s R row P).
  destruct scs as [|s' scs]; [reflexivity|]. rewrite IH by discriminate. now rewrite <- app_assoc.
Qed.
Lemma reads_header a m R row : reads (header_tokens a m) (Reading R row None) = Reading (R ++ [headings a m]) [] None.
Proof.
  unfold header_tokens. rewrite !fold_left_app, line_tr.
  rewrite (reads_line _ _ _ _ _ _ (reads_th _ _ _ _)). unfold txt.
  do 4 rewrite (reads_line _ _ _ _ _ _ (reads_th _ _ _ _)).
  assert (adds (flat_map (arg_header_tokens a) (seq 0 (Z.to_nat m)))
    (map (fun i => heading [] (codes ($"Arg " ++ str_of_int (Z.of_nat i + 1) ++ $" (" ++ nth i (a_arg_regs a) [] ++ $")"))) (seq 0 (Z.to_nat m)))) as ->.
  { apply adds_flat. intros i _. apply adds_line. intros R' row'. apply reads_th. }
  rewrite line_tr_end. unfold headings. rewrite <- !app_assoc. reflexivity.
Qed.
(** What is outside the rows *)
Definition outside (ts : list token) : Prop := forall R row, reads ts (Reading R row None) = Reading R row None.
Lemma outside_app a b : outside a -> outside b -> outside (a ++ b).
Proof. intros A B R row. now rewrite fold_left_app, A. Qed.
Lemma outside_chars l : outside (chars l).
Proof. intros R row. apply reads_out. Qed.
Lemma outside_one t : match t with TStart n _ | TEnd n => str_eqb n $"tr" = false /\ is_cell n = false | _ => True end -> outside [t].
Proof.
  intros H R row. destruct t as [c|n l|n|t]; cbn [fold_left read_token rd_rows rd_row rd_cell]; try reflexivity; destruct H as [-> ->]; [|reflexivity].
  destruct (str_eqb n $"a"); reflexivity.
Qed.
Lemma outside_line n ts : outside ts -> outside (on_line n ts).
Proof. intros O. unfold on_line. repeat apply outside_app; auto using outside_chars. Qed.
Lemma outside_elt n l ts : str_eqb n $"tr" = false /\ is_cell n = false -> outside ts -> outside (elt n l ts).
Proof.
  intros H O. unfold elt. change (TStart n l :: ts ++ [TEnd n]) with ([TStart n l] ++ ts ++ [TEnd n]).
  apply outside_app; [now apply outside_one|]. apply outside_app; [exact O|now apply outside_one].
Qed.
Ltac out1 := apply outside_line, outside_one; try (split; reflexivity); exact I.
Ltac oute := apply outside_line, outside_elt; [split; reflexivity|apply outside_chars].
Lemma outside_head tag a : outside (head_tokens tag a).
Proof.
  unfold head_tokens. do 3 (apply outside_app; [out1|]). apply outside_app; [oute|]. do 2 (apply outside_app; [out1|]).
  apply outside_app; [oute|]. do 2 (apply outside_app; [out1|]). do 3 (apply outside_app; [oute|]). apply outside_app; out1.
Qed.
Lemma outside_tail sv copy : outside (tail_tokens sv copy).
Proof.
  unfold tail_tokens. do 2 (apply outside_app; [out1|]). apply outside_app.
  - apply outside_line, outside_elt; [split; reflexivity|]. apply outside_app; [apply outside_chars|].
    apply outside_app; [apply outside_elt; [split; reflexivity|apply outside_chars]|]. apply outside_app; apply outside_chars.
  - apply outside_app; [oute|]. apply outside_app; [out1|]. apply outside_one. split; reflexivity.
Qed.
Lemma page_table sv copy tag a m scs : Forall (fun s => 0 <= sc_number s) scs -> scs <> [] ->
  table_of (page_tokens sv copy tag a m scs) = headings a m :: map (row_of tag m) scs.
Proof.
  intros F N. unfold table_of, page_tokens. rewrite !fold_left_app.
  rewrite (outside_head tag a), reads_header, (reads_rows tag m scs F _ _ N), (outside_tail sv copy). reflexivity.
Qed.
