(** Lemmas for C93: reading the page. *)
From Coq Require Import List Bool Ascii String ZArith Lia.
From Verif Require Import PyBase PyFacts M_Utils M_Elf M_Syscall M_Arch M_Config M_Output M_Templates M_Html S_Html.
Import ListNotations.
Open Scope Z_scope.
Open Scope list_scope.

(** * Tokens *)

Definition goes (st : state) (t : str) (st' : state) (ts : list token) : Prop := run st t = Some (st', ts).
Lemma goes_app st a st1 ta b st2 tb : goes st a st1 ta -> goes st1 b st2 tb -> goes st (a ++ b) st2 (ta ++ tb).
Proof.
  unfold goes. revert st ta. induction a as [|c a IH]; intros st ta A B.
  - injection A as <- <-. exact B.
  - cbn [run app] in *. destruct (step st c) as [[s ts]|]; [|discriminate].
    destruct (run s a) as [[s' ts']|] eqn:E; [|discriminate]. injection A as <- <-.
    rewrite (IH s ts' E B). now rewrite app_assoc.
Qed.
Lemma goes_nil st : goes st [] st [].
Proof. reflexivity. Qed.
Lemma goes_one st c st' ts : step st c = Some (st', ts) -> goes st [c] st' ts.
Proof. intros E. unfold goes. cbn [run]. rewrite E. now rewrite app_nil_r. Qed.

Definition chars (s : list Z) : list token := map TChar s.
Lemma chars_app a b : chars (a ++ b) = chars a ++ chars b.
Proof. apply map_app. Qed.
Lemma codes_app a b : codes (a ++ b) = codes a ++ codes b.
Proof. apply map_app. Qed.

Lemma not_char c d : (code c =? code d) = false -> Ascii.eqb c d = false.
Proof. intros E. destruct (Ascii.eqb_spec c d) as [->|]; [now rewrite Z.eqb_refl in E|reflexivity]. Qed.
Lemma is_char c z : (code c =? z) = true -> c = chr z.
Proof. intros E. apply Z.eqb_eq in E. subst z. now rewrite chr_code. Qed.

Lemma esc_data_char c : goes Data (html_esc c) Data [TChar (code c)].
Proof.
  unfold html_esc.
  destruct (code c =? 38) eqn:E1; [apply is_char in E1 as ->; reflexivity|].
  destruct (code c =? 62) eqn:E2; [apply is_char in E2 as ->; reflexivity|].
  destruct (code c =? 60) eqn:E3; [apply is_char in E3 as ->; reflexivity|].
  destruct (code c =? 39) eqn:E4; [apply is_char in E4 as ->; reflexivity|].
  destruct (code c =? 34) eqn:E5; [apply is_char in E5 as ->; reflexivity|].
  apply goes_one. cbn [step]. rewrite (not_char c "&" E1), (not_char c "<" E3). reflexivity.
Qed.
Lemma esc_value_char n l a v c : goes (Value n l a v) (html_esc c) (Value n l a (v ++ [code c])) [].
Proof.
  unfold html_esc.
  destruct (code c =? 38) eqn:E1; [apply is_char in E1 as ->; reflexivity|].
  destruct (code c =? 62) eqn:E2; [apply is_char in E2 as ->; reflexivity|].
  destruct (code c =? 60) eqn:E3; [apply is_char in E3 as ->; reflexivity|].
  destruct (code c =? 39) eqn:E4; [apply is_char in E4 as ->; reflexivity|].
  destruct (code c =? 34) eqn:E5; [apply is_char in E5 as ->; reflexivity|].
  apply goes_one. cbn [step]. rewrite E5, (not_char c "&" E1). reflexivity.
Qed.
Lemma esc_data s : goes Data (h s) Data (chars (codes s)).
Proof.
  induction s as [|c s IH]; [reflexivity|]. change (h (c :: s)) with (html_esc c ++ h s).
  change (chars (codes (c :: s))) with ([TChar (code c)] ++ chars (codes s)).
  eapply goes_app; [apply esc_data_char|exact IH].
Qed.
Lemma esc_value n l a s : forall v, goes (Value n l a v) (h s) (Value n l a (v ++ codes s)) [].
Proof.
  induction s as [|c s IH]; intros v; [cbn; rewrite app_nil_r; apply goes_nil|]. change (h (c :: s)) with (html_esc c ++ h s).
  change (@nil token) with (@nil token ++ []). eapply goes_app; [apply esc_value_char|].
  change (codes (c :: s)) with ([code c] ++ codes s). rewrite app_assoc. apply IH.
Qed.

Definition on_line (n : nat) (ts : list token) : list token := chars (repeat 9 n) ++ ts ++ chars [10].
Lemma tabs n : goes Data (repeat (chr 9) n) Data (chars (repeat 9 n)).
Proof. induction n as [|n IH]; [reflexivity|]. exact (goes_app Data [chr 9] Data [TChar 9] _ _ _ eq_refl IH). Qed.
Lemma goes_ln n s ts : goes Data s Data ts -> goes Data (ln n s) Data (on_line n ts).
Proof. intros G. unfold ln, on_line. eapply goes_app; [apply tabs|]. eapply goes_app; [exact G|reflexivity]. Qed.
Lemma goes_flat {A} (f : A -> str) (g : A -> list token) l : (forall x, In x l -> goes Data (f x) Data (g x)) ->
  goes Data (flat_map f l) Data (flat_map g l).
Proof.
  induction l as [|x l IH]; intros H; [reflexivity|]. cbn [flat_map]. eapply goes_app; [apply H; now left|]. apply IH. intros y I. apply H. now right.
Qed.

Definition elt (name : str) (attrs : list (str * list Z)) (ts : list token) : list token := TStart name attrs :: ts ++ [TEnd name].
Definition txt (s : str) : list token := chars (codes s).
(** Literal pieces *)
Ltac lit := unfold goes; vm_compute; reflexivity.

Definition abi_tokens (a : arch) : list token := txt (abi_name a).
Lemma goes_abi a : goes Data (abi_text a) Data (abi_tokens a).
Proof.
  unfold abi_text, abi_tokens, abi_name, bits_name, txt. rewrite !codes_app, !chars_app.
  eapply goes_app; [apply esc_data|].
  replace (chars (codes (if a_abi_bits32 a then $"32-bit" else $"64-bit"))) with (chars (codes (bits_text (a_abi_bits32 a))) ++ chars (codes $"-bit"))
    by (destruct (a_abi_bits32 a); reflexivity).
  rewrite <- !app_assoc. eapply goes_app; [apply esc_data|]. rewrite app_assoc.
  eapply goes_app; [lit|apply esc_data].
Qed.

Definition head_tokens (tag : str) (a : arch) : list token :=
  on_line 0 [TDoctype $"DOCTYPE html"] ++
  on_line 0 [TStart $"html" [($"lang", codes $"en")]] ++
  on_line 1 [TStart $"head" []] ++
  on_line 2 (elt $"title" [] (txt (title_text tag a))) ++
  on_line 2 [TStart $"meta" [($"charset", codes $"UTF-8")]] ++
  on_line 2 [TStart $"meta" [($"name", codes $"viewport"); ($"content", codes $"width=device-width, initial-scale=1")]] ++
  on_line 2 (elt $"style" [] (txt css)) ++
  on_line 1 [TEnd $"head"] ++
  on_line 1 [TStart $"body" []] ++
  on_line 2 (elt $"h1" [] (txt ($"Linux " ++ tag ++ $" syscall table"))) ++
  on_line 2 (elt $"h2" [] (txt ($"Architecture: " ++ arch_name a))) ++
  on_line 2 (elt $"h2" [] (txt ($"ABI: " ++ abi_name a))) ++
  on_line 2 [TStart $"table" []] ++
  on_line 3 [TStart $"tbody" []].
Lemma bits_split b : txt (bits_name b) = txt (bits_text b) ++ txt $"-bit".
Proof. destruct b; reflexivity. Qed.
Lemma txt_app a b : txt (a ++ b) = txt a ++ txt b.
Proof. unfold txt. now rewrite codes_app, chars_app. Qed.
Lemma goes_elt name tag_ts s ts : goes Data (($"<" ++ name) ++ $">") Data tag_ts -> tag_ts = [TStart name []] ->
  goes Data s Data ts -> goes Data ($"</" ++ name ++ $">") Data [TEnd name] ->
  goes Data ((($"<" ++ name) ++ $">") ++ s ++ $"</" ++ name ++ $">") Data (elt name [] ts).
Proof.
  intros A -> B C. unfold elt. change (TStart name [] :: ts ++ [TEnd name]) with ([TStart name []] ++ ts ++ [TEnd name]).
  eapply goes_app; [exact A|]. eapply goes_app; [exact B|exact C].
Qed.
Lemma goes_style : goes Data ($"<style>" ++ css ++ $"</style>") Data (elt $"style" [] (txt css)).
Proof. unfold goes. vm_compute. reflexivity. Qed.
Lemma goes_script : goes Data ($"<script>" ++ js ++ $"</script>") Data (elt $"script" [] (txt js)).
Proof. unfold goes. vm_compute. reflexivity. Qed.
Lemma goes_eq st s st' ts ts' : goes st s st' ts -> ts = ts' -> goes st s st' ts'.
Proof. now intros H <-. Qed.
Ltac piece := first [apply esc_data | apply goes_abi | lit].
Ltac pieces := repeat (eapply goes_app; [piece|]); piece.
Ltac settle := unfold elt, title_text, arch_name, abi_tokens; rewrite ?txt_app, ?bits_split; unfold txt; rewrite <- ?app_assoc; reflexivity.
Lemma goes_title tag a :
  goes Data ($"<title>Linux " ++ h tag ++ $" " ++ h (class_name (a_class a)) ++ $" " ++ h (bits_text (a_bits32 a)) ++ $"-bit, " ++
        abi_text a ++ $" syscall table</title>") Data (elt $"title" [] (txt (title_text tag a))).
Proof. eapply goes_eq; [pieces|settle]. Qed.
Lemma goes_h1 tag : goes Data ($"<h1>Linux " ++ h tag ++ $" syscall table</h1>") Data (elt $"h1" [] (txt ($"Linux " ++ tag ++ $" syscall table"))).
Proof. eapply goes_eq; [pieces|settle]. Qed.
Lemma goes_h2_arch a : goes Data ($"<h2>Architecture: " ++ h (class_name (a_class a)) ++ $" " ++ h (bits_text (a_bits32 a)) ++ $"-bit</h2>") Data
  (elt $"h2" [] (txt ($"Architecture: " ++ arch_name a))).
Proof. eapply goes_eq; [pieces|settle]. Qed.
Lemma goes_h2_abi a : goes Data ($"<h2>ABI: " ++ abi_text a ++ $"</h2>") Data (elt $"h2" [] (txt ($"ABI: " ++ abi_name a))).
Proof. eapply goes_eq; [pieces|settle]. Qed.
Lemma goes_head tag a : goes Data (page_head tag a) Data (head_tokens tag a).
Proof.
  unfold page_head, head_tokens.
  eapply goes_app; [apply goes_ln; lit|].
  eapply goes_app; [apply goes_ln; lit|].
  eapply goes_app; [apply goes_ln; lit|].
  eapply goes_app; [apply goes_ln, goes_title|].
  eapply goes_app; [apply goes_ln; lit|].
  eapply goes_app; [apply goes_ln; lit|].
  eapply goes_app; [apply goes_ln, goes_style|].
  eapply goes_app; [apply goes_ln; lit|].
  eapply goes_app; [apply goes_ln; lit|].
  eapply goes_app; [apply goes_ln, goes_h1|].
  eapply goes_app; [apply goes_ln, goes_h2_arch|].
  eapply goes_app; [apply goes_ln, goes_h2_abi|].
  eapply goes_app; [apply goes_ln; lit|].
  apply goes_ln. lit.
Qed.

(** * The table *)

Definition arg_header_tokens (a : arch) (i : nat) : list token :=
  on_line 5 (elt $"th" [] (txt ($"Arg " ++ str_of_int (Z.of_nat i + 1) ++ $" (" ++ nth i (a_arg_regs a) [] ++ $")"))).
Lemma goes_arg_header a i : goes Data (arg_header a i) Data (arg_header_tokens a i).
Proof.
  unfold arg_header, arg_header_tokens. apply goes_ln. rewrite <- (nth_default_eq i (a_arg_regs a) []). unfold nth_default.
  set (r := match nth_error (a_arg_regs a) i with Some r => r | None => [] end).
  eapply goes_eq; [pieces|settle].
Qed.
Definition sortable : list (str * list Z) := [($"class", codes $"sortable")].
Definition number_title (a : arch) : list Z :=
  codes $"Number" ++ match a_num_reg a with Some (c :: r) => 160 :: codes ($"(" ++ (c :: r) ++ $")") | _ => [] end.
Definition header_tokens (a : arch) (m : Z) : list token :=
  on_line 4 [TStart $"tr" []] ++
  on_line 5 (elt $"th" [($"class", codes $"sortable ascending"); ($"colspan", codes $"2")] (chars (number_title a))) ++
  on_line 5 (elt $"th" sortable (txt $"Name")) ++
  on_line 5 (elt $"th" sortable (txt $"Symbol")) ++
  on_line 5 (elt $"th" sortable (txt $"Definition location")) ++
  on_line 5 (elt $"th" sortable (txt $"Kconfig")) ++
  flat_map (arg_header_tokens a) (seq 0 (Z.to_nat m)) ++
  on_line 4 [TEnd $"tr"].
Lemma goes_number a : goes Data ($"<th class=""sortable ascending"" colspan=""2"">Number" ++
        match a_num_reg a with Some (c :: r) => $"&nbsp;(" ++ h (c :: r) ++ $")" | _ => [] end ++ $"</th>") Data
  (elt $"th" [($"class", codes $"sortable ascending"); ($"colspan", codes $"2")] (chars (number_title a))).
Proof.
  unfold number_title. destruct (a_num_reg a) as [[|c r]|]; [lit| |lit].
  generalize (c :: r). intros s. rewrite <- !app_assoc. eapply goes_eq; [pieces|]. unfold elt.
  rewrite chars_app. change (160 :: codes ($"(" ++ s ++ $")")) with ([160] ++ codes ($"(" ++ s ++ $")")). rewrite !codes_app, !chars_app.
  rewrite <- ?app_assoc. reflexivity.
Qed.
Lemma goes_header a m : goes Data (header_row a m) Data (header_tokens a m).
Proof.
  unfold header_row, header_tokens.
  eapply goes_app; [apply goes_ln; lit|].
  eapply goes_app; [apply goes_ln, goes_number|].
  eapply goes_app; [apply goes_ln; lit|].
  eapply goes_app; [apply goes_ln; lit|].
  eapply goes_app; [apply goes_ln; lit|].
  eapply goes_app; [apply goes_ln; lit|].
  eapply goes_app; [apply goes_flat; intros i _; apply goes_arg_header|].
  apply goes_ln. lit.
Qed.

(** ** Rows *)

Definition attrs_of (l : list (str * str)) : list (str * list Z) := map (fun x => (fst x, codes (snd x))) l.
Definition simple (s : str) : list token := on_line 5 (elt $"td" [] (txt s)).
Lemma goes_simple s : goes Data (ln 5 ($"<td>" ++ h s ++ $"</td>")) Data (simple s).
Proof. apply goes_ln. eapply goes_eq; [pieces|settle]. Qed.

Definition name_tokens (s : syscall) : list token :=
  on_line 5 (elt $"td" (attrs_of (if sc_esoteric s then [($"class", $"esoteric"); ($"title", $"This syscall has an esoteric implementation")] else []))
    (txt (sc_name s))).
Lemma goes_name s : goes Data (ln 5 ($"<td" ++ (if sc_esoteric s then $" class=""esoteric"" title=""This syscall has an esoteric implementation""" else []) ++ $">" ++
        h (sc_name s) ++ $"</td>")) Data (name_tokens s).
Proof.
  unfold name_tokens. apply goes_ln. generalize (sc_name s). intros n. destruct (sc_esoteric s); rewrite ?app_nil_l.
  - eapply goes_eq; [pieces|settle].
  - eapply goes_eq; [pieces|settle].
Qed.

Definition link_attrs (tag : str) (f : path) (anchor : str) : list (str * list Z) :=
  [($"target", codes $"_blank"); ($"href", source_link tag f anchor)].
Definition place_tokens (tag : str) (f : path) (line anchor : str) : list token :=
  on_line 6 (if relative f then elt $"a" (link_attrs tag f anchor) (txt (str_of_path f ++ $":" ++ line)) else txt (str_of_path f ++ $":" ++ line)).
(** An anchor is either escaped text or the beginning of it. *)
Lemma open_link v : run (Value $"a" [($"target", codes $"_blank")] $"href" v) $""">" =
  Some (Data, [TStart $"a" [($"target", codes $"_blank"); ($"href", v)]]).
Proof. vm_compute. reflexivity. Qed.
Lemma goes_link tag f anchor htext anch : (forall v, goes (Value $"a" [($"target", codes $"_blank")] $"href" v) anch
    (Value $"a" [($"target", codes $"_blank")] $"href" (v ++ codes anchor)) []) ->
  forall line, goes Data htext Data (txt line) ->
  goes Data ($"<a target=""_blank"" href=""https://elixir.bootlin.com/linux/" ++ h tag ++ $"/source/" ++ h (str_of_path f) ++
             anch ++ $""">" ++ h (str_of_path f) ++ $":" ++ htext ++ $"</a>") Data
    (elt $"a" (link_attrs tag f anchor) (txt (str_of_path f ++ $":" ++ line))).
Proof.
  intros A line L. unfold elt.
  assert (goes Data $"<a target=""_blank"" href=""https://elixir.bootlin.com/linux/"
    (Value $"a" [($"target", codes $"_blank")] $"href" (codes $"https://elixir.bootlin.com/linux/")) []) as G1 by lit.
  assert (forall v, goes (Value $"a" [($"target", codes $"_blank")] $"href" v) $"/source/" (Value $"a" [($"target", codes $"_blank")] $"href" (v ++ codes $"/source/")) []) as G2.
  { intros v. exact (esc_value _ _ _ $"/source/" v). }
  eapply goes_eq.
  - eapply goes_app; [exact G1|]. eapply goes_app; [apply esc_value|]. eapply goes_app; [apply G2|]. eapply goes_app; [apply esc_value|].
    eapply goes_app; [apply A|]. eapply goes_app; [apply open_link|]. eapply goes_app; [apply esc_data|]. eapply goes_app; [lit|].
    eapply goes_app; [exact L|lit].
  - cbn [app]. f_equal.
    + unfold link_attrs, source_link. rewrite !codes_app, <- !app_assoc. reflexivity.
    + rewrite !txt_app, <- !app_assoc. reflexivity.
Qed.
Lemma goes_place tag f anchor htext anch line : (forall v, goes (Value $"a" [($"target", codes $"_blank")] $"href" v) anch
    (Value $"a" [($"target", codes $"_blank")] $"href" (v ++ codes anchor)) []) ->
  goes Data htext Data (txt line) -> goes Data (place_text tag f htext anch) Data (place_tokens tag f line anchor).
Proof.
  intros A L. unfold place_text, place_tokens, is_absolute, relative. apply goes_ln. destruct (root f) as [|c r].
  - now apply goes_link.
  - eapply goes_eq; [eapply goes_app; [apply esc_data|]; eapply goes_app; [lit|exact L]|]. rewrite !txt_app. reflexivity.
Qed.

Definition location_attrs (s : syscall) : list (str * str) :=
  match sc_line s with
  | Some l =>
      if negb (sc_good s) then
        [($"class", $"bad"); ($"title", $"The identified location may be inaccurate (non-standard definition or missing kernel sources)")]
      else if sc_grepped s then
        [($"class", $"bad"); ($"title", $"This syscall definition was found through grepping, the identified location may be inaccurate")]
      else []
  | None => [($"class", $"bad"); ($"title", $"The syscall definition could not be located within this file, the identified location may be inaccurate")]
  end.
Definition location_line (s : syscall) : str := match sc_line s with Some l => str_of_int l | None => $"??" end.
Definition location_anchor (s : syscall) : str := match sc_line s with Some l => $"#L" ++ str_of_int l | None => [] end.
Definition location_tokens (tag : str) (s : syscall) : list token :=
  match sc_file s with
  | Some f => on_line 5 [TStart $"td" (attrs_of (location_attrs s))] ++ place_tokens tag f (location_line s) (location_anchor s) ++ on_line 5 [TEnd $"td"]
  | None => on_line 5 (elt $"td" [($"class", codes $"unknown")] (txt $"unknown"))
  end.
Lemma goes_location tag s : goes Data (location_text tag s) Data (location_tokens tag s).
Proof.
  unfold location_text, location_tokens, location_attrs, location_line, location_anchor.
  destruct (sc_file s) as [f|]; [|apply goes_ln; lit]. destruct (sc_line s) as [l|].
  - eapply goes_app.
    { apply goes_ln. destruct (negb (sc_good s)); [lit|]. destruct (sc_grepped s); lit. }
    eapply goes_app; [|apply goes_ln; lit]. apply goes_place; [|apply esc_data]. intros v.
    rewrite codes_app, app_assoc. change (@nil token) with (@nil token ++ []). eapply goes_app; [|apply esc_value].
    exact (esc_value _ _ _ $"#L" v).
  - eapply goes_app; [apply goes_ln; lit|]. eapply goes_app; [|apply goes_ln; lit]. apply goes_place; [|lit].
    intros v. cbn. rewrite app_nil_r. apply goes_nil.
Qed.

Definition arg_tokens (arg : str) : list token :=
  let i := rfind_char SP arg + 1 in
  on_line 5 (elt $"td" [] (elt $"span" [($"class", codes $"argtype")] (txt (slice_to arg i)) ++ elt $"span" [($"class", codes $"argname")] (txt (slice_from arg i)))).
Lemma goes_arg arg : goes Data (arg_text arg) Data (arg_tokens arg).
Proof.
  unfold arg_text, arg_tokens. apply goes_ln. generalize (slice_to arg (rfind_char SP arg + 1)), (slice_from arg (rfind_char SP arg + 1)).
  intros x y. eapply goes_eq; [pieces|]. unfold elt. do 3 (cbn [app]; rewrite <- ?app_assoc). reflexivity.
Qed.
Definition span (m : Z) : str * list Z := ($"colspan", decimal_text m).
Definition signature_tokens (m : Z) (s : syscall) : list token :=
  match sc_signature s with
  | None => on_line 5 (elt $"td" [span m; ($"class", codes $"unknown")] (txt $"unknown signature"))
  | Some [] => on_line 5 (elt $"td" [span m] (elt $"span" [($"class", codes $"argtype")] (txt $"void")))
  | Some l => flat_map arg_tokens l ++ if len l <? m then on_line 5 (elt $"td" [span (m - len l)] []) else []
  end.
Lemma open_span v : run Data $"<td colspan=""" = Some (Value $"td" [] $"colspan" [], []) /\
  run (Value $"td" [] $"colspan" v) $""" class=""unknown"">unknown signature</td>" =
    Some (Data, elt $"td" [($"colspan", v); ($"class", codes $"unknown")] (txt $"unknown signature")) /\
  run (Value $"td" [] $"colspan" v) $"""><span class=""argtype"">void</span></td>" =
    Some (Data, elt $"td" [($"colspan", v)] (elt $"span" [($"class", codes $"argtype")] (txt $"void"))) /\
  run (Value $"td" [] $"colspan" v) $"""></td>" = Some (Data, elt $"td" [($"colspan", v)] []).
Proof. vm_compute. auto. Qed.
Lemma goes_span z t ts : (forall v, run (Value $"td" [] $"colspan" v) t = Some (Data, ts v)) ->
  goes Data ($"<td colspan=""" ++ h (str_of_int z) ++ t) Data (ts (decimal_text z)).
Proof.
  intros G. change (ts (decimal_text z)) with ([] ++ [] ++ ts (decimal_text z)). eapply goes_app; [apply (open_span [])|].
  eapply goes_app; [apply esc_value|]. cbn [app]. apply G.
Qed.
Lemma goes_signature m s : goes Data (signature_text m s) Data (signature_tokens m s).
Proof.
  unfold signature_text, signature_tokens, span. destruct (sc_signature s) as [[|x l]|].
  - apply goes_ln. apply (goes_span m _ (fun v => elt $"td" [($"colspan", v)] (elt $"span" [($"class", codes $"argtype")] (txt $"void")))).
    intros v. apply (open_span v).
  - eapply goes_app; [apply goes_flat; intros y _; apply goes_arg|].
    replace (len (x :: l) <? m) with (0 <? m - len (x :: l)) by (destruct (Z.ltb_spec 0 (m - len (x :: l))), (Z.ltb_spec (len (x :: l)) m); lia || reflexivity).
    destruct (0 <? m - len (x :: l)); [|reflexivity]. apply goes_ln. apply (goes_span _ _ (fun v => elt $"td" [($"colspan", v)] [])). intros v. apply (open_span v).
  - apply goes_ln. apply (goes_span m _ (fun v => elt $"td" [($"colspan", v); ($"class", codes $"unknown")] (txt $"unknown signature"))).
    intros v. apply (open_span v).
Qed.

Definition row_tokens (tag : str) (m : Z) (s : syscall) : list token :=
  on_line 4 [TStart $"tr" []] ++
  simple (str_of_int (sc_number s)) ++ simple (fmt_0x (sc_number s)) ++ name_tokens s ++ simple (sym_name (sc_symbol s)) ++
  location_tokens tag s ++ simple (kconfig_text s) ++ signature_tokens m s ++ on_line 4 [TEnd $"tr"].
Lemma goes_row tag m s : goes Data (syscall_row tag m s) Data (row_tokens tag m s).
Proof.
  unfold syscall_row, row_tokens.
  eapply goes_app; [apply goes_ln; lit|]. eapply goes_app; [apply goes_simple|]. eapply goes_app; [apply goes_simple|].
  eapply goes_app; [apply goes_name|]. eapply goes_app; [apply goes_simple|]. eapply goes_app; [apply goes_location|].
  eapply goes_app; [apply goes_simple|]. eapply goes_app; [apply goes_signature|]. apply goes_ln. lit.
Qed.

Definition tail_tokens (sv copy : str) : list token :=
  on_line 3 [TEnd $"tbody"] ++
  on_line 2 [TEnd $"table"] ++
  on_line 2 (elt $"p" [] (txt $"Auto-generated by " ++
     elt $"a" [($"target", codes $"_blank"); ($"href", codes $"https://github.com/mebeim/systrack")] (txt ($"Systrack v" ++ sv)) ++
     chars [32; 8212; 32] ++ txt copy)) ++
  on_line 2 (elt $"script" [] (txt js)) ++
  on_line 1 [TEnd $"body"] ++
  [TEnd $"html"].
Lemma goes_tail sv copy : goes Data (page_tail sv copy) Data (tail_tokens sv copy).
Proof.
  unfold page_tail, tail_tokens. eapply goes_app; [apply goes_ln; lit|]. eapply goes_app; [apply goes_ln; lit|].
  eapply goes_app.
  { apply goes_ln. eapply goes_eq; [pieces|]. unfold elt. rewrite !txt_app. do 3 (cbn [app]; rewrite <- ?app_assoc). reflexivity. }
  eapply goes_app; [apply goes_ln, goes_script|]. eapply goes_app; [apply goes_ln; lit|lit].
Qed.
Definition page_tokens (sv copy tag : str) (a : arch) (m : Z) (scs : list syscall) : list token :=
  head_tokens tag a ++ header_tokens a m ++ flat_map (row_tokens tag m) scs ++ tail_tokens sv copy.
Lemma goes_page sv copy tag a m scs : goes Data (page sv copy tag a m scs) Data (page_tokens sv copy tag a m scs).
Proof.
  unfold page, page_tokens. eapply goes_app; [apply goes_head|]. eapply goes_app; [apply goes_header|].
  eapply goes_app; [apply goes_flat; intros s _; apply goes_row|apply goes_tail].
Qed.
Lemma page_read sv copy tag a m scs : html_read (page sv copy tag a m scs) = Some (page_tokens sv copy tag a m scs).
Proof. unfold html_read. now rewrite (goes_page sv copy tag a m scs : run Data _ = _). Qed.
