(** Lemmas for C93: the headlines, the spans, and what the page tells. *)
From Coq Require Import List Bool Ascii String ZArith Lia.
From Verif Require Import PyBase PyFacts M_Utils M_Elf M_Syscall M_Arch M_Config M_Output M_Templates M_Html L_Utils S_Output L_Output L_Search2 S_Html L_Html L_Html2.
Import ListNotations.
Open Scope Z_scope.
Open Scope list_scope.

(** * Headlines *)

Definition names_in (L : list str) (ts : list token) : Prop :=
  Forall (fun t => match t with TStart n _ | TEnd n => In n L | _ => True end) ts.
Lemma names_app L a b : names_in L a -> names_in L b -> names_in L (a ++ b).
Proof. intros A B. now apply Forall_app. Qed.
Lemma names_chars L l : names_in L (chars l).
Proof. apply Forall_map. now apply Forall_forall. Qed.
Lemma names_elt L n l ts : In n L -> names_in L ts -> names_in L (elt n l ts).
Proof. intros I F. constructor; [exact I|]. apply names_app; [exact F|]. now constructor. Qed.
Lemma names_line L n ts : names_in L ts -> names_in L (on_line n ts).
Proof. intros F. unfold on_line. repeat apply names_app; auto using names_chars. Qed.
Lemma names_flat {A} L (f : A -> list token) l : (forall x, names_in L (f x)) -> names_in L (flat_map f l).
Proof. intros H. induction l; [constructor|]. cbn. now apply names_app. Qed.
Lemma texts_skip name L ts r : names_in L ts -> ~ In name L -> texts name None (ts ++ r) = texts name None r.
Proof.
  intros F N. induction F as [|t ts H F IH]; [reflexivity|]. cbn [app]. destruct t as [c|n l|n|t]; cbn [texts]; try exact IH.
  - destruct (str_eqb n name) eqn:E; [apply str_eqb_eq in E as ->; contradiction|exact IH].
  - destruct (str_eqb n name) eqn:E; [apply str_eqb_eq in E as ->; contradiction|exact IH].
Qed.
Lemma texts_inside name l r : forall t, texts name (Some t) (chars l ++ r) = texts name (Some (t ++ l)) r.
Proof. induction l as [|c l IH]; intros t; [now rewrite app_nil_r|]. cbn. rewrite IH. now rewrite <- app_assoc. Qed.
Lemma texts_elt name l t r : texts name None (elt name l (chars t) ++ r) = t :: texts name None r.
Proof.
  unfold elt. cbn [app texts]. rewrite str_eqb_refl, <- app_assoc, texts_inside. cbn [app texts]. now rewrite str_eqb_refl.
Qed.
Lemma texts_line name n l t r : texts name None (on_line n (elt name l (chars t)) ++ r) = t :: texts name None r.
Proof.
  unfold on_line. rewrite <- !app_assoc. rewrite (texts_skip name [] (chars _)); [|apply names_chars|intros []].
  rewrite texts_elt. reflexivity.
Qed.
Definition lower_names : list str := [$"tr"; $"th"; $"td"; $"a"; $"span"; $"tbody"; $"table"; $"p"; $"script"; $"body"; $"html"].
Ltac isin := cbn; tauto.
Ltac names := repeat first [apply names_chars | apply names_app | apply names_line | apply names_elt; [isin|] | (constructor; [isin|constructor]) | constructor].
Lemma names_row tag m s : names_in lower_names (row_tokens tag m s).
Proof.
  assert (forall x, names_in lower_names (simple x)) as S by (intros x; apply names_line, names_elt; [isin|apply names_chars]).
  unfold row_tokens. apply names_app; [names|]. do 2 (apply names_app; [apply S|]). apply names_app.
  { apply names_line, names_elt; [isin|apply names_chars]. }
  apply names_app; [apply S|]. apply names_app; [|apply names_app; [apply S|apply names_app; [|names]]].
  - unfold location_tokens, place_tokens. destruct (sc_file s) as [f|].
    + apply names_app; [names|]. apply names_app; [|names]. apply names_line. destruct (relative f); [apply names_elt; [isin|]|]; apply names_chars.
    + apply names_line, names_elt; [isin|apply names_chars].
  - unfold signature_tokens. destruct (sc_signature s) as [[|x l]|].
    + apply names_line, names_elt; [isin|]. apply names_elt; [isin|apply names_chars].
    + apply names_app.
      * apply names_flat. intros y. apply names_line, names_elt; [isin|]. apply names_app; (apply names_elt; [isin|apply names_chars]).
      * destruct (len (x :: l) <? m); [|constructor]. apply names_line, names_elt; [isin|constructor].
    + apply names_line, names_elt; [isin|apply names_chars].
Qed.
Lemma names_header a m : names_in lower_names (header_tokens a m).
Proof.
  assert (forall n l t, names_in lower_names (on_line n (elt $"th" l (chars t)))) as S by (intros; apply names_line, names_elt; [isin|apply names_chars]).
  unfold header_tokens. apply names_app; [names|]. do 5 (apply names_app; [apply S|]). apply names_app; [|names].
  apply names_flat. intros i. apply S.
Qed.
Lemma names_tail sv copy : names_in lower_names (tail_tokens sv copy).
Proof.
  unfold tail_tokens. apply names_app; [names|]. apply names_app; [names|]. apply names_app.
  - apply names_line, names_elt; [isin|]. apply names_app; [apply names_chars|]. apply names_app; [apply names_elt; [isin|apply names_chars]|].
    apply names_app; apply names_chars.
  - apply names_app; [apply names_line, names_elt; [isin|apply names_chars]|]. apply names_app; [names|]. constructor; [isin|constructor].
Qed.
Lemma texts_table name sv copy tag a m scs : ~ In name lower_names ->
  texts name None (header_tokens a m ++ flat_map (row_tokens tag m) scs ++ tail_tokens sv copy) = [].
Proof.
  intros N. rewrite (texts_skip name _ _ _ (names_header a m) N).
  rewrite (texts_skip name lower_names (flat_map _ scs)); [|apply names_flat, names_row|exact N].
  rewrite <- (app_nil_r (tail_tokens sv copy)), (texts_skip name _ _ _ (names_tail sv copy) N). reflexivity.
Qed.
Lemma page_texts sv copy tag a m scs : let ts := page_tokens sv copy tag a m scs in
  texts $"title" None ts = [codes (title_text tag a)] /\
  texts $"h1" None ts = [codes ($"Linux " ++ tag ++ $" syscall table")] /\
  texts $"h2" None ts = [codes ($"Architecture: " ++ arch_name a); codes ($"ABI: " ++ abi_name a)].
Proof.
  cbv zeta. unfold page_tokens, head_tokens. rewrite <- !app_assoc.
  set (rest := header_tokens a m ++ _).
  assert (forall name n t L r, names_in L [t] -> ~ In name L -> texts name None (on_line n [t] ++ r) = texts name None r) as One
    by (intros name n t L r F N; now apply (texts_skip name L); [apply names_line|]).
  assert (forall name n x l s r, x <> name -> texts name None (on_line n (elt x l (txt s)) ++ r) = texts name None r) as Elt.
  { intros name n x l s r N. apply (texts_skip name [x]); [|now intros [->|[]]]. apply names_line, names_elt; [now left|apply names_chars]. }
  assert (forall name x l, x <> name -> names_in [x] [TStart x l] /\ names_in [x] [TEnd x] /\ ~ In name [x]) as Nm.
  { intros name x l N. repeat split; try (constructor; [now left|constructor]). now intros [->|[]]. }
  assert (forall name n x l r, x <> name -> texts name None (on_line n [TStart x l] ++ r) = texts name None r) as St
    by (intros name n x l r N; destruct (Nm name x l N) as (A & _ & B); exact (One name n _ [x] r A B)).
  assert (forall name n x r, x <> name -> texts name None (on_line n [TEnd x] ++ r) = texts name None r) as En
    by (intros name n x r N; destruct (Nm name x [] N) as (_ & A & B); exact (One name n _ [x] r A B)).
  assert (forall name n t r, texts name None (on_line n [TDoctype t] ++ r) = texts name None r) as Do
    by (intros name n t r; apply (One name n _ [] r); [constructor; [exact I|constructor]|intros []]).
  assert (forall name, ~ In name lower_names -> texts name None rest = []) as Re by (intros name N; now apply texts_table).
  split; [|split]; rewrite Do, !St by discriminate.
  - unfold txt at 1. rewrite texts_line. rewrite !St, Elt, En, St, !Elt, !St by discriminate. rewrite Re; [reflexivity|].
    cbn. intros X. decompose [or] X; try discriminate; assumption.
  - rewrite Elt, !St, Elt, En, St by discriminate. unfold txt at 1. rewrite texts_line, !Elt, !St by discriminate. rewrite Re; [reflexivity|].
    cbn. intros X. decompose [or] X; try discriminate; assumption.
  - rewrite Elt, !St, Elt, En, St, Elt by discriminate. unfold txt at 1. rewrite texts_line. unfold txt. rewrite texts_line, !St by discriminate. rewrite Re; [reflexivity|].
    cbn. intros X. decompose [or] X; try discriminate; assumption.
Qed.

(** * Spans *)

Lemma chr_codes s : map chr (codes s) = s.
Proof. unfold codes. rewrite map_map. rewrite (map_ext _ (fun c => c)) by (intros; apply chr_code). apply map_id. Qed.
Lemma codes_inj a b : codes a = codes b -> a = b.
Proof. intros E. apply (f_equal (map chr)) in E. now rewrite !chr_codes in E. Qed.
Lemma span_plain t : span_of (plain t) = 1.
Proof. reflexivity. Qed.
Lemma span_marked z rest links t : 0 <= z -> span_of (marked (($"colspan", str_of_int z) :: rest) links t) = z.
Proof. intros P. unfold span_of, marked. cbn [c_attrs map fst snd]. cbn [dget]. rewrite str_eqb_refl, chr_codes. now apply number_plain. Qed.
Lemma location_span tag s : span_of (location tag s) = 1.
Proof.
  unfold location. destruct (sc_file s); [|reflexivity]. destruct (sc_line s); [|reflexivity]. destruct (negb (sc_good s)); [reflexivity|].
  destruct (sc_grepped s); reflexivity.
Qed.
Lemma map_const {A B} (f : A -> B) c l : (forall x, In x l -> f x = c) -> map f l = repeat c (List.length l).
Proof. induction l as [|x l IH]; intros H; [reflexivity|]. cbn. rewrite H by now left. f_equal. apply IH. intros y I. apply H. now right. Qed.
Lemma row_spans_of tag m s : 0 <= m -> map span_of (row_of tag m s) = row_spans m s.
Proof.
  intros M. unfold row_of, row_spans. rewrite map_app. f_equal.
  - cbn [map]. rewrite location_span. f_equal. f_equal. f_equal. destruct (sc_esoteric s); reflexivity.
  - unfold parameters. destruct (sc_signature s) as [[|x l]|].
    + cbn [map]. now rewrite span_marked.
    + rewrite map_app, map_map. f_equal.
      * apply map_const. reflexivity.
      * replace (0 <? m - len (x :: l)) with (len (x :: l) <? m) by (destruct (Z.ltb_spec 0 (m - len (x :: l))), (Z.ltb_spec (len (x :: l)) m); lia || reflexivity).
        destruct (Z.ltb_spec (len (x :: l)) m); [|reflexivity]. cbn [map]. rewrite span_marked by lia. reflexivity.
    + cbn [map]. now rewrite span_marked.
Qed.
Lemma header_spans_of a m : map span_of (headings a m) = header_spans m.
Proof.
  unfold headings, header_spans. rewrite map_app, map_map. f_equal. rewrite (map_const _ 1) by reflexivity. now rewrite seq_length.
Qed.

(** * What the page tells *)

Lemma plain_inj a b : plain a = plain b -> a = b.
Proof. now intros [= E]. Qed.
Lemma text_inj a b l : map (fun arg => plain (codes arg)) a ++ l = map (fun arg => plain (codes arg)) b ++ l -> a = b.
Proof.
  intros E. apply app_inv_tail in E. revert b E. induction a as [|x a IH]; intros [|y b]; cbn; try discriminate; [reflexivity|].
  intros E. assert (codes x = codes y) as E1 by (apply (f_equal (hd (plain []))) in E; now apply plain_inj). apply (f_equal (@tl _)) in E.
  rewrite (codes_inj _ _ E1). f_equal. now apply IH.
Qed.
Lemma args_inj (a b : list str) la lb :
  (forall c, In c la -> c_attrs c <> []) -> (forall c, In c lb -> c_attrs c <> []) ->
  map (fun arg => plain (codes arg)) a ++ la = map (fun arg => plain (codes arg)) b ++ lb -> a = b.
Proof.
  intros A B. revert b. induction a as [|x a IH]; intros [|y b]; cbn [map app]; intros E.
  - reflexivity.
  - exfalso. apply (A (plain (codes y))); [rewrite E; now left|reflexivity].
  - exfalso. apply (B (plain (codes x))); [rewrite <- E; now left|reflexivity].
  - assert (codes x = codes y) as E1 by (apply (f_equal (hd (plain []))) in E; now apply plain_inj). apply (f_equal (@tl _)) in E.
    rewrite (codes_inj _ _ E1). f_equal. now apply IH.
Qed.
Definition filler (m : Z) (l : list str) : list cell := if len l <? m then [marked [($"colspan", str_of_int (m - len l))] [] []] else [].
Lemma filler_attrs m l c : In c (filler m l) -> c_attrs c <> [].
Proof. unfold filler. destruct (len l <? m); [|intros []]. intros [<-|[]]. discriminate. Qed.
Lemma parameters_inj m s s' : parameters m s = parameters m s' -> sc_signature s = sc_signature s'.
Proof.
  unfold parameters. destruct (sc_signature s) as [[|x l]|], (sc_signature s') as [[|x' l']|]; intros E; try reflexivity;
    try (apply (f_equal (fun l => List.length (c_attrs (hd (plain []) l)))) in E; discriminate).
  f_equal. exact (args_inj (x :: l) (x' :: l') _ _ (filler_attrs m (x :: l)) (filler_attrs m (x' :: l')) E).
Qed.

Lemma last_colon (a b x y : str) : ~ In ":"%char x -> ~ In ":"%char y -> a ++ $":" ++ x = b ++ $":" ++ y -> a = b /\ x = y.
Proof.
  intros X Y E. apply (f_equal (@rev _)) in E. rewrite !rev_app_distr in E. cbn [rev app] in E. rewrite <- !app_assoc in E. cbn [app] in E.
  assert (forall (u v p q : str), ~ In ":"%char u -> ~ In ":"%char v -> u ++ ":"%char :: p = v ++ ":"%char :: q -> u = v /\ p = q) as G.
  { clear. induction u as [|c u IH]; intros [|d v] p q U V E; cbn [app] in E.
    - now injection E.
    - injection E as <- _. destruct V. now left.
    - injection E as -> _. destruct U. now left.
    - injection E as -> E. destruct (IH v p q) as [-> ->]; auto. { intros I. apply U. now right. } intros I. apply V. now right. }
  apply G in E as [E1 E2]; [|now rewrite <- in_rev|now rewrite <- in_rev].
  split; [rewrite <- (rev_involutive a), E2|rewrite <- (rev_involutive x), E1]; apply rev_involutive.
Qed.
Definition describable (s : syscall) : Prop := printable s /\ forall f, sc_file s = Some f -> good_path f.
Lemma location_inj tag s s' : describable s -> describable s' -> location tag s = location tag s' -> sh_place (shown_of s) = sh_place (shown_of s').
Proof.
  intros [P G] [P' G'] E.
  assert (forall s f, sc_file s = Some f -> location tag s = marked (location_attrs s) (if relative f then [source_link tag f (location_anchor s)] else [])
        (indent 6 ++ codes (str_of_path f ++ $":" ++ location_line s) ++ indent 5)) as Q.
  { intros s0 f E0. unfold location, location_attrs, location_line, location_anchor. rewrite E0. now destruct (sc_line s0). }
  assert (forall s, sc_file s = None -> location tag s = marked [($"class", $"unknown")] [] (codes $"unknown")) as Q0.
  { intros s0 E0. unfold location. now rewrite E0. }
  assert (forall s, List.length (location_attrs s) <> 1%nat) as L.
  { intros s0. unfold location_attrs. destruct (sc_line s0); [|discriminate]. destruct (negb (sc_good s0)); [discriminate|]. destruct (sc_grepped s0); discriminate. }
  unfold shown_of, sh_place. destruct (sc_file s) as [f|] eqn:F, (sc_file s') as [f'|] eqn:F'; [|exfalso|exfalso|reflexivity].
  2:{ rewrite (Q s f F), (Q0 s' F') in E. apply (f_equal (fun c => List.length (c_attrs c))) in E. cbn [marked c_attrs] in E. rewrite map_length in E. now apply (L s). }
  2:{ rewrite (Q s' f' F'), (Q0 s F) in E. apply (f_equal (fun c => List.length (c_attrs c))) in E. cbn [marked c_attrs] in E. rewrite !map_length in E. apply (L s'). now rewrite <- E. }
  rewrite (Q s f F), (Q s' f' F') in E.
  assert (location_attrs s = location_attrs s') as E1.
  { apply (f_equal (fun c => map (fun x => (fst x, map chr (snd x))) (c_attrs c))) in E. cbn [marked c_attrs] in E. rewrite !map_map in E.
    rewrite !(map_ext (fun x : str * str => (fst (fst x, codes (snd x)), map chr (snd (fst x, codes (snd x))))) (fun x => x)) in E
      by (intros [u v]; cbn; now rewrite chr_codes). now rewrite !map_id in E. }
  assert (str_of_path f ++ $":" ++ location_line s = str_of_path f' ++ $":" ++ location_line s') as E2.
  { apply (f_equal c_text) in E. cbn [marked c_text] in E. apply app_inv_head in E. apply app_inv_tail in E. now apply codes_inj. }
  assert (forall s, printable s -> ~ In ":"%char (location_line s)) as C.
  { intros s0 P0. unfold location_line. destruct (sc_line s0) as [l|] eqn:E0; [apply number_plain; now apply (pt_line _ P0)|].
    cbn. intros I. decompose [or] I; try discriminate; assumption. }
  apply last_colon in E2 as [E2 E3]; [|now apply C|now apply C].
  assert (f = f') as <- by (rewrite <- (path_str_roundtrip f (G f eq_refl)), E2; now apply path_str_roundtrip, G'). f_equal. f_equal.
  unfold location_line in E3. unfold location_attrs in E1.
  assert (forall l, 0 <= l -> str_of_int l <> $"??") as NQ.
  { intros l N X. destruct (proj1 (proj2 (number_plain l N))) as (c & t & Y & D). rewrite X in Y. assert (c = "?"%char) as -> by (apply (f_equal (hd "a"%char)) in Y; now cbn in Y). discriminate. }
  destruct (sc_line s) as [l|] eqn:L1, (sc_line s') as [l'|] eqn:L2.
  - assert (l = l') as <- by (apply str_of_int_inj; [now apply (pt_line _ P)|now apply (pt_line _ P')|exact E3]).
    f_equal. f_equal; [f_equal|]; destruct (sc_good s), (sc_good s'), (sc_grepped s), (sc_grepped s'); try reflexivity; cbn in E1; try discriminate;
      exfalso; apply (f_equal (fun l => len (snd (nth 1 l ([], []))))) in E1; vm_compute in E1; discriminate.
  - exfalso. apply (NQ l); [now apply (pt_line _ P)|exact E3].
  - exfalso. apply (NQ l'); [now apply (pt_line _ P')|now symmetry].
  - reflexivity.
Qed.
Lemma row_inj tag m s s' : describable s -> describable s' -> row_of tag m s = row_of tag m s' -> shown_of s = shown_of s'.
Proof.
  intros P P' E. unfold row_of in E.
  assert (forall i d, nth i (row_of tag m s) d = nth i (row_of tag m s') d) as N by (intros i d; unfold row_of; now rewrite E).
  pose proof (N 0%nat (plain [])) as N0. pose proof (N 2%nat (plain [])) as N2. pose proof (N 3%nat (plain [])) as N3.
  pose proof (N 4%nat (plain [])) as N4. pose proof (N 5%nat (plain [])) as N5. cbn [row_of nth app] in N0, N2, N3, N4, N5. clear N.
  apply (f_equal (skipn 6)) in E. cbn [skipn app] in E. apply parameters_inj in E. apply location_inj in N4; [|exact P|exact P'].
  apply plain_inj, codes_inj in N0, N3, N5. apply str_of_int_inj in N0; [|apply (pt_number _ (proj1 P))|apply (pt_number _ (proj1 P'))].
  pose proof (f_equal c_text N2) as N2'. apply codes_inj in N2'. apply (f_equal (fun c => List.length (c_attrs c))) in N2. 
  assert (sc_esoteric s = sc_esoteric s') as N6 by (destruct (sc_esoteric s), (sc_esoteric s'); reflexivity || discriminate).
  unfold shown_of in *. cbn [sh_place] in N4. now rewrite N0, N2', N3, N4, N5, N6, E.
Qed.

(** ** Whole pages *)

Lemma output_html_ok sv copy tag a scs text : output_html sv copy (Ok tag) a scs = Ok text ->
  exists m, longest scs m /\ 0 <= m /\ scs <> [] /\ text = page sv copy tag a m scs.
Proof.
  unfold output_html. destruct (max_args scs) as [m| | |] eqn:M; try discriminate. cbn [bind]. intros E.
  assert (text = page sv copy tag a m scs) as -> by (apply (f_equal (fun o => match o with Ok t => t | _ => [] end)) in E; now symmetry).
  apply max_args_ok in M. exists m. split; [exact M|]. destruct M as [(s & l & I & _ & <-) _]. pose proof (len_nonneg l).
  split; [lia|]. split; [|reflexivity]. intros ->. destruct I.
Qed.
Lemma html_page sv copy tag a scs text : output_html sv copy (Ok tag) a scs = Ok text -> Forall (fun s => 0 <= sc_number s) scs ->
  exists m ts, longest scs m /\ html_read text = Some ts /\ nested [] ts = true /\
    texts $"title" None ts = [codes (title_text tag a)] /\
    texts $"h1" None ts = [codes ($"Linux " ++ tag ++ $" syscall table")] /\
    texts $"h2" None ts = [codes ($"Architecture: " ++ arch_name a); codes ($"ABI: " ++ abi_name a)] /\
    table_of ts = headings a m :: map (row_of tag m) scs.
Proof.
  intros E F. apply output_html_ok in E as (m & L & _ & N & ->). exists m, (page_tokens sv copy tag a m scs).
  split; [exact L|]. split; [apply page_read|]. split; [apply page_nested|].
  destruct (page_texts sv copy tag a m scs) as (T1 & T2 & T3). rewrite T1, T2, T3. rewrite page_table by assumption. auto.
Qed.
Lemma html_spans sv copy tag a scs text ts : output_html sv copy (Ok tag) a scs = Ok text -> Forall (fun s => 0 <= sc_number s) scs ->
  html_read text = Some ts -> output_syscalls_html (Ok tag) scs = Ok (map (map span_of) (table_of ts)).
Proof.
  intros E F R. pose proof (output_html_ok _ _ _ _ _ _ E) as (m & L & M & N & ->). rewrite page_read in R. 
  assert (ts = page_tokens sv copy tag a m scs) as -> by (apply (f_equal (fun o => match o with Some t => t | None => [] end)) in R; now symmetry).
  unfold output_syscalls_html. rewrite (proj2 (max_args_ok scs m) L). cbn [bind]. rewrite page_table by assumption. cbn [map].
  rewrite header_spans_of, map_map. f_equal. f_equal. apply map_ext. intros s. symmetry. now apply row_spans_of.
Qed.

Lemma length_headings a m : List.length (headings a m) = (5 + Z.to_nat m)%nat.
Proof. unfold headings. rewrite app_length, map_length, seq_length. reflexivity. Qed.
Lemma class_name_inj k k' : class_name k = class_name k' -> k = k'.
Proof. destruct k, k'; intros E; try reflexivity; vm_compute in E; discriminate. Qed.
Lemma suffix_inj (a b x y : str) : List.length x = List.length y -> a ++ x = b ++ y -> a = b /\ x = y.
Proof.
  intros L E. assert (List.length a = List.length b) as L2 by (apply (f_equal (@List.length _)) in E; rewrite !app_length in E; lia).
  revert b E L2. induction a as [|c a IH]; intros [|d b] E L2; try discriminate; [auto|]. cbn [app] in E. injection E as -> E.
  destruct (IH b E) as [-> ->]; auto.
Qed.
Lemma arch_name_inj a a' : arch_name a = arch_name a' -> a_class a = a_class a' /\ a_bits32 a = a_bits32 a'.
Proof.
  unfold arch_name. intros E. apply suffix_inj in E as [E1 E2]; [|unfold bits_name; destruct (a_bits32 a), (a_bits32 a'); reflexivity].
  split; [now apply class_name_inj|]. destruct (a_bits32 a), (a_bits32 a'); try reflexivity; vm_compute in E2; discriminate.
Qed.
Lemma abi_name_inj a a' : abi_name a = abi_name a' -> a_compat a = a_compat a' /\ a_abi_bits32 a = a_abi_bits32 a' /\ a_abi a = a_abi a'.
Proof.
  unfold abi_name. intros E. assert (a_compat a = a_compat a') as C.
  { apply (f_equal (hd "a"%char)) in E. destruct (a_compat a), (a_compat a'), (a_abi_bits32 a), (a_abi_bits32 a'); try reflexivity; vm_compute in E; discriminate. }
  rewrite C in E. apply app_inv_head in E. split; [exact C|].
  assert (List.length (bits_name (a_abi_bits32 a)) = List.length (bits_name (a_abi_bits32 a'))) as L by (destruct (a_abi_bits32 a), (a_abi_bits32 a'); reflexivity).
  assert (a_abi_bits32 a = a_abi_bits32 a') as B.
  { apply (f_equal (hd "a"%char)) in E. destruct (a_abi_bits32 a), (a_abi_bits32 a'); try reflexivity; vm_compute in E; discriminate. }
  rewrite B in E. apply app_inv_head in E. apply app_inv_head in E. split; [exact B|exact E].
Qed.
Lemma number_title_inj a a' : number_title a = number_title a' -> reg_text a = reg_text a'.
Proof.
  unfold number_title, reg_text. intros E. apply app_inv_head in E.
  assert (forall r : str, 160 :: codes ($"(" ++ r ++ $")") <> []) as N by discriminate.
  assert (forall r r' : str, 160 :: codes ($"(" ++ r ++ $")") = 160 :: codes ($"(" ++ r' ++ $")") -> r = r') as I.
  { intros r r' X. apply (f_equal (@tl _)) in X. apply codes_inj in X. apply app_inv_head in X. now apply app_inv_tail in X. }
  destruct (a_num_reg a) as [[|c r]|], (a_num_reg a') as [[|c' r']|]; try reflexivity; try discriminate; now apply I.
Qed.
Lemma headings_inj a a' m : headings a m = headings a' m -> reg_text a = reg_text a' /\
  forall i, (i < Z.to_nat m)%nat -> nth i (a_arg_regs a) [] = nth i (a_arg_regs a') [].
Proof.
  intros E. split.
  - apply (f_equal (fun l => c_text (hd (plain []) l))) in E. apply number_title_inj. exact E.
  - intros i I. unfold headings in E. apply (f_equal (skipn 5)) in E. cbn [skipn app] in E.
    assert (forall b, nth_error (map (fun i => heading [] (codes ($"Arg " ++ str_of_int (Z.of_nat i + 1) ++ $" (" ++ nth i (a_arg_regs b) [] ++ $")"))) (seq 0 (Z.to_nat m))) i =
      Some (heading [] (codes ($"Arg " ++ str_of_int (Z.of_nat i + 1) ++ $" (" ++ nth i (a_arg_regs b) [] ++ $")")))) as Q.
    { intros b. rewrite nth_error_map. rewrite (nth_error_nth' (seq 0 (Z.to_nat m)) 0%nat) by now rewrite seq_length. rewrite seq_nth by exact I. reflexivity. }
    pose proof (Q a) as Q1. rewrite E, (Q a') in Q1.
    apply (f_equal (fun o => match o with Some c => c_text c | None => [] end)) in Q1. cbn [heading c_text] in Q1. apply codes_inj in Q1.
    apply app_inv_head in Q1. apply app_inv_head in Q1. apply app_inv_head in Q1. apply app_inv_tail in Q1. now symmetry.
Qed.
Lemma Forall2_map_eq {A B C} (f : A -> C) (g : B -> C) l l' : map f l = map g l' -> Forall2 (fun x y => f x = g y) l l'.
Proof.
  revert l'. induction l as [|x l IH]; intros [|y l'] E; try discriminate; constructor.
  - apply (f_equal (@hd_error _)) in E. cbn in E. congruence.
  - apply IH. now apply (f_equal (@tl _)) in E.
Qed.
Lemma same_page sv copy tag a scs sv' copy' tag' a' scs' text :
  output_html sv copy (Ok tag) a scs = Ok text -> output_html sv' copy' (Ok tag') a' scs' = Ok text ->
  Forall describable scs -> Forall describable scs' ->
  tag = tag' /\ a_class a = a_class a' /\ a_bits32 a = a_bits32 a' /\ a_compat a = a_compat a' /\ a_abi_bits32 a = a_abi_bits32 a' /\ a_abi a = a_abi a' /\
  reg_text a = reg_text a' /\
  (forall m i, longest scs m -> Z.of_nat i < m -> nth i (a_arg_regs a) [] = nth i (a_arg_regs a') []) /\
  map shown_of scs = map shown_of scs'.
Proof.
  intros O O' D D'.
  assert (forall l, Forall describable l -> Forall (fun s => 0 <= sc_number s) l) as NN.
  { intros l. apply Forall_impl. intros s [P _]. apply (pt_number _ P). }
  apply output_html_ok in O as (m & L & M & N & ->). apply output_html_ok in O' as (m' & L' & M' & N' & E).
  pose proof (page_read sv copy tag a m scs) as R. rewrite E, page_read in R.
  assert (page_tokens sv' copy' tag' a' m' scs' = page_tokens sv copy tag a m scs) as T
    by (apply (f_equal (fun o => match o with Some t => t | None => [] end)) in R; exact R).
  destruct (page_texts sv copy tag a m scs) as (_ & T2 & T3). destruct (page_texts sv' copy' tag' a' m' scs') as (_ & T2' & T3').
  rewrite T in T2', T3'. rewrite T2 in T2'. rewrite T3 in T3'.
  assert (tag = tag') as <-.
  { apply (f_equal (hd [])) in T2'. cbn [hd] in T2'. apply codes_inj in T2'. apply app_inv_head in T2'. now apply app_inv_tail in T2'. }
  assert (arch_name a = arch_name a') as A1 by (apply (f_equal (hd [])) in T3'; cbn [hd] in T3'; apply codes_inj in T3'; now apply app_inv_head in T3').
  assert (abi_name a = abi_name a') as A2.
  { apply (f_equal (fun l => hd [] (tl l))) in T3'. cbn [hd tl] in T3'. apply codes_inj in T3'. now apply app_inv_head in T3'. }
  apply arch_name_inj in A1 as [A1 A1']. apply abi_name_inj in A2 as (A2 & A2' & A2'').
  pose proof (page_table sv copy tag a m scs (NN _ D) N) as P. rewrite <- T, (page_table sv' copy' tag a' m' scs' (NN _ D') N') in P.
  pose proof (f_equal (hd []) P) as H. cbn [hd] in H. apply (f_equal (@tl _)) in P. cbn [tl] in P.
  assert (m = m') as <-.
  { pose proof (f_equal (@List.length _) H) as H'. rewrite !length_headings in H'. lia. }
  symmetry in H, P. apply headings_inj in H as [H1 H2].
  split; [reflexivity|]. repeat (split; [assumption|]). split.
  - intros m0 i L0 I. apply H2. destruct L as [(s & l & S1 & S2 & <-) U], L0 as [(s0 & l0 & S3 & S4 & <-) U0]. specialize (U s0 l0 S3 S4). lia.
  - clear - P D D'. revert scs' D' P. induction D as [|s scs Ds D IH]; intros [|s' scs'] D' P; try discriminate; [reflexivity|].
    inversion D'; subst. cbn [map]. pose proof (f_equal (hd []) P) as P1. apply (f_equal (@tl _)) in P. cbn [hd tl map] in P, P1.
    f_equal; [now apply (row_inj tag m)|now apply IH].
Qed.

From Verif Require Import M_Kernel M_Location M_Annotate L_Print.
Lemma result_pages k ver abi b a t e v kdir w have p rdir kres r k' ver' abi' b' a' t' e' v' kdir' w' have' p' rdir' kres' r' sv copy tag sv' copy' tag' text :
  arch_new k ver abi b = Ok a -> arch_new k' ver' abi' b' = Ok a' ->
  v_annotate t = annotate w have (adjust_abi a e) e p kdir rdir kres -> v_annotate t' = annotate w' have' (adjust_abi a' e') e' p' kdir' rdir' kres' ->
  (forall d, kdir = Some d -> good_path d) -> (forall d, kdir' = Some d -> good_path d) ->
  extract_syscalls t a e v kdir = Ok r -> extract_syscalls t' a' e' v' kdir' = Ok r' ->
  output_html sv copy (Ok tag) a r = Ok text -> output_html sv' copy' (Ok tag') a' r' = Ok text ->
  tag = tag' /\ a_class a = a_class a' /\ a_bits32 a = a_bits32 a' /\ a_compat a = a_compat a' /\ a_abi_bits32 a = a_abi_bits32 a' /\ a_abi a = a_abi a' /\
  reg_text a = reg_text a' /\
  (forall m i, longest r m -> Z.of_nat i < m -> nth i (a_arg_regs a) [] = nth i (a_arg_regs a') []) /\
  map shown_of r = map shown_of r'.
Proof.
  intros A A' T T' K K' H H' O O'. apply (same_page sv copy tag a r sv' copy' tag' a' r' text); [assumption..| |]; apply Forall_forall; intros s I.
  - destruct (result_printable _ _ _ _ _ _ _ _ _ _ _ _ _ _ _ A T K H s I) as (P & G & _). now split.
  - destruct (result_printable _ _ _ _ _ _ _ _ _ _ _ _ _ _ _ A' T' K' H' s I) as (P & G & _). now split.
Qed.
