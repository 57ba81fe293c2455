(** Lemmas on reading lines from a file opened as text. *)
From Coq Require Import List Bool Ascii String ZArith Lia Arith.
From Verif Require Import PyBase PyFacts M_Text S_Text L_Text.
Import ListNotations.
Open Scope Z_scope.
Open Scope list_scope.

(** ** Newlines *)

Lemma newlines_app a b : last a 0 <> 13 \/ hd 0 b <> 10 -> newlines (a ++ b) = newlines a ++ newlines b.
Proof.
  remember (List.length a) as n eqn:N. assert (List.length a <= n)%nat as L by lia. clear N. revert a L. induction n as [|n IH]; intros a L H.
  - now destruct a; [|cbn in L; lia].
  - destruct a as [|c [|d a]]; [reflexivity| |].
    + cbn [app newlines]. destruct (c =? 13) eqn:E; [|reflexivity]. destruct b as [|e b]; [reflexivity|].
      destruct (e =? 10) eqn:F; [|reflexivity]. cbn in H. lia.
    + change ((c :: d :: a) ++ b) with (c :: (d :: a) ++ b).
      assert (newlines ((d :: a) ++ b) = newlines (d :: a) ++ newlines b) as G.
      { apply IH; [cbn in *; lia|]. exact H. }
      assert (newlines (a ++ b) = newlines a ++ newlines b) as G'.
      { apply IH; [cbn in *; lia|]. destruct a as [|x a]; [now left; cbn|exact H]. }
      change (newlines (c :: (d :: a) ++ b)) with (if c =? 13 then if d =? 10 then 10 :: newlines (a ++ b) else 10 :: newlines ((d :: a) ++ b) else c :: newlines ((d :: a) ++ b)).
      change (newlines (c :: d :: a)) with (if c =? 13 then if d =? 10 then 10 :: newlines a else 10 :: newlines (d :: a) else c :: newlines (d :: a)).
      rewrite G, G'. now destruct (c =? 13), (d =? 10).
Qed.

Definition settle (cr : bool) (u : text) (ok : bool) : text := if ok then newlines (pending cr ++ u) else snd (newline_feed cr u).

Lemma last_app_some {A} (a b : list A) d : b <> [] -> last (a ++ b) d = last b d.
Proof.
  intros B. induction a as [|x a IH]; [reflexivity|]. cbn [app]. destruct (a ++ b) eqn:E; [apply app_eq_nil in E as (_ & ->); contradiction|].
  rewrite <- IH. reflexivity.
Qed.
Lemma settle_app cr t u ok : let (cr', out) := newline_feed cr t in settle cr (t ++ u) ok = out ++ settle cr' u ok.
Proof.
  unfold newline_feed at 1. destruct t as [|c0 t0] eqn:T; [reflexivity|]. rewrite <- T. assert (t <> []) as TN by (subst; discriminate). clear T c0 t0.
  destruct (last t 0 =? 13) eqn:E.
  - pose proof (app_removelast_last 0 TN) as R. replace (last t 0) with 13 in R by lia. set (t0 := removelast t) in *. rewrite R.
    unfold settle. destruct ok.
    + rewrite <- app_assoc. rewrite app_assoc. cbn [app]. rewrite newlines_app by (right; cbn; lia). reflexivity.
    + destruct u as [|x u].
      * rewrite app_nil_r. cbn [newline_feed snd]. rewrite app_nil_r. unfold newline_feed. destruct (t0 ++ [13]) eqn:Z; [now destruct t0|]. rewrite <- Z.
        rewrite last_last, removelast_last. reflexivity.
      * assert (x :: u <> []) as XN by discriminate. unfold newline_feed at 1. destruct ((t0 ++ [13]) ++ x :: u) eqn:Z; [now apply app_eq_nil in Z as (_ & Z)|]. rewrite <- Z.
        rewrite last_app_some by discriminate. unfold newline_feed. destruct (last (x :: u) 0 =? 13); cbn [snd pending].
        -- rewrite removelast_app by discriminate. rewrite <- app_assoc, (app_assoc (pending cr)). cbn [app]. rewrite newlines_app by (right; cbn; lia). reflexivity.
        -- rewrite <- app_assoc, (app_assoc (pending cr)). change ([13] ++ x :: u) with (13 :: x :: u). rewrite newlines_app by (right; cbn; lia). reflexivity.
  - assert (last (pending cr ++ t) 0 <> 13) as LN by (rewrite last_app_some by assumption; lia).
    unfold settle. destruct ok; cbn [pending app].
    + rewrite app_assoc. apply newlines_app. now left.
    + destruct u as [|x u].
      * rewrite app_nil_r. cbn [newline_feed snd]. rewrite app_nil_r. unfold newline_feed. destruct t; [contradiction|]. now rewrite E.
      * unfold newline_feed at 1. destruct (t ++ x :: u) eqn:Z; [now apply app_eq_nil in Z as (-> & _)|]. rewrite <- Z.
        rewrite last_app_some by discriminate. unfold newline_feed. destruct (last (x :: u) 0 =? 13); cbn [snd pending app].
        -- rewrite removelast_app by discriminate. rewrite app_assoc. apply newlines_app. now left.
        -- rewrite app_assoc. apply newlines_app. now left.
Qed.

(** ** Lines *)

Fixpoint cut (t : text) : list text * text :=
  match t with
  | [] => ([], [])
  | c :: t' =>
      let (ls, r) := cut t' in
      if c =? 10 then ([c] :: ls, r) else match ls with [] => ([], c :: r) | l :: ls' => ((c :: l) :: ls', r) end
  end.
Lemma first_line_cut t : match first_line t with
  | Some (l, t') => cut t = (l :: fst (cut t'), snd (cut t'))
  | None => cut t = ([], t)
  end.
Proof.
  induction t as [|c t IH]; [reflexivity|]. cbn [first_line cut]. destruct (c =? 10) eqn:E; [now destruct (cut t)|].
  destruct (first_line t) as [(l & t')|]; now rewrite IH.
Qed.
Lemma first_line_app t x l r : first_line t = Some (l, r) -> first_line (t ++ x) = Some (l, r ++ x).
Proof.
  revert l r. induction t as [|c t IH]; intros l r; [discriminate|]. cbn [first_line app]. destruct (c =? 10); [intros E; now injection E as <- <-|].
  destruct (first_line t) as [(l' & r')|]; [|discriminate]. intros E. injection E as <- <-. now rewrite (IH l' r').
Qed.
Lemma cut_length t : (List.length (fst (cut t)) <= List.length t)%nat.
Proof.
  induction t as [|c t IH]; [reflexivity|]. cbn [cut]. destruct (cut t) as (ls & r). cbn [fst] in IH. destruct (c =? 10); cbn in *; [lia|]. destruct ls; cbn in *; lia.
Qed.
Lemma cut_some t : Forall (fun l => l <> []) (fst (cut t)).
Proof.
  induction t as [|c t IH]; [constructor|]. cbn [cut]. destruct (cut t) as (ls & r). destruct (c =? 10); cbn in *; [now constructor|].
  destruct ls; cbn; [constructor|]. inversion IH. now constructor.
Qed.

Definition stands (r : reader) (ls : list text) (rest : text) (ok : bool) : Prop :=
  exists u, salvage (rd_part r) (List.concat (rd_chunks r)) = (u, ok) /\ cut (rd_text r ++ settle (rd_cr r) u ok) = (ls, rest).

Lemma read_line_stands chunks : forall t cr part ls rest ok, stands (Reader t cr part chunks) ls rest ok ->
  match ls with
  | l :: ls' => (exists r, read_line t cr part chunks = Ok (l, r) /\ stands r ls' rest ok) \/ ok = false /\ read_line t cr part chunks = Raise UnicodeDecodeError
  | [] => if ok then exists r, read_line t cr part chunks = Ok (rest, r) /\ stands r [] [] true
          else read_line t cr part chunks = Raise UnicodeDecodeError
  end.
Proof.
  induction chunks as [|c chunks IH]; intros t cr part ls rest ok (u & S & C); cbn [rd_part rd_chunks rd_text rd_cr List.concat] in S, C; cbn [read_line].
  - destruct (first_line t) as [(l & t')|] eqn:F.
    { pose proof (first_line_cut (t ++ settle cr u ok)) as X. rewrite (first_line_app _ _ _ _ F), C in X. injection X as -> ->.
      left. exists (Reader t' cr part []). split; [reflexivity|]. exists u. split; [exact S|]. cbn [rd_text rd_cr]. apply surjective_pairing. }
    cbn [salvage] in S. destruct part as [p|]; injection S as <- <-.
    + unfold settle in C. cbn in C. rewrite app_nil_r in C. pose proof (first_line_cut t) as X. rewrite F, C in X. injection X as -> _. reflexivity.
    + unfold settle in C. rewrite app_nil_r in C. destruct cr; cbn [pending newlines] in *; cbn [Z.eqb Pos.eqb] in *.
      * assert (cut (t ++ [10]) = ([t ++ [10]], [])) as X.
        { clear C. revert F. induction t as [|d t IH]; [reflexivity|]. cbn [first_line app cut]. destruct (d =? 10); [discriminate|]. destruct (first_line t) as [(? & ?)|]; [discriminate|].
          intros _. now rewrite IH. }
        change (newlines [13]) with [10] in C. rewrite X in C. injection C as <- <-. left. eexists. split; [reflexivity|]. exists []. split; reflexivity.
      * rewrite app_nil_r in *. pose proof (first_line_cut t) as X. rewrite F, C in X. injection X as -> ->. eexists. split; [reflexivity|]. exists []. split; reflexivity.
  - destruct (first_line t) as [(l & t')|] eqn:F.
    { pose proof (first_line_cut (t ++ settle cr u ok)) as X. rewrite (first_line_app _ _ _ _ F), C in X. injection X as -> ->.
      left. exists (Reader t' cr part (c :: chunks)). split; [reflexivity|]. exists u. split; [exact S|]. cbn [rd_text rd_cr]. apply surjective_pairing. }
    pose proof (feed_salvage part c (List.concat chunks)) as FS. destruct (utf8_feed part c) as [(part' & new)|e| |]; try contradiction; cbn [bind].
    + rewrite FS in S. injection S as <- E. pose proof (settle_app cr new (fst (salvage part' (List.concat chunks))) ok) as SA.
      destruct (newline_feed cr new) as (cr' & new'). apply IH. exists (fst (salvage part' (List.concat chunks))). cbn. split; [rewrite <- E; now destruct (salvage _ _)|].
      rewrite <- app_assoc, <- SA. exact C.
    + destruct e; try contradiction. rewrite S in FS. cbn in FS. subst ok. destruct ls; [reflexivity|]. right. now split.
Qed.

(** The lines that will be read: a last one without an end counts if all of the file can be decoded *)
Definition lines_left (ls : list text) (rest : text) (ok : bool) : list text :=
  ls ++ match rest with [] => [] | _ => if ok then [rest] else [] end.
Definition ahead (r : reader) (all : list text) (ok : bool) : Prop :=
  Forall (fun l => l <> []) all /\ exists ls rest, stands r ls rest ok /\ all = lines_left ls rest ok.
Lemma readline_ahead r all ok : ahead r all ok ->
  match all with
  | l :: all' => (exists r', readline r = Ok (l, r') /\ ahead r' all' ok) \/ ok = false /\ readline r = Raise UnicodeDecodeError
  | [] => if ok then exists r', readline r = Ok ([], r') else readline r = Raise UnicodeDecodeError
  end.
Proof.
  intros (N & ls & rest & S & ->). destruct r as [t cr part chunks]. apply read_line_stands in S. unfold readline. cbn [rd_text rd_cr rd_part rd_chunks].
  destruct ls as [|l ls]; cbn [lines_left app].
  - unfold lines_left in *. cbn [app] in *. destruct ok.
    + destruct S as (r' & S & S'). destruct rest as [|x rest]; [now exists r'|]. left. exists r'. split; [exact S|]. split; [constructor|]. exists [], []. now split.
    + destruct rest; exact S.
  - cbn [lines_left app] in N. inversion N; subst. destruct S as [(r' & S & S')|S]; [left|now right]. exists r'. split; [exact S|]. split; [assumption|]. now exists ls, rest.
Qed.

Lemma skip_ahead n : forall r all ok, ahead r all ok ->
  if (List.length all <? n)%nat then skip_text n r = Raise (if ok then StopIteration else UnicodeDecodeError)
  else (exists r', skip_text n r = Ok r' /\ ahead r' (skipn n all) ok) \/ ok = false /\ skip_text n r = Raise UnicodeDecodeError.
Proof.
  induction n as [|n IH]; intros r all ok A.
  - cbn. left. now exists r.
  - cbn [skip_text]. pose proof (readline_ahead _ _ _ A) as R. destruct all as [|l all].
    + cbn. destruct ok; [destruct R as (r' & ->); reflexivity|now rewrite R].
    + cbn [List.length skipn]. change (S (List.length all) <? S n)%nat with (List.length all <? n)%nat. destruct R as [(r' & -> & A')|(-> & ->)].
      * cbn [bind]. destruct A as (N & _). inversion N as [|? ? L _]. destruct l; [contradiction|]. now apply IH.
      * cbn [bind]. destruct (List.length all <? n)%nat; [reflexivity|now right].
Qed.

Fixpoint joined (acc : text) (ls : list text) : option text :=
  match ls with
  | [] => None
  | l :: ls' => let acc := acc ++ strip_text l in if ends_paren acc then Some acc else joined acc ls'
  end.
Lemma gather_ahead fuel : forall acc r all ok, ahead r all ok -> (List.length all < fuel)%nat ->
  match joined acc all with
  | Some s => gather fuel acc r = Ok s \/ ok = false /\ gather fuel acc r = Raise UnicodeDecodeError
  | None => gather fuel acc r = if ok then Diverge else Raise UnicodeDecodeError
  end.
Proof.
  induction fuel as [|fuel IH]; intros acc r all ok A L; [lia|]. cbn [gather]. pose proof (readline_ahead _ _ _ A) as R. destruct all as [|l all].
  - cbn. destruct ok; [destruct R as (r' & ->); reflexivity|now rewrite R].
  - destruct A as (N & _). inversion N as [|? ? LN _]; subst. cbn [joined]. destruct R as [(r' & -> & A')|(-> & ->)].
    + cbn [bind]. destruct l as [|c l]; [contradiction|]. destruct (ends_paren _); [now left|]. apply IH; [assumption|cbn in L; lia].
    + cbn [bind]. destruct (ends_paren _); [now right|]. destruct (joined _ all); [now right|reflexivity].
Qed.

Lemma salvage_length st b : (List.length (fst (salvage st b)) <= List.length b)%nat.
Proof.
  revert st. induction b as [|c b IH]; intros st; [reflexivity|]. cbn [salvage]. destruct (utf8_byte st c) as [(st' & t)|e| |] eqn:B; cbn; try lia.
  assert (List.length t <= 1)%nat.
  { unfold utf8_byte in B. destruct st as [p|].
    - destruct (in_range _ _ _); [|discriminate]. destruct (pt_need p) as [|[|n]]; injection B as <- <-; cbn; lia.
    - destruct (code c <? 128); [injection B as <- <-; cbn; lia|]. destruct (lead (code c)); [injection B as <- <-; cbn; lia|discriminate]. }
  specialize (IH st'). destruct (salvage st' b). cbn in *. rewrite app_length. lia.
Qed.
Lemma newlines_length t : (List.length (newlines t) <= List.length t)%nat.
Proof.
  remember (List.length t) as n eqn:N. assert (List.length t <= n)%nat as L by lia. rewrite N. clear N. revert t L. induction n as [|n IH]; intros t L; [destruct t; cbn in *; lia|].
  destruct t as [|c [|d t]]; [reflexivity|cbn; destruct (c =? 13); cbn; lia|].
  change (newlines (c :: d :: t)) with (if c =? 13 then if d =? 10 then 10 :: newlines t else 10 :: newlines (d :: t) else c :: newlines (d :: t)).
  pose proof (IH t ltac:(cbn in L; lia)). pose proof (IH (d :: t) ltac:(cbn in L; cbn; lia)). destruct (c =? 13), (d =? 10); cbn [List.length] in *; lia.
Qed.
Lemma settle_length t ok : (List.length (settle false t ok) <= List.length t)%nat.
Proof.
  unfold settle. destruct ok; [apply newlines_length|]. unfold newline_feed. destruct t as [|c u]; [reflexivity|]. destruct (last _ 0 =? 13); cbn [snd pending app].
  - pose proof (newlines_length (removelast (c :: u))). assert (List.length (removelast (c :: u)) <= List.length (c :: u))%nat; [|lia].
    pose proof (app_removelast_last 0 (l := c :: u) ltac:(discriminate)) as R. apply (f_equal (@List.length _)) in R. rewrite app_length in R. lia.
  - apply newlines_length.
Qed.

(** The lines of decoded text *)
Definition lines_seen (t : text) (ok : bool) : list text := let (ls, rest) := cut (settle false t ok) in lines_left ls rest ok.
Lemma cut_total t : List.concat (fst (cut t)) ++ snd (cut t) = t.
Proof.
  induction t as [|c t IH]; [reflexivity|]. cbn [cut]. destruct (cut t) as (ls & r). destruct (c =? 10); cbn in *; [now rewrite IH|]. destruct ls; cbn in *; now rewrite IH.
Qed.
Lemma lines_seen_length t ok : (List.length (lines_seen t ok) <= List.length t)%nat.
Proof.
  pose proof (settle_length t ok). unfold lines_seen. pose proof (cut_some (settle false t ok)) as N. pose proof (cut_total (settle false t ok)) as T.
  destruct (cut (settle false t ok)) as (ls & rest). cbn [fst snd] in *. unfold lines_left. rewrite app_length.
  apply (f_equal (@List.length _)) in T. rewrite app_length in T.
  assert (List.length ls <= List.length (List.concat ls))%nat.
  { clear T. induction N as [|l ls LN _ IH]; [reflexivity|]. cbn. rewrite app_length. destruct l; [contradiction|]. cbn. lia. }
  destruct rest; cbn in *; [lia|]. destruct ok; cbn; lia.
Qed.
Lemma open_ahead chunks t ok : salvage None (List.concat chunks) = (t, ok) -> ahead (open_text chunks) (lines_seen t ok) ok.
Proof.
  intros S. unfold lines_seen. pose proof (cut_some (settle false t ok)) as N. destruct (cut (settle false t ok)) as (ls & rest) eqn:C. split.
  - unfold lines_left. apply Forall_app. split; [exact N|]. destruct rest; [constructor|]. destruct ok; [|constructor]. constructor; [discriminate|constructor].
  - exists ls, rest. split; [|reflexivity]. exists t. split; [exact S|exact C].
Qed.

Lemma signature_result rest chunks line big t ok : salvage None (List.concat chunks) = (t, ok) ->
  let all := lines_seen t ok in let n := Z.to_nat (line - 1) in
  if (List.length all <? n)%nat then signature_from_chunks rest chunks line big = Raise (if ok then StopIteration else UnicodeDecodeError)
  else match joined [] (skipn n all) with
       | Some s => signature_from_chunks rest chunks line big = rest s big \/ ok = false /\ signature_from_chunks rest chunks line big = Raise UnicodeDecodeError
       | None => signature_from_chunks rest chunks line big = if ok then Diverge else Raise UnicodeDecodeError
       end.
Proof.
  intros S all n. pose proof (open_ahead _ _ _ S) as A. fold all in A. pose proof (skip_ahead n _ _ _ A) as K. unfold signature_from_chunks. fold n.
  destruct (List.length all <? n)%nat eqn:LT; [now rewrite K|].
  assert (List.length (skipn n all) < Datatypes.S (List.length (List.concat chunks)))%nat as F.
  { rewrite skipn_length. pose proof (lines_seen_length t ok). fold all in H. pose proof (salvage_length None (List.concat chunks)). rewrite S in H0. cbn in H0. unfold text in *. lia. }
  destruct K as [(r & -> & A')|(-> & ->)]; cbn [bind].
  - pose proof (gather_ahead _ [] r _ _ A' F) as G. destruct (joined [] (skipn n all)).
    + destruct G as [->|(-> & ->)]; [now left|now right].
    + rewrite G. now destruct ok.
  - destruct (joined [] _); [now right|reflexivity].
Qed.
