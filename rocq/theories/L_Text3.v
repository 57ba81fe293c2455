(** Lemmas that connect reading text with its specification. *)
From Coq Require Import List Bool Ascii String ZArith Lia Arith.
From Verif Require Import PyBase PyFacts Regex M_Elf M_Syscall M_Arch M_Location M_Search M_Build M_Signature M_Text S_Text L_Text L_Text2.
Import ListNotations.
Open Scope Z_scope.
Open Scope list_scope.

(** ** Blanks *)

Lemma is_blank_iff z : is_blank z = true <-> blank z.
Proof. unfold is_blank, blank, in_range. lia. Qed.
Lemma drop_blanks_app l x : Forall blank l -> drop_blanks (l ++ x) = drop_blanks x.
Proof. induction 1 as [|c l B _ IH]; [reflexivity|]. cbn. apply is_blank_iff in B. now rewrite B. Qed.
Lemma drop_blanks_stop c x : ~ blank c -> drop_blanks (c :: x) = c :: x.
Proof. intros B. cbn. destruct (is_blank c) eqn:E; [apply is_blank_iff in E; contradiction|reflexivity]. Qed.
Lemma drop_blanks_split t : exists l, t = l ++ drop_blanks t /\ Forall blank l /\ forall c u, drop_blanks t = c :: u -> ~ blank c.
Proof.
  induction t as [|c t (l & E & B & H)]; [exists []; repeat split; [constructor|discriminate]|]. cbn [drop_blanks]. destruct (is_blank c) eqn:I.
  - exists (c :: l). split; [now rewrite E at 1|]. split; [constructor; [now apply is_blank_iff|exact B]|exact H].
  - exists []. split; [reflexivity|]. split; [constructor|]. intros d u X. apply cons_inj in X as (<- & _). intros Y. apply is_blank_iff in Y. congruence.
Qed.
Lemma trimmed_strip t u : trimmed t u -> strip_text t = u.
Proof.
  intros (l & r & -> & L & R & H1 & H2). unfold strip_text. rewrite drop_blanks_app by assumption. destruct u as [|c u].
  - cbn [app]. pose proof (drop_blanks_app r [] R) as X. rewrite app_nil_r in X. now rewrite X.
  - rewrite <- app_comm_cons, drop_blanks_stop by eauto. rewrite app_comm_cons, rev_app_distr, drop_blanks_app.
    + destruct (exists_last (l := c :: u) ltac:(discriminate)) as (v & d & E). rewrite E in *. rewrite rev_app_distr. cbn [rev app]. rewrite drop_blanks_stop by eauto.
      cbn [rev]. now rewrite rev_involutive.
    + now apply Forall_rev.
Qed.
Lemma strip_trimmed t : trimmed t (strip_text t).
Proof.
  unfold strip_text. destruct (drop_blanks_split t) as (l & E & L & H). destruct (drop_blanks_split (rev (drop_blanks t))) as (r & F & R & H').
  apply (f_equal (@rev Z)) in F. rewrite rev_involutive, rev_app_distr in F. exists l, (rev r). split; [now rewrite E at 1; rewrite F at 1|]. split; [exact L|]. split; [now apply Forall_rev|]. split.
  - intros c u X. rewrite X in F. exact (H c _ F).
  - intros c u X. apply (f_equal (@rev Z)) in X. rewrite rev_involutive, rev_app_distr in X. exact (H' c _ X).
Qed.
Lemma strip_end t : strip_text (t ++ [10]) = strip_text t.
Proof.
  apply trimmed_strip. destruct (strip_trimmed t) as (l & r & E & L & R & H1 & H2). exists l, (r ++ [10]). split; [rewrite E at 1; now rewrite <- !app_assoc|].
  split; [exact L|]. split; [apply Forall_app; split; [exact R|constructor; [unfold blank; lia|constructor]]|]. now split.
Qed.

Lemma ends_paren_iff t : ends_paren t = true <-> exists v, t = v ++ [41].
Proof.
  unfold ends_paren. split.
  - intros E. destruct t as [|c u]; [discriminate|]. pose proof (app_removelast_last 0 (l := c :: u) ltac:(discriminate)) as R.
    replace (last (c :: u) 0) with 41 in R by lia. eauto.
  - intros (v & ->). now rewrite last_last.
Qed.
Lemma closes_joined ls : forall acc s, closes ls acc s <-> joined acc ls = Some s.
Proof.
  induction ls as [|l ls IH]; intros acc s; cbn [joined].
  - split; [inversion 1|discriminate].
  - split.
    + inversion 1 as [? ? ? u T V|? ? ? u ? T V C]; subst; rewrite (trimmed_strip _ _ T).
      * apply ends_paren_iff in V. now rewrite V.
      * destruct (ends_paren (acc ++ u)) eqn:E; [apply ends_paren_iff in E; contradiction|]. now apply IH.
    + destruct (ends_paren (acc ++ strip_text l)) eqn:E.
      * intros X. injection X as <-. apply closes_now; [apply strip_trimmed|now apply ends_paren_iff].
      * intros X. apply (closes_later _ _ _ (strip_text l)); [apply strip_trimmed| |now apply IH]. rewrite <- ends_paren_iff. congruence.
Qed.

(** ** Lines *)

Definition held (t : text) : text := if last t 0 =? 13 then removelast t else t.
Lemma settle_held t : settle false t false = newlines (held t).
Proof. unfold settle, newline_feed, held. destruct t as [|c t]; [reflexivity|]. now destruct (last _ 0 =? 13). Qed.
Lemma held_app a b : b <> [] -> held (a ++ b) = a ++ held b.
Proof. intros B. unfold held. rewrite last_app_some by exact B. destruct (_ =? _); [now apply removelast_app|reflexivity]. Qed.
Lemma plain_cons c t : plain (c :: t) <-> c <> 10 /\ c <> 13 /\ plain t.
Proof. unfold plain. cbn. intuition. Qed.
Lemma newlines_plain t x : plain t -> newlines (t ++ x) = t ++ newlines x.
Proof.
  induction t as [|c t IH]; [reflexivity|]. intros P. apply plain_cons in P as (H1 & H2 & P). cbn [app newlines]. replace (c =? 13) with false by lia. now rewrite IH.
Qed.
Lemma plain_held t : plain t -> held t = t.
Proof.
  intros P. unfold held. destruct t as [|c t]; [reflexivity|]. pose proof (app_removelast_last 0 (l := c :: t) ltac:(discriminate)) as R.
  destruct (last (c :: t) 0 =? 13) eqn:E; [|reflexivity]. exfalso. destruct P as (_ & P). apply P. rewrite R. apply in_or_app. right. left. lia.
Qed.
Lemma cut_plain b y : plain b -> cut (b ++ 10 :: y) = ((b ++ [10]) :: fst (cut y), snd (cut y)).
Proof.
  induction b as [|c b IH]; intros P; cbn [app cut]; [cbn [Z.eqb Pos.eqb]; now destruct (cut y)|]. apply plain_cons in P as (H1 & H2 & P). rewrite (IH P). now replace (c =? 10) with false by lia.
Qed.
Lemma cut_none b : plain b -> cut b = ([], b).
Proof. induction b as [|c b IH]; [reflexivity|]. intros P. apply plain_cons in P as (H1 & H2 & P). cbn [cut]. rewrite (IH P). now replace (c =? 10) with false by lia. Qed.

Lemma newlines_end b e x : plain b -> e = [10] \/ e = [13; 10] \/ e = [13] /\ hd 0 x <> 10 -> newlines (b ++ e ++ x) = b ++ 10 :: newlines x.
Proof.
  intros P H. rewrite newlines_plain by exact P. f_equal. destruct H as [->|[->|(-> & H)]]; [reflexivity|reflexivity|]. cbn. destruct x as [|c x]; [reflexivity|]. cbn in H.
  now replace (c =? 10) with false by lia.
Qed.
Lemma held_hd t : hd 0 t <> 10 -> hd 0 (held t) <> 10.
Proof. unfold held. destruct (last t 0 =? 13); [|auto]. destruct t as [|c [|d t]]; cbn; intros H; (exact H || discriminate). Qed.

Definition ended (b : text) : text := b ++ [10].
Lemma splits_seen t ls rest : splits t ls rest ->
  fst (cut (settle false t false)) = map ended ls /\
  exists ls' r, cut (settle false t true) = (map ended ls ++ ls', r) /\
    (plain rest /\ ls' = [] /\ r = rest \/ exists b, rest = b ++ [13] /\ ls' = [ended b] /\ r = []).
Proof.
  induction 1 as [t P|t P|body e t ls rest P E S IH].
  - rewrite settle_held, plain_held by exact P. unfold settle. cbn [pending app]. pose proof (newlines_plain t [] P) as N. rewrite !app_nil_r in N. rewrite N, cut_none by exact P.
    split; [reflexivity|]. exists [], t. split; [reflexivity|]. now left.
  - rewrite settle_held. unfold held. rewrite last_last, removelast_last. cbn [Z.eqb Pos.eqb]. pose proof (newlines_plain t [] P) as N. rewrite !app_nil_r in N. rewrite N, cut_none by exact P.
    split; [reflexivity|]. exists [ended t], []. unfold settle. cbn [pending app]. rewrite newlines_plain by exact P. change (newlines [13]) with [10]. rewrite (cut_plain t []) by exact P.
    split; [reflexivity|]. right. now exists t.
  - destruct IH as (I1 & ls' & r & I2 & I3). rewrite settle_held in *. unfold settle in *. cbn [pending app] in *. split.
    + assert (held (body ++ e ++ t) = body ++ e ++ held t) as ->.
      { destruct t as [|c t]; [|rewrite app_assoc, held_app by discriminate; now rewrite app_assoc]. rewrite app_nil_r. change (held []) with (@nil Z). rewrite app_nil_r. unfold held.
        destruct E as [->|[->|(_ & ? & ? & E & _)]]; [| |discriminate]; rewrite last_app_some by discriminate; reflexivity. }
      rewrite newlines_end; [rewrite cut_plain by exact P; cbn [fst map]; now rewrite I1|exact P|].
      destruct E as [E|[E|(E & c & t' & -> & C)]]; auto. right. right. split; [exact E|]. apply held_hd. exact C.
    + exists ls', r. split; [|exact I3]. rewrite newlines_end; [rewrite cut_plain by exact P; now rewrite I2|exact P|].
      destruct E as [E|[E|(E & c & t' & -> & C)]]; auto.
Qed.
Lemma broken_lines t ls rest : splits t ls rest -> lines_seen t false = map ended ls.
Proof.
  intros S. apply splits_seen in S as (S & _). unfold lines_seen. destruct (cut _) as (a & r). cbn in S. rewrite S. unfold lines_left. destruct r; now rewrite app_nil_r.
Qed.
Definition same_line (a b : text) : Prop := a = b \/ a = ended b.
Lemma whole_lines t ls : lines_of t ls -> Forall2 same_line (lines_seen t true) ls.
Proof.
  assert (forall l, Forall2 same_line (map ended l) l) as M by (induction l; cbn; constructor; [now right|assumption]).
  intros (ls' & rest & S & H). apply splits_seen in S as (_ & l2 & r & C & D). unfold lines_seen. rewrite C. unfold lines_left.
  destruct D as [(P & -> & ->)|(b & -> & -> & ->)].
  - rewrite app_nil_r. destruct H as [(-> & ->)|[(N & _ & ->)|(b & -> & _)]].
    + rewrite app_nil_r. apply M.
    + destruct rest as [|c rest]; [contradiction|]. apply Forall2_app; [apply M|]. constructor; [now left|constructor].
    + exfalso. destruct P as (_ & P). apply P, in_or_app. right. now left.
  - rewrite app_nil_r. destruct H as [(H & _)|[(_ & H & _)|(b' & E & ->)]].
    + now destruct b.
    + exfalso. destruct H as (_ & P). apply P, in_or_app. right. now left.
    + apply app_inj_tail in E as (-> & _). apply Forall2_app; [apply M|]. constructor; [now right|constructor].
Qed.
Lemma same_strip a b : same_line a b -> strip_text a = strip_text b.
Proof. intros [->| ->]; [reflexivity|apply strip_end]. Qed.
Lemma same_joined a b : Forall2 same_line a b -> forall acc, joined acc a = joined acc b.
Proof.
  induction 1 as [|x y a b S _ IH]; intros acc; [reflexivity|]. cbn [joined]. rewrite (same_strip _ _ S). now destruct (ends_paren _).
Qed.
Lemma same_skipn a b n : Forall2 same_line a b -> Forall2 same_line (skipn n a) (skipn n b).
Proof. revert a b. induction n as [|n IH]; intros a b H; [exact H|]. destruct H; cbn; [constructor|]. now apply IH. Qed.
Lemma same_length a b : Forall2 same_line a b -> List.length a = List.length b.
Proof. induction 1; cbn; congruence. Qed.
Lemma ended_same ls : Forall2 same_line (map ended ls) ls.
Proof. induction ls; cbn; constructor; [now right|assumption]. Qed.

Lemma splits_total t : exists ls rest, splits t ls rest.
Proof.
  remember (List.length t) as n eqn:N. assert (List.length t <= n)%nat as L by lia. clear N. revert t L. induction n as [|n IH]; intros t L.
  - destruct t; [|cbn in L; lia]. exists [], []. constructor. unfold plain. cbn. tauto.
  - assert (plain t \/ exists b c u, t = b ++ c :: u /\ plain b /\ (c = 10 \/ c = 13)) as [P|(b & c & u & -> & P & C)].
    { clear. induction t as [|c t IH]; [left; unfold plain; cbn; tauto|]. destruct (Z.eq_dec c 10); [right; exists [], c, t; unfold plain; cbn; intuition|].
      destruct (Z.eq_dec c 13); [right; exists [], c, t; unfold plain; cbn; intuition|]. destruct IH as [P|(b & d & u & -> & P & C)]; [left; now apply plain_cons|].
      right. exists (c :: b), d, u. split; [reflexivity|]. split; [now apply plain_cons|exact C]. }
    + exists [], t. now constructor.
    + rewrite app_length in L. cbn in L. destruct C as [->| ->].
      * destruct (IH u ltac:(lia)) as (ls & rest & S). exists (b :: ls), rest. apply (splits_line b [10] u); [exact P|now left|exact S].
      * destruct u as [|d u]; [exists [], (b ++ [13]); now constructor|]. cbn in L. destruct (Z.eq_dec d 10) as [->|D].
        -- destruct (IH u ltac:(lia)) as (ls & rest & S). exists (b :: ls), rest. apply (splits_line b [13; 10] u); [exact P|right; now left|exact S].
        -- destruct (IH (d :: u) ltac:(cbn; lia)) as (ls & rest & S). exists (b :: ls), rest. apply (splits_line b [13] (d :: u)); [exact P|right; right; eauto|exact S].
Qed.
Lemma splits_rest t ls rest : splits t ls rest -> plain rest \/ exists b, rest = b ++ [13].
Proof. induction 1; eauto. Qed.
Lemma lines_total t : exists ls, lines_of t ls.
Proof.
  destruct (splits_total t) as (ls & rest & S). destruct (splits_rest _ _ _ S) as [P|(b & ->)].
  - destruct rest as [|c rest]; [exists ls, ls, []; split; [exact S|now left]|]. exists (ls ++ [c :: rest]), ls, (c :: rest). split; [exact S|]. right. left. now split.
  - exists (ls ++ [b]), ls, (b ++ [13]). split; [exact S|]. right. right. now exists b.
Qed.

(** ** Signatures *)

Lemma signature_joined (ls : list text) line s : signature_at ls line s <-> joined [] (skipn (Z.to_nat (line - 1)) ls) = Some s.
Proof. apply closes_joined. Qed.
Lemma signature_whole rest chunks t (ls : list text) line big : written (List.concat chunks) t -> lines_of t ls ->
  (forall s, signature_at ls line s -> signature_from_chunks rest chunks line big = rest s big) /\
  ((forall s, ~ signature_at ls line s) ->
   signature_from_chunks rest chunks line big = if (List.length ls <? Z.to_nat (line - 1))%nat then Raise StopIteration else Diverge).
Proof.
  intros W L. apply salvage_written in W. pose proof (signature_result rest chunks line big t true W) as R. cbn zeta in R. apply whole_lines in L.
  pose proof (same_length _ _ L) as LE. pose proof (same_joined _ _ (same_skipn _ _ (Z.to_nat (line - 1)) L)) as J. rewrite LE, J in R. split.
  - intros s S. apply signature_joined in S. rewrite S in R. destruct (_ <? _)%nat eqn:LT; [|now destruct R as [R|(? & _)]]. exfalso. apply Nat.ltb_lt in LT. rewrite skipn_all2 in S by lia. discriminate.
  - intros N. destruct (_ <? _)%nat; [exact R|]. destruct (joined [] (skipn _ ls)) as [s|] eqn:E; [|exact R]. apply signature_joined in E. destruct (N s E).
Qed.
Lemma signature_broken rest chunks t (ls : list text) r line big : breaks (List.concat chunks) t -> splits t ls r ->
  (forall s, signature_at ls line s ->
     signature_from_chunks rest chunks line big = rest s big \/ signature_from_chunks rest chunks line big = Raise UnicodeDecodeError) /\
  ((forall s, ~ signature_at ls line s) -> signature_from_chunks rest chunks line big = Raise UnicodeDecodeError).
Proof.
  intros W L. apply salvage_breaks in W. pose proof (signature_result rest chunks line big t false W) as R. cbn zeta in R. rewrite (broken_lines _ _ _ L) in R.
  pose proof (ended_same ls) as L'. pose proof (same_joined _ _ (same_skipn _ _ (Z.to_nat (line - 1)) L')) as J. rewrite J in R. split.
  - intros s S. apply signature_joined in S. rewrite S in R. destruct (_ <? _)%nat; [now right|]. destruct R as [R|(_ & R)]; auto.
  - intros N. destruct (_ <? _)%nat; [exact R|]. destruct (joined [] (skipn _ ls)) as [s|] eqn:E; [|exact R]. apply signature_joined in E. destruct (N s E).
Qed.

(** Lines already decoded are read without touching the file *)
Lemma readline_buffered r l ls x : cut (rd_text r) = (l :: ls, x) -> exists t', readline r = Ok (l, Reader t' (rd_cr r) (rd_part r) (rd_chunks r)) /\ cut t' = (ls, x).
Proof.
  intros C. pose proof (first_line_cut (rd_text r)) as F. unfold readline. destruct (rd_chunks r); cbn [read_line]; destruct (first_line (rd_text r)) as [(l' & t')|]; try congruence;
    exists t'; rewrite C in F; injection F as -> -> ->; (split; [reflexivity|apply surjective_pairing]).
Qed.
Lemma skip_buffered n : forall r ls x, cut (rd_text r) = (ls, x) -> (n <= List.length ls)%nat ->
  exists r', skip_text n r = Ok r' /\ cut (rd_text r') = (skipn n ls, x).
Proof.
  induction n as [|n IH]; intros r ls x C L; [exists r; now split|]. destruct ls as [|l ls]; [cbn in L; lia|]. pose proof (cut_some (rd_text r)) as N. rewrite C in N. inversion N; subst.
  destruct (readline_buffered _ _ _ _ C) as (t' & R & C'). cbn [skip_text]. rewrite R. cbn [bind]. destruct l; [contradiction|]. cbn [skipn]. apply IH; [exact C'|cbn in L; lia].
Qed.
Lemma gather_buffered fuel : forall acc r ls x s, cut (rd_text r) = (ls, x) -> (List.length ls <= fuel)%nat -> joined acc ls = Some s -> gather fuel acc r = Ok s.
Proof.
  induction fuel as [|fuel IH]; intros acc r ls x s C L J; [destruct ls; [discriminate|cbn in L; lia]|]. destruct ls as [|l ls]; [discriminate|].
  pose proof (cut_some (rd_text r)) as N. rewrite C in N. inversion N; subst. destruct (readline_buffered _ _ _ _ C) as (t' & R & C'). cbn [gather joined] in *. rewrite R. cbn [bind].
  destruct l; [contradiction|]. destruct (ends_paren _); [injection J as <-; reflexivity|]. apply (IH _ _ ls x); [exact C'|cbn in L; lia|exact J].
Qed.

Lemma signature_soon rest p q t (ls : list text) r line big s : written p t -> splits t ls r -> signature_at ls line s ->
  signature_from_chunks rest [p; q] line big = rest s big.
Proof.
  intros W S A. apply salvage_written in W. apply signature_joined in A. pose proof (broken_lines _ _ _ S) as B. unfold lines_seen, settle in B.
  pose proof (feed_salvage None p []) as F. rewrite app_nil_r, W in F. destruct (utf8_feed None p) as [(st & u)|e| |] eqn:FE; try contradiction; [|now destruct e].
  injection F as E1 E2. cbn in E1, E2. rewrite app_nil_r in E1. subst u. destruct st; [discriminate|].
  destruct (newline_feed false t) as (cr & out) eqn:NE. cbn [snd] in B. set (n := Z.to_nat (line - 1)) in *.
  assert (exists x, cut out = (map ended ls, x)) as (x & C).
  { destruct (cut out) as (a & x). exists x. unfold lines_left in B. destruct x; rewrite app_nil_r in B; now rewrite B. }
  pose proof (same_joined _ _ (same_skipn _ _ n (ended_same ls)) []) as J. rewrite A in J.
  assert (n < List.length (map ended ls))%nat as LT.
  { destruct (le_lt_dec (List.length (map ended ls)) n) as [G|G]; [|exact G]. now rewrite skipn_all2 in J by exact G. }
  set (r1 := Reader out cr None [q]).
  assert (readline (open_text [p; q]) = readline r1) as RE.
  { unfold readline, open_text. cbn [rd_text rd_cr rd_part rd_chunks read_line first_line]. rewrite FE. cbn [bind]. rewrite NE. reflexivity. }
  unfold signature_from_chunks. fold n.
  assert (List.length (skipn n (map ended ls)) <= Datatypes.S (List.length (List.concat [p; q])))%nat as FU.
  { rewrite skipn_length, map_length. pose proof (lines_seen_length t false) as LL. rewrite (broken_lines _ _ _ S), map_length in LL.
    pose proof (salvage_length None p) as SL. rewrite W in SL. cbn in SL. cbn [List.concat]. rewrite !app_length. unfold text in *. lia. }
  destruct n as [|n'] eqn:NN.
  - cbn [skip_text bind]. assert (gather (Datatypes.S (List.length (List.concat [p; q]))) [] (open_text [p; q]) = gather (Datatypes.S (List.length (List.concat [p; q]))) [] r1) as ->.
    { cbn [gather]. now rewrite RE. }
    rewrite (gather_buffered _ [] r1 _ x s C FU J). reflexivity.
  - assert (skip_text (Datatypes.S n') (open_text [p; q]) = skip_text (Datatypes.S n') r1) as ->.
    { cbn [skip_text]. now rewrite RE. }
    destruct (skip_buffered (Datatypes.S n') r1 _ x C ltac:(lia)) as (r' & -> & C'). cbn [bind]. rewrite (gather_buffered _ [] r' _ x s C' FU J). reflexivity.
Qed.

(** What stands at the end of a chunk can be continued *)
Definition fine (st : option partial) : Prop := match st with None => True | Some p => 0 <= pt_low p <= pt_high p /\ pt_high p < 256 /\ (0 < pt_need p)%nat end.
Lemma byte_fine st c st' t : fine st -> utf8_byte st c = Ok (st', t) -> fine st'.
Proof.
  pose proof (code_range c) as R. unfold utf8_byte. destruct st as [p|].
  - intros _. destruct (in_range _ _ _); [|discriminate]. destruct (pt_need p) as [|[|n]]; intros E; injection E as <- <-; cbn; lia.
  - intros _. destruct (code c <? 128) eqn:A; [intros E; injection E as <- <-; exact I|]. pose proof (lead_cases (code c) R ltac:(lia)) as L. destruct (lead (code c)) as [p|]; [|discriminate].
    intros E. injection E as <- <-. destruct L as [(-> & L)|[(lo & hi & -> & L & L')|(lo & hi & -> & L & L')]]; cbn; lia.
Qed.
Lemma feed_fine b : forall st st' t, fine st -> utf8_feed st b = Ok (st', t) -> fine st'.
Proof.
  induction b as [|c b IH]; intros st st' t F; cbn [utf8_feed]; [intros E; injection E as <- <-; exact F|].
  destruct (utf8_byte st c) as [(s1 & t1)|e| |] eqn:B; try discriminate. cbn [bind]. destruct (utf8_feed s1 b) as [(s2 & t2)|e| |] eqn:B2; try discriminate. cbn [bind].
  intros E. injection E as <- <-. exact (IH _ _ _ (byte_fine _ _ _ _ F B) B2).
Qed.
Lemma fine_goes_on st : fine st -> exists c, snd (salvage st c) = true.
Proof.
  destruct st as [[n lo hi v]|]; [|exists []; reflexivity]. cbn. intros (L & H & N). destruct n as [|n]; [lia|]. clear N. revert lo hi v L H. induction n as [|n IH]; intros lo hi v L H.
  - exists [chr lo]. cbn [salvage]. unfold utf8_byte. cbn [pt_low pt_high pt_need]. rewrite code_chr by lia. replace (in_range lo hi lo) with true by (symmetry; apply in_range_iff; lia). reflexivity.
  - destruct (IH 128 191 (v * 64 + (lo - 128)) ltac:(lia) ltac:(lia)) as (c & E). exists (chr lo :: c). cbn [salvage]. unfold utf8_byte. cbn [pt_low pt_high pt_need pt_bits]. rewrite code_chr by lia.
    replace (in_range lo hi lo) with true by (symmetry; apply in_range_iff; lia). destruct (salvage _ c). exact E.
Qed.
Lemma signature_at_once rest p chunks line big : (forall c, not_text (p ++ c)) -> signature_from_chunks rest (p :: chunks) line big = Raise UnicodeDecodeError.
Proof.
  intros N. assert (readline (open_text (p :: chunks)) = Raise UnicodeDecodeError) as R.
  { unfold readline, open_text. cbn [rd_text rd_cr rd_part rd_chunks read_line first_line]. destruct (utf8_feed None p) as [(st & t)|e| |] eqn:F.
    - exfalso. destruct (fine_goes_on st (feed_fine p None st t I F)) as (c & E). pose proof (feed_salvage None p c) as S. rewrite F in S. pose proof (salvage_sound (p ++ c)) as W. rewrite S, E in W.
      exact (N c _ W).
    - pose proof (feed_salvage None p []) as S. rewrite F in S. now destruct e.
    - pose proof (feed_salvage None p []) as S. now rewrite F in S.
    - pose proof (feed_salvage None p []) as S. now rewrite F in S. }
  unfold signature_from_chunks. destruct (Z.to_nat (line - 1)); cbn [skip_text bind]; [cbn [gather]|]; now rewrite R.
Qed.

(** ** Latin-1: the texts of the rest of the model *)

Lemma code_inj_eqb c d : (code c =? code d) = Ascii.eqb c d.
Proof.
  destruct (Ascii.eqb_spec c d) as [->|N]; [apply Z.eqb_refl|]. apply Z.eqb_neq. intros E. apply N. rewrite <- (chr_code c), <- (chr_code d). now f_equal.
Qed.
Lemma newlines_narrow s : newlines (map code s) = map code (universal s).
Proof.
  remember (List.length s) as n eqn:N. assert (List.length s <= n)%nat as L by lia. clear N. revert s L. induction n as [|n IH]; intros s L; [destruct s; [reflexivity|cbn in L; lia]|].
  destruct s as [|c s]; [reflexivity|]. cbn [map universal newlines]. change 13 with (code CR). rewrite code_inj_eqb.
  pose proof (IH s ltac:(cbn in L; lia)) as I1. destruct (Ascii.eqb c CR); [|cbn [map]; now rewrite I1].
  destruct s as [|d s]; [reflexivity|]. cbn [map]. change 10 with (code NL). rewrite code_inj_eqb. destruct (Ascii.eqb d NL); cbn [map]; [|now rewrite <- I1].
  now rewrite (IH s) by (cbn in L; lia).
Qed.
Lemma cut_narrow s : (let (ls, r) := cut (map code s) in lines_left ls r true) = map (map code) (lines_keep s).
Proof.
  induction s as [|c s IH]; [reflexivity|]. cbn [map cut lines_keep]. destruct (cut (map code s)) as (ls & r). change 10 with (code NL). rewrite code_inj_eqb.
  destruct (Ascii.eqb c NL); [cbn [map]; now rewrite <- IH|]. destruct ls as [|l ls].
  - unfold lines_left in *. cbn [app] in *. destruct r as [|x r]; destruct (lines_keep s) as [|k ks]; try discriminate; [reflexivity|]. cbn [map] in IH. injection IH as E F. cbn [map]. now rewrite <- F, E.
  - unfold lines_left in *. cbn [app] in *. destruct (lines_keep s) as [|k ks]; [discriminate|]. cbn [map] in IH. injection IH as E F. cbn [map]. now rewrite <- F, E.
Qed.
Lemma lines_seen_narrow s : lines_seen (map code s) true = map (map code) (lines_keep (universal s)).
Proof. unfold lines_seen, settle. cbn [pending app]. rewrite newlines_narrow. apply cut_narrow. Qed.

Lemma is_blank_narrow c : is_blank (code c) = is_space c.
Proof. unfold is_blank, is_space, in_range. pose proof (code_range c). lia. Qed.
Lemma drop_blanks_narrow s : drop_blanks (map code s) = map code (dropwhile is_space s).
Proof. induction s as [|c s IH]; [reflexivity|]. cbn [map drop_blanks dropwhile]. rewrite is_blank_narrow. now destruct (is_space c). Qed.
Lemma strip_narrow s : strip_text (map code s) = map code (strip s).
Proof.
  unfold strip_text, strip, strip_by, rstrip_by, lstrip_by. now rewrite drop_blanks_narrow, <- map_rev, drop_blanks_narrow, <- map_rev.
Qed.
Lemma ends_paren_narrow s : ends_paren (map code s) = endswith s $")".
Proof.
  destruct (ends_paren (map code s)) eqn:E.
  - apply ends_paren_iff in E as (v & E). apply map_app_inv in E as (p & q & -> & <- & Q). destruct q as [|c [|]]; try discriminate. cbn in Q. injection Q as Q.
    assert (c = ")"%char) as -> by (rewrite <- (chr_code c), Q; reflexivity). symmetry. apply endswith_iff. now exists p.
  - destruct (endswith s $")") eqn:F; [|reflexivity]. apply endswith_iff in F as (p & ->). rewrite map_app in E. unfold ends_paren in E. rewrite last_app_some in E by discriminate. discriminate.
Qed.
Lemma joined_narrow ls : forall acc, read_sig acc ls = match joined (map code acc) (map (map code) ls) with Some t => Ok (map chr t) | None => Diverge end.
Proof.
  induction ls as [|l ls IH]; intros acc; [reflexivity|]. cbn [read_sig map joined]. rewrite strip_narrow, <- map_app, ends_paren_narrow. destruct (endswith _ _); [|apply IH].
  f_equal. rewrite map_map. symmetry. rewrite <- map_id. apply map_ext. intros c. apply chr_code.
Qed.
Lemma joined_codes ls : forall acc s, joined (map code acc) (map (map code) ls) = Some s -> exists x, s = map code x.
Proof.
  induction ls as [|l ls IH]; intros acc s; [discriminate|]. cbn [map joined]. rewrite strip_narrow, <- map_app. destruct (ends_paren _); [intros E; injection E as <-; eauto|]. apply IH.
Qed.
Lemma signature_narrow rest chunks x line big : written (List.concat chunks) (map code x) -> (forall s, rest (map code s) big = signature_of_text s big) ->
  signature_from_chunks rest chunks line big = signature_from_text x line big.
Proof.
  intros W H. apply salvage_written in W. pose proof (signature_result rest chunks line big _ true W) as R. cbn zeta in R. rewrite lines_seen_narrow, map_length in R.
  unfold signature_from_text, skip_lines. destruct (_ <? _)%nat; [exact R|]. cbn [bind]. rewrite skipn_map in R. rewrite joined_narrow. change (map code []) with (@nil Z).
  destruct (joined [] _) as [s|] eqn:J; [|exact R]. destruct R as [->|(? & _)]; [|discriminate]. cbn [bind].
  destruct (joined_codes _ [] s J) as (y & ->). rewrite H. f_equal. rewrite map_map. symmetry. rewrite <- map_id. apply map_ext. intros c. apply chr_code.
Qed.

(** ASCII bytes are the text they look like *)
Lemma ascii_written s : Forall (fun c => code c < 128) s -> written s (map code s).
Proof.
  intros F. split.
  - induction F as [|c s H _ IH]; cbn; constructor; [|exact IH]. pose proof (code_range c). unfold scalar. lia.
  - induction F as [|c s H _ IH]; [reflexivity|]. cbn [map List.concat]. rewrite <- IH. unfold encode. now replace (code c <? 128) with true by lia.
Qed.

(** ** The other places *)

Lemma good_location_ascii good w file content line a s : w_file w file = Some content ->
  (let l := nth (Z.to_nat (line - 1)) (lines_keep content) [] in
   Forall (fun c => code c < 128) l -> (forall name, good (map code l) name = good_definition a l name) ->
   good_location_bytes good content line s = good_location w file line a s).
Proof.
  intros F l A G. unfold good_location_bytes, good_location. rewrite F. fold l. destruct (_ <? _)%nat; [reflexivity|].
  apply ascii_written, decode_written in A. rewrite A. cbn [bind]. now rewrite !G.
Qed.
Lemma grep_lines_raises exp ls : forall n, (exists l, In l ls /\ re_search exp l <> None /\ not_text (brstrip l)) -> grep_lines exp n ls = Raise UnicodeDecodeError.
Proof.
  induction ls as [|l ls IH]; intros n (x & I & M & N); [destruct I|]. cbn [grep_lines]. destruct I as [->|I].
  - destruct (re_search exp x); [|contradiction]. now rewrite (decode_raises _ N).
  - pose proof (fun k => IH k (ex_intro _ x (conj I (conj M N)))) as G. destruct (re_search exp l); [|apply G]. pose proof (decode_salvage (brstrip l)) as D. destruct (salvage None (brstrip l)) as (t & [|]); rewrite D; cbn [bind]; [|reflexivity]. now rewrite G.
Qed.
Lemma grep_lines_gives exp ls : forall n, (forall l, In l ls -> re_search exp l <> None -> exists t, written (brstrip l) t) ->
  exists r, grep_lines exp n ls = Ok r /\ forall k t, In (k, t) r <-> exists i l, k = n + Z.of_nat i /\ nth_error ls i = Some l /\ re_search exp l <> None /\ written (brstrip l) t.
Proof.
  induction ls as [|l ls IH]; intros n H; [exists []; split; [reflexivity|]; intros k t; split; [intros []|intros ([|i] & ? & _ & E & _); discriminate]|].
  destruct (IH (n + 1) (fun l' I => H l' (or_intror I))) as (r & E & X). cbn [grep_lines].
  assert (forall k t, In (k, t) r <-> exists i l', k = n + Z.of_nat (Datatypes.S i) /\ nth_error ls i = Some l' /\ re_search exp l' <> None /\ written (brstrip l') t) as X'.
  { intros k t. rewrite X. split; intros (i & l' & K & Q); exists i, l'; (split; [lia|exact Q]). }
  destruct (re_search exp l) eqn:M.
  - destruct (H l (or_introl eq_refl)) as (t & W); [congruence|]. pose proof W as W'. apply decode_written in W'. rewrite W'. cbn [bind]. rewrite E. cbn [bind]. exists ((n, t) :: r). split; [reflexivity|].
    intros k u. cbn [In]. rewrite X'. split.
    + intros [Y|(i & l' & K & Q)]; [injection Y as <- <-; exists 0%nat, l; split; [lia|]; split; [reflexivity|]; split; [congruence|exact W]|exists (Datatypes.S i), l'; now split].
    + intros ([|i] & l' & K & Q1 & Q2 & Q3).
      * cbn in Q1. injection Q1 as <-. left. apply decode_written in Q3. rewrite W' in Q3. injection Q3 as <-. f_equal. lia.
      * right. exists i, l'. now split.
  - exists r. split; [exact E|]. intros k u. rewrite X'. split.
    + intros (i & l' & K & Q). exists (Datatypes.S i), l'. now split.
    + intros ([|i] & l' & K & Q1 & Q2 & Q3); [cbn in Q1; injection Q1 as <-; contradiction|]. exists i, l'. now split.
Qed.

Lemma mapM_member {A B} (f : A -> outcome B) l x : In x l -> (forall y, f x <> Ok y) -> forall r, mapM f l <> Ok r.
Proof.
  intros I N. induction l as [|a l IH]; [destruct I|]. intros r. cbn [mapM]. destruct I as [->|I].
  - destruct (f x) as [y| | |] eqn:E; cbn [bind]; try discriminate. destruct (N y eq_refl).
  - destruct (f a); cbn [bind]; try discriminate. destruct (mapM f l) as [r'| | |] eqn:E; cbn [bind]; try discriminate. destruct (IH I r' eq_refl).
Qed.
Lemma mapM_same {A B} (f g : A -> outcome B) l : (forall x, In x l -> f x = g x) -> mapM f l = mapM g l.
Proof. induction l as [|a l IH]; intros H; [reflexivity|]. cbn [mapM]. rewrite (H a) by now left. rewrite IH by (intros; apply H; now right). reflexivity. Qed.
