(** Links (C114). *)
From Coq Require Import List Bool Ascii String ZArith Lia.
From Verif Require Import PyBase PyFacts M_Utils M_Kernel L_Utils S_Html S_Link.
Import ListNotations.
Open Scope Z_scope.
Open Scope list_scope.

Notation size := (@List.length Z).

(** ** Cleaning *)

Lemma drop_while_size f s : (size (drop_while f s) <= size s)%nat /\ (size (drop_while f s) = size s -> drop_while f s = s).
Proof.
  induction s as [|c s [L E]]; [split; [cbn; lia|reflexivity]|]. cbn [drop_while]. destruct (f c); [|split; [lia|reflexivity]].
  cbn [List.length]. split; [lia|]. intros H. lia.
Qed.
Lemma drop_while_same f s : drop_while f s = s <-> (forall c r, s = c :: r -> f c = false).
Proof.
  destruct s as [|c s]; cbn [drop_while]; [split; [discriminate|reflexivity]|].
  split.
  - intros H x r E. injection E as -> ->. destruct (f x) eqn:F; [|reflexivity].
    destruct (drop_while_size f r) as [L _]. rewrite H in L. cbn [List.length] in L. lia.
  - intros H. rewrite (H c s eq_refl). reflexivity.
Qed.
Lemma trimmed_size s : (size (trimmed s) <= size s)%nat.
Proof.
  unfold trimmed. rewrite rev_length.
  destruct (drop_while_size control_or_space s) as [L _], (drop_while_size control_or_space (rev (drop_while control_or_space s))) as [L' _].
  rewrite rev_length in L'. lia.
Qed.
Lemma trimmed_same s : size (trimmed s) = size s -> trimmed s = s /\ forall r c, s = r ++ [c] -> control_or_space c = false.
Proof.
  unfold trimmed. rewrite rev_length. intros H.
  destruct (drop_while_size control_or_space s) as [L E], (drop_while_size control_or_space (rev (drop_while control_or_space s))) as [L' E'].
  rewrite rev_length in L', E'.
  assert (drop_while control_or_space s = s) as D by (apply E; lia). rewrite D in *.
  assert (drop_while control_or_space (rev s) = rev s) as D' by (apply E'; lia).
  rewrite D', rev_involutive. split; [reflexivity|]. intros r c ->.
  rewrite drop_while_same in D'. apply (D' c (rev r)). now rewrite rev_app_distr.
Qed.
Lemma trimmed_is s : (forall c r, s = c :: r -> control_or_space c = false) -> (forall r c, s = r ++ [c] -> control_or_space c = false) -> trimmed s = s.
Proof.
  intros F L. unfold trimmed. rewrite (proj2 (drop_while_same control_or_space s) F).
  rewrite (proj2 (drop_while_same control_or_space (rev s))), rev_involutive; [reflexivity|].
  intros c r E. apply (L (rev r)). rewrite <- (rev_involutive s), E. reflexivity.
Qed.
Lemma filter_size {A} (f : A -> bool) s : (List.length (filter f s) <= List.length s)%nat /\
  (List.length (filter f s) = List.length s -> filter f s = s /\ Forall (fun c => f c = true) s).
Proof.
  induction s as [|c s [L E]]; [split; [cbn; lia|]; split; [reflexivity|constructor]|]. cbn [filter]. destruct (f c) eqn:F; cbn [List.length].
  - split; [lia|]. intros H. destruct E as [-> A']; [lia|]. split; [reflexivity|]. now constructor.
  - split; [lia|]. lia.
Qed.
Lemma filter_is {A} (f : A -> bool) s : Forall (fun c => f c = true) s -> filter f s = s.
Proof. induction 1 as [|c s F _ IH]; [reflexivity|]. cbn [filter]. now rewrite F, IH. Qed.

(** ** Cutting *)

Lemma cut_spec c s : match cut_at c s with
  | (b, None) => s = b /\ ~ In c s
  | (b, Some a) => s = b ++ c :: a /\ ~ In c b
  end.
Proof.
  induction s as [|x s IH]; [now split|]. cbn [cut_at]. destruct (Z.eqb_spec x c) as [->|N]; [now split|].
  destruct (cut_at c s) as [b [a|]]; destruct IH as [-> I]; (split; [reflexivity|]); intros [E|E]; auto.
Qed.
Lemma cut_none c s : ~ In c s -> cut_at c s = (s, None).
Proof. induction s as [|x s IH]; [reflexivity|]. intros N. cbn [cut_at]. destruct (Z.eqb_spec x c) as [->|_]; [destruct N; now left|]. rewrite IH; [reflexivity|]. intros I. apply N. now right. Qed.
Lemma cut_first c b a : ~ In c b -> cut_at c (b ++ c :: a) = (b, Some a).
Proof. induction b as [|x b IH]; intros N; cbn [app cut_at]; [now rewrite Z.eqb_refl|]. destruct (Z.eqb_spec x c) as [->|_]; [destruct N; now left|]. rewrite IH; [reflexivity|]. intros I. apply N. now right. Qed.

(** ** Segments *)

Fixpoint sizes (l : list (list Z)) : nat := match l with [] => O | x :: r => (S (size x) + sizes r)%nat end.
Lemma sizes_app l r : sizes (l ++ r) = (sizes l + sizes r)%nat.
Proof. induction l; cbn [app sizes]; [reflexivity|]. lia. Qed.
Lemma sizes_rev l : sizes (rev l) = sizes l.
Proof. induction l as [|x l IH]; [reflexivity|]. cbn [rev]. rewrite sizes_app, IH. cbn [sizes]. lia. Qed.
Lemma segments_ne s : segments s <> [].
Proof. destruct s as [|c s]; cbn [segments]; [discriminate|]. destruct (slash c); [discriminate|]. destruct (segments s); discriminate. Qed.
Lemma segments_size s : sizes (segments s) = S (size s).
Proof.
  induction s as [|c s IH]; [reflexivity|]. cbn [segments]. destruct (slash c); cbn [sizes List.length]; [lia|].
  pose proof (segments_ne s). destruct (segments s) as [|x l]; [congruence|]. cbn [sizes List.length] in *. lia.
Qed.
Lemma segments_plain s : Forall (fun x => forall c, In c x -> slash c = false) (segments s).
Proof.
  induction s as [|c s IH]; [constructor; [now intros c []|constructor]|]. cbn [segments]. destruct (slash c) eqn:E.
  - constructor; [now intros x []|exact IH].
  - destruct (segments s) as [|x l]; [constructor; [|constructor]; now intros y [<-|[]]|].
    inversion IH as [|? ? X L]. subst. constructor; [|exact L]. intros y [<-|I]; auto.
Qed.
Lemma segments_one x : (forall c, In c x -> slash c = false) -> segments x = [x].
Proof. induction x as [|c x IH]; intros H; [reflexivity|]. cbn [segments]. rewrite (H c (or_introl eq_refl)), IH; [reflexivity|]. intros y I. apply H. now right. Qed.
Lemma segments_app x r : (forall c, In c x -> slash c = false) -> segments (x ++ 47 :: r) = x :: segments r.
Proof. induction x as [|c x IH]; intros H; [reflexivity|]. cbn [app segments]. rewrite (H c (or_introl eq_refl)), IH; [reflexivity|]. intros y I. apply H. now right. Qed.

(** ** Escapes *)

Lemma escape_size s c r : escape s = Some (c, r) -> size s = (3 + size r)%nat.
Proof.
  destruct s as [|p [|x [|y s]]]; cbn [escape]; try discriminate. destruct (p =? 37); [|discriminate].
  destruct (hex_value x), (hex_value y); try discriminate. intros E. injection E as _ ->. reflexivity.
Qed.
Lemma unescaped_size s t : unescaped s t -> (size t <= size s)%nat /\ (size t = size s -> t = s /\ forall x y, s = x ++ y -> escape y = None).
Proof.
  induction 1 as [|s c r t E U [L Q]|c r t E U [L Q]].
  - split; [lia|]. intros _. split; [reflexivity|]. intros x y H. symmetry in H. apply app_eq_nil in H. destruct H as [_ ->]. reflexivity.
  - apply escape_size in E. cbn [List.length]. split; lia.
  - cbn [List.length]. split; [lia|]. intros H. destruct Q as [-> N]; [lia|]. split; [reflexivity|].
    intros [|z x] y Y; [cbn [app] in Y; now rewrite <- Y|]. injection Y as _ Y. exact (N x y Y).
Qed.
Lemma unescaped_same s : (forall x y, s = x ++ y -> escape y = None) -> unescaped s s.
Proof.
  induction s as [|c s IH]; intros N; [constructor|]. apply un_char; [exact (N [] _ eq_refl)|]. apply IH. intros x y E. apply (N (c :: x)). cbn [app]. now rewrite E.
Qed.
Lemma unescaped_fun s t : unescaped s t -> forall t', unescaped s t' -> t' = t.
Proof.
  induction 1 as [|s c r t E U IH|c r t E U IH]; intros t' U'.
  - inversion U' as [|? ? ? ? E' ?|]; [reflexivity|discriminate E'].
  - inversion U' as [|? ? ? ? E' U1|? ? ? E' U1]; subst; [discriminate E| |congruence].
    rewrite E in E'. injection E' as <- <-. f_equal. now apply IH.
  - inversion U' as [|? ? ? ? E' U1|? ? ? E' U1]; subst; [congruence|]. f_equal. now apply IH.
Qed.

(** ** Dots *)

Lemma dots_size s : one_dot s \/ two_dots s -> (1 <= size s)%nat.
Proof. intros [H|H]; apply unescaped_size in H; cbn [List.length] in H; lia. Qed.
Lemma walked_size done l r : walked done l r -> (sizes r <= sizes done + sizes l)%nat /\
  (sizes r = (sizes done + sizes l)%nat -> r = rev done ++ l /\ Forall (fun s => ~ one_dot s /\ ~ two_dots s) l).
Proof.
  assert (forall (r : list (list Z)), (sizes (match r with [] => [[]] | _ => r end) <= 1 + sizes r)%nat) as M by (intros [|x m]; cbn [sizes List.length]; lia).
  induction 1 as [done|done s r l D W [L E]|done s r l D W [L E]|done s r l D D' W [L E]].
  - rewrite sizes_rev. cbn [sizes]. split; [lia|]. intros _. rewrite app_nil_r. now split.
  - specialize (M r). pose proof (dots_size s (or_introl D)). cbn [sizes]. split; lia.
  - specialize (M r). pose proof (dots_size s (or_intror D)). assert (sizes (tl done) <= sizes done)%nat by (destruct done; cbn [tl sizes]; lia). cbn [sizes]. split; lia.
  - cbn [sizes] in *. split; [lia|]. intros H. destruct E as [-> F]; [lia|]. cbn [rev]. rewrite <- app_assoc. cbn [app]. split; [reflexivity|]. now constructor.
Qed.
Lemma walked_same l : Forall (fun s => ~ one_dot s /\ ~ two_dots s) l -> forall done, walked done l (rev done ++ l).
Proof.
  induction 1 as [|s l [A B] _ IH]; intros done; [rewrite app_nil_r; constructor|].
  apply wk_name; [exact A|exact B|]. specialize (IH (s :: done)). cbn [rev] in IH. now rewrite <- app_assoc in IH.
Qed.
Lemma unescaped_sizes l r : Forall2 unescaped l r -> (sizes r <= sizes l)%nat /\
  (sizes r = sizes l -> r = l /\ Forall (fun s => forall x y, s = x ++ y -> escape y = None) l).
Proof.
  induction 1 as [|s t l r U _ [L E]]; [now split|]. apply unescaped_size in U. destruct U as [U Q]. cbn [sizes]. split; [lia|].
  intros H. destruct Q as [-> N]; [lia|]. destruct E as [-> F]; [lia|]. split; [reflexivity|]. now constructor.
Qed.

(** ** The link of a file *)

Fixpoint zjoin (l : list (list Z)) : list Z := match l with [] => [] | [x] => x | x :: r => x ++ 47 :: zjoin r end.
Lemma zjoin_cons x l : l <> [] -> zjoin (x :: l) = x ++ 47 :: zjoin l.
Proof. destruct l; [congruence|reflexivity]. Qed.
Lemma zjoin_size l : l <> [] -> S (size (zjoin l)) = sizes l.
Proof.
  induction l as [|x l IH]; [congruence|]. intros _. destruct l as [|y l]; [cbn [zjoin sizes]; lia|].
  rewrite zjoin_cons by discriminate. rewrite app_length. cbn [List.length sizes] in *. specialize (IH ltac:(discriminate)). lia.
Qed.
Lemma zjoin_app l r : l <> [] -> r <> [] -> zjoin (l ++ r) = zjoin l ++ 47 :: zjoin r.
Proof.
  intros N R. induction l as [|x l IH]; [congruence|]. destruct l as [|y l]; [cbn [app]; now apply zjoin_cons|].
  change ((x :: y :: l) ++ r) with (x :: (y :: l) ++ r). rewrite (zjoin_cons x ((y :: l) ++ r)) by (cbn; discriminate). rewrite IH by discriminate. rewrite (zjoin_cons x (y :: l)) by discriminate.
  rewrite <- app_assoc. reflexivity.
Qed.
Lemma zjoin_snoc l x c : zjoin (l ++ [x ++ [c]]) = zjoin (l ++ [x]) ++ [c].
Proof.
  destruct l as [|y l]; [reflexivity|]. rewrite !zjoin_app by discriminate. cbn [zjoin]. now rewrite <- app_assoc.
Qed.
Lemma codes_app a b : codes (a ++ b) = codes a ++ codes b.
Proof. apply map_app. Qed.
Lemma codes_join l : codes (join $"/" l) = zjoin (map codes l).
Proof.
  induction l as [|x l IH]; [reflexivity|]. destruct l as [|y l]; [reflexivity|].
  change (join $"/" (x :: y :: l)) with (x ++ $"/" ++ join $"/" (y :: l)). rewrite !codes_app, IH.
  change (map codes (x :: y :: l)) with (codes x :: map codes (y :: l)). rewrite (zjoin_cons (codes x)) by (cbn; discriminate). reflexivity.
Qed.
Lemma in_zjoin x l c : In x l -> In c x -> In c (zjoin l).
Proof.
  induction l as [|y l IH]; [intros []|]. intros [->|I] C; destruct l as [|z l].
  - exact C.
  - rewrite zjoin_cons by discriminate. apply in_or_app. now left.
  - destruct I.
  - rewrite zjoin_cons by discriminate. apply in_or_app. right. right. now apply IH.
Qed.
Lemma zjoin_in l c : In c (zjoin l) -> c = 47 \/ exists x, In x l /\ In c x.
Proof.
  induction l as [|y l IH]; [intros []|]. destruct l as [|z l].
  - cbn [zjoin]. intros I. right. exists y. split; [now left|exact I].
  - rewrite zjoin_cons by discriminate. intros I. apply in_app_or in I. destruct I as [I|[I|I]].
    + right. exists y. split; [now left|exact I].
    + now left.
    + destruct (IH I) as [H|(x & X & C)]; [now left|]. right. exists x. split; [now right|exact C].
Qed.
Lemma segments_zjoin l : l <> [] -> Forall (fun x => forall c, In c x -> slash c = false) l -> segments (zjoin l) = l.
Proof.
  intros N F. induction F as [|x l X F IH]; [congruence|]. destruct l as [|y l]; [now apply segments_one|].
  rewrite zjoin_cons by discriminate. rewrite segments_app by exact X. rewrite IH by discriminate. reflexivity.
Qed.

Definition anchor (line : option Z) : str := match line with Some l => $"#L" ++ str_of_int l | None => [] end.
Lemma link_shape tag f line : root f = [] -> parts f <> [] ->
  source_link tag f (anchor line) = codes $"https://" ++ zjoin (elixir :: page_way tag f) ++ codes (anchor line).
Proof.
  intros R P. unfold source_link, str_of_path, page_way. rewrite R. destruct (parts f) as [|x l] eqn:E; [congruence|].
  rewrite !codes_app, codes_join. cbn [app].
  change (codes $"https://elixir.bootlin.com/linux/") with (codes $"https://" ++ elixir ++ 47 :: codes $"linux" ++ [47]).
  change (codes $"/source/") with (47 :: codes $"source" ++ [47]).
  change (elixir :: map codes ($"linux" :: tag :: $"source" :: x :: l)) with ([elixir; codes $"linux"; codes tag; codes $"source"] ++ map codes (x :: l)).
  rewrite zjoin_app by (cbn; discriminate). cbn [zjoin]. repeat (rewrite <- ?app_assoc; cbn [app]). reflexivity.
Qed.
Lemma app_same_size {A} (a b c d : list A) : a ++ b = c ++ d -> List.length a = List.length c -> a = c /\ b = d.
Proof.
  revert c. induction a as [|x a IH]; intros [|y c]; cbn [app List.length]; try discriminate; [now split|].
  intros E L. injection E as -> E. destruct (IH c E) as [-> ->]; [lia|]. now split.
Qed.
Lemma cleaned_size s : (size (cleaned s) <= size s)%nat /\
  (size (cleaned s) = size s -> cleaned s = s /\ Forall (fun c => tab_or_newline c = false) s /\ forall r c, s = r ++ [c] -> control_or_space c = false).
Proof.
  unfold cleaned. pose proof (trimmed_size s) as T. destruct (filter_size (fun c => negb (tab_or_newline c)) (trimmed s)) as [L E]. split; [lia|].
  intros H. destruct (trimmed_same s) as [S' C]; [lia|]. rewrite S' in *. destruct (E H) as [-> F]. split; [reflexivity|]. split; [|exact C].
  eapply Forall_impl; [|exact F]. intros c N. now apply negb_true_iff.
Qed.
Lemma place_size line : size (codes (anchor line)) = match line_place line with Some p => S (size p) | None => O end.
Proof. destruct line as [l|]; [|reflexivity]. cbn [anchor line_place option_map]. rewrite !codes_app. cbn [codes map list_ascii_of_string app List.length]. reflexivity. Qed.

Lemma leads_only link tag f line : root f = [] -> parts f <> [] -> link = source_link tag f (anchor line) ->
  leads_home link tag f line -> linkable_file f line.
Proof.
  intros R P K [rest before main segs names CL CU CQ SE WA UN]. rewrite (link_shape tag f line R P) in K.
  set (X := zjoin (elixir :: page_way tag f)) in *.
  assert (page_way tag f <> []) as PW by (unfold page_way; discriminate).
  pose proof (cut_spec 63 before) as Q. rewrite CQ in Q. destruct Q as [-> Q].
  pose proof (segments_size main) as SS. rewrite SE in SS. cbn [sizes] in SS.
  destruct (walked_size _ _ _ WA) as [WL WE]. cbn [sizes] in WL, WE. destruct (unescaped_sizes _ _ UN) as [UL UE].
  assert (S (size X) = sizes (elixir :: page_way tag f)) as XS by (apply zjoin_size; discriminate). cbn [sizes] in XS.
  destruct (cleaned_size link) as [CS CE]. rewrite CL in CS, CE.
  assert (size rest = size main + size (codes (anchor line)))%nat as RS.
  { rewrite place_size. pose proof (cut_spec 35 rest) as C. rewrite CU in C. destruct (line_place line) as [p|]; destruct C as [-> _]; [rewrite app_length; reflexivity|lia]. }
  assert (size link = size (codes $"https://") + (size X + size (codes (anchor line))))%nat as LS by (rewrite K, !app_length; reflexivity).
  rewrite app_length in CS, CE. destruct CE as (CE & NT & LC); [lia|]. destruct WE as [-> ND]; [lia|]. destruct UE as [E NE]; [lia|]. cbn [rev app] in E, NE.
  rewrite <- CE in K. apply app_inv_head in K.
  assert (main = X /\ ~ In 35 X) as [MX NH].
  { pose proof (cut_spec 35 rest) as C. rewrite CU in C. destruct (line_place line) as [p|]; destruct C as [C N].
    - rewrite C in K. apply app_same_size in K; [|lia]. destruct K as [<- _]. now split.
    - subst main. assert (rest ++ [] = X ++ codes (anchor line)) as K' by (now rewrite app_nil_r). apply app_same_size in K'; [|lia]. destruct K' as [<- _]. now split. }
  subst main. rewrite <- E in *. pose proof (segments_plain X) as SP. rewrite SE in SP. apply Forall_inv_tail in SP. rename SP into SP'.
  assert (forall n, In n (parts f) -> In (codes n) (page_way tag f)) as IN.
  { intros n I. unfold page_way. apply in_map. apply in_or_app. now right. }
  assert (forall n c, In n (parts f) -> In c n -> In (code c) X) as IX.
  { intros n c I C. apply (in_zjoin (codes n)); [right; now apply IN|]. now apply in_map. }
  rewrite Forall_forall in ND, NE, SP', NT.
  split.
  - apply Forall_forall. intros n I. split.
    + intros c C. assert (In (code c) X) as CX by exact (IX n c I C). split.
      * intros H. vm_compute in H. destruct H as [<-|[<-|[<-|[]]]]; [now apply NH|now apply Q|].
        specialize (SP' _ (IN n I) (code "\"%char) (in_map _ _ _ C)). vm_compute in SP'. discriminate SP'.
      * apply NT. rewrite <- CE, K. apply in_or_app. right. apply in_or_app. now left.
    + intros x y Y. exact (NE _ (IN n I) x y Y).
    + intros ->. destruct (ND _ (IN _ I)) as [_ D]. apply D. apply un_char; [reflexivity|]. apply un_char; [reflexivity|]. constructor.
  - intros -> l n c Y.
    apply (LC (codes $"https://" ++ zjoin ((elixir :: map codes ([$"linux"; tag; $"source"] ++ l)) ++ [codes n]))).
    rewrite <- CE, K. unfold X, page_way. rewrite Y. cbn [anchor codes map]. rewrite app_nil_r, app_assoc, (map_app codes _ [n ++ [c]]).
    rewrite <- app_assoc. f_equal. cbn [map]. rewrite codes_app. apply (zjoin_snoc (elixir :: map codes ([$"linux"; tag; $"source"] ++ l))).
Qed.

Lemma str_of_int_chars z c : In c (str_of_int z) -> 45 <= code c <= 57.
Proof.
  assert (forall w, In c (digits 10 w) -> 45 <= code c <= 57) as D.
  { intros w I. pose proof (digits_dec w) as F. rewrite Forall_forall in F. specialize (F c I). unfold is_dec, in_range in F. lia. }
  unfold str_of_int. destruct (z <? 0); [|apply D]. cbn [app]. intros [<-|I]; [vm_compute; split; discriminate|now apply (D (- z))].
Qed.
Lemma anchor_chars line c : In c (codes (anchor line)) -> 33 <= c.
Proof.
  destruct line as [l|]; [|intros []]. cbn [anchor]. rewrite codes_app. intros I. apply in_app_or in I. destruct I as [I|I].
  - vm_compute in I. destruct I as [<-|[<-|[]]]; lia.
  - unfold codes in I. apply in_map_iff in I. destruct I as (x & <- & I). apply str_of_int_chars in I. lia.
Qed.
Lemma high_chars c : 33 <= c -> tab_or_newline c = false /\ control_or_space c = false.
Proof. intros H. unfold tab_or_newline, control_or_space. cbn [existsb]. split; lia. Qed.

(** Parts that stand for themselves *)
Definition itself (n : str) : Prop := good_part n /\ linkable n.
Lemma codes_inj a b : codes a = codes b -> a = b.
Proof. revert b. induction a as [|x a IH]; intros [|y b]; try discriminate; [reflexivity|]. intros E. injection E as X E. apply code_inj in X. rewrite X, (IH b E). reflexivity. Qed.
Lemma itself_dots n : itself n -> ~ one_dot (codes n) /\ ~ two_dots (codes n).
Proof.
  intros [(NE & ND & NS) L]. assert (unescaped (codes n) (codes n)) as U by (apply unescaped_same; exact (lk_percent n L)).
  split; intros D; apply (unescaped_fun _ _ U) in D; symmetry in D; [apply ND|apply (lk_up n L)]; apply codes_inj; exact D.
Qed.
Lemma itself_chars n c : itself n -> In c (codes n) -> c <> 35 /\ c <> 63 /\ slash c = false /\ tab_or_newline c = false.
Proof.
  intros [(NE & ND & NS) L] I. unfold codes in I. apply in_map_iff in I. destruct I as (x & <- & I).
  destruct (lk_chars n L x I) as [S T].
  assert (forall d, code x = code d -> ~ In d $"#?\" /\ d <> "/"%char) as H.
  { intros d E. apply code_inj in E. subst d. split; [exact S|]. intros ->. now apply NS. }
  split; [|split; [|split; [|exact T]]].
  - intros E. apply (proj1 (H "#"%char E)). vm_compute. tauto.
  - intros E. apply (proj1 (H "?"%char E)). vm_compute. tauto.
  - unfold slash. apply orb_false_iff. split; apply Z.eqb_neq; intros E.
    + now apply (proj2 (H "/"%char E)).
    + apply (proj1 (H "\"%char E)). vm_compute. tauto.
Qed.
Lemma simple_itself n : n <> [] -> forallb is_word n = true -> itself n.
Proof.
  intros N W. rewrite forallb_forall in W.
  assert (forall c, ~ is_word c = true -> ~ In c n) as O by (intros c C I; apply C; now apply W).
  split; [split; [exact N|split]|].
  - intros ->. discriminate (W "."%char (or_introl eq_refl)).
  - apply O. discriminate.
  - split.
    + intros c I. specialize (W c I). split; [|destruct c as [[] [] [] [] [] [] [] []]; vm_compute in W |- *; congruence].
      intros H. vm_compute in H. destruct H as [<-|[<-|[<-|[]]]]; discriminate W.
    + intros x y E. destruct y as [|p [|a [|b y]]]; try reflexivity. cbn [escape]. destruct (Z.eqb_spec p 37) as [->|]; [|reflexivity].
      exfalso. assert (In 37 (codes n)) as I by (rewrite E; apply in_or_app; right; now left). unfold codes in I. apply in_map_iff in I. destruct I as (c & C & I).
      apply (O "%"%char); [discriminate|]. now rewrite <- (code_inj c "%"%char C).
    + intros ->. discriminate (W "."%char (or_introl eq_refl)).
Qed.

Lemma leads_there link tag f line : root f = [] -> parts f <> [] -> Forall good_part (parts f) -> itself tag -> link = source_link tag f (anchor line) ->
  linkable_file f line -> leads_home link tag f line.
Proof.
  intros R P G T K [L E]. rewrite (link_shape tag f line R P) in K. set (X := zjoin (elixir :: page_way tag f)) in *.
  assert (Forall (fun x => exists n, x = codes n /\ itself n) (page_way tag f)) as W.
  { unfold page_way. rewrite Forall_forall. intros x I. apply in_map_iff in I. destruct I as (n & <- & I). exists n. split; [reflexivity|].
    cbn [app] in I. destruct I as [<-|[<-|[<-|I]]].
    - apply simple_itself; [discriminate|reflexivity].
    - exact T.
    - apply simple_itself; [discriminate|reflexivity].
    - rewrite Forall_forall in G, L. split; [now apply G|now apply L]. }
  assert (forall c, In c elixir -> c <> 35 /\ c <> 63 /\ slash c = false /\ tab_or_newline c = false) as EC.
  { intros c I. vm_compute in I. repeat (destruct I as [<-|I]; [split; [discriminate|split; [discriminate|split; reflexivity]]|]). destruct I. }
  rewrite Forall_forall in W.
  assert (forall c, In c X -> c <> 35 /\ c <> 63 /\ tab_or_newline c = false) as XC.
  { intros c I. apply zjoin_in in I. destruct I as [->|(x & [<-|I] & C)].
    - split; [discriminate|split; [discriminate|reflexivity]].
    - destruct (EC c C) as (A & B & _ & D). auto.
    - destruct (W x I) as (n & -> & N). destruct (itself_chars n c N C) as (A & B & _ & D). auto. }
  apply (leads_to _ _ _ _ _ (X ++ codes (anchor line)) X X (page_way tag f) (page_way tag f)).
  - rewrite K. unfold cleaned. rewrite trimmed_is.
    + apply filter_is. rewrite Forall_forall. intros c I. apply negb_true_iff. apply in_app_or in I. destruct I as [I|I].
      * vm_compute in I. repeat (destruct I as [<-|I]; [reflexivity|]). destruct I.
      * apply in_app_or in I. destruct I as [I|I]; [now apply XC|]. apply high_chars. exact (anchor_chars line c I).
    + intros c r H. injection H as <- _. reflexivity.
    + intros r c H. destruct line as [l|].
      * destruct (exists_last (l := codes (anchor (Some l))) ltac:(discriminate)) as (a & d & A).
        assert (In d (codes (anchor (Some l)))) as I by (rewrite A; apply in_or_app; right; now left).
        rewrite A, !app_assoc in H. apply app_inj_tail in H. destruct H as [_ <-]. apply high_chars. exact (anchor_chars _ d I).
      * destruct (exists_last P) as (l & n' & EP).
        assert (n' <> []) as NN. { rewrite Forall_forall in G. apply (G n'). rewrite EP. apply in_or_app. right. now left. }
        destruct (exists_last NN) as (n & c' & EN). subst n'. specialize (E eq_refl l n c' EP).
        assert (X = zjoin ((elixir :: map codes ([$"linux"; tag; $"source"] ++ l)) ++ [codes n]) ++ [code c']) as EX.
        { unfold X, page_way. rewrite EP, app_assoc, (map_app codes _ [n ++ [c']]). cbn [map]. rewrite codes_app.
          apply (zjoin_snoc (elixir :: map codes ([$"linux"; tag; $"source"] ++ l))). }
        cbn [anchor codes map] in H. rewrite app_nil_r, EX, app_assoc in H. apply app_inj_tail in H. destruct H as [_ <-]. exact E.
  - destruct line as [l|]; cbn [anchor line_place option_map].
    + rewrite codes_app. change (codes $"#L" ++ codes (str_of_int l)) with (35 :: codes $"L" ++ codes (str_of_int l)). rewrite codes_app.
      apply cut_first. intros I. now destruct (XC _ I).
    + cbn [codes map]. rewrite app_nil_r. apply cut_none. intros I. now destruct (XC _ I).
  - apply cut_none. intros I. now destruct (XC _ I) as (_ & ? & _).
  - apply segments_zjoin; [discriminate|]. rewrite Forall_forall. intros x [<-|I] c C; [now apply EC|].
    destruct (W x I) as (n & -> & N). now apply (itself_chars n c N C).
  - apply (walked_same (page_way tag f)) with (done := []). rewrite Forall_forall. intros x I. destruct (W x I) as (n & -> & N). now apply itself_dots.
  - clear - W. induction (page_way tag f) as [|x l IH]; [constructor|]. constructor.
    + destruct (W x (or_introl eq_refl)) as (n & -> & N). apply unescaped_same. exact (lk_percent n (proj2 N)).
    + apply IH. intros y I. apply W. now right.
Qed.

Lemma tag_itself v tag : Forall (fun z => 0 <= z) v -> M_Kernel.version_tag v = Ok tag -> itself tag.
Proof.
  intros N H. assert (exists d, tag = "v"%char :: d /\ forall c, In c d -> code c = 46 \/ 48 <= code c <= 57) as (d & -> & D).
  { destruct v as [|a [|b [|c [|]]]]; try discriminate H. cbn [M_Kernel.version_tag] in H. 
    assert (forall z, 0 <= z -> forall x, In x (str_of_int z) -> 48 <= code x <= 57) as DZ.
    { intros z Z0 x I. unfold str_of_int in I. destruct (Z.ltb_spec z 0); [lia|]. pose proof (digits_dec z) as F. rewrite Forall_forall in F. specialize (F x I). unfold is_dec, in_range in F. lia. }
    inversion N as [|? ? A N1]. inversion N1 as [|? ? B N2]. inversion N2 as [|? ? C _]. subst.
    destruct (c =? 0); injection H as <-; (eexists; split; [reflexivity|]); cbn [app];
    intros x I; repeat (apply in_app_or in I; destruct I as [I|I]; [right; eauto|]; try (destruct I as [<-|I]; [now left|])); eauto. }
  clear H N v. assert (forall c, In c ("v"%char :: d) -> code c = 118 \/ code c = 46 \/ 48 <= code c <= 57) as A.
  { intros c [<-|I]; [now left|]. right. now apply D. }
  split; [split; [discriminate|split]|split].
  - discriminate.
  - intros I. apply A in I. change (code "/"%char) with 47 in I. lia.
  - intros c I. apply A in I. split.
    + intros H. vm_compute in H. destruct H as [<-|[<-|[<-|[]]]]; vm_compute in I; intuition (try discriminate; lia).
    + apply high_chars. lia.
  - intros x y E. destruct y as [|p [|a [|b y]]]; try reflexivity. cbn [escape]. destruct (Z.eqb_spec p 37) as [->|]; [|reflexivity].
    exfalso. assert (In 37 (codes ("v"%char :: d))) as I by (rewrite E; apply in_or_app; right; now left). unfold codes in I. apply in_map_iff in I. destruct I as (c & C & I).
    apply A in I. lia.
  - discriminate.
Qed.

(** A link leads to one place. *)
Lemma walked_fun done l r : walked done l r -> forall r', walked done l r' -> r' = r.
Proof.
  assert (forall s, one_dot s -> two_dots s -> False) as X by (intros s A B; pose proof (unescaped_fun _ _ A _ B) as E; discriminate E).
  induction 1 as [done|done s r l D W IH|done s r l D W IH|done s r l D D' W IH]; intros r' W'; inversion W'; subst; eauto; try reflexivity; exfalso; eauto.
Qed.
Lemma leads_one link h w q p h' w' q' p' : leads link h w q p -> leads link h' w' q' p' -> h' = h /\ w' = w /\ q' = q /\ p' = p.
Proof.
  intros [rest before main segs names CL CU CQ SE WA UN] [rest' before' main' segs' names' CL' CU' CQ' SE' WA' UN'].
  rewrite CL in CL'. apply app_inv_head in CL'. subst rest'. rewrite CU in CU'. injection CU' as <- <-. rewrite CQ in CQ'. injection CQ' as <- <-.
  rewrite SE in SE'. injection SE' as <- <-. apply (walked_fun _ _ _ WA) in WA'. subst names'. split; [reflexivity|]. split; [|split; reflexivity].
  clear - UN UN'. revert w' UN'. induction UN as [|s t l r U _ IH]; intros w' UN'; inversion UN' as [|? t' ? r' U' R']; [reflexivity|]. subst.
  f_equal; [now apply (unescaped_fun s t U)|now apply IH].
Qed.

(** Ordinary names *)
Lemma ordinary_linkable n : n <> $".." -> (forall c, In c n -> is_word c = true \/ In c $".-+,=@~ ") -> linkable n.
Proof.
  intros U W. assert (forall c, is_word c = false -> ~ In c $".-+,=@~ " -> ~ In c n) as O by (intros c A B I; destruct (W c I); [congruence|contradiction]).
  split; [|  |exact U].
  - intros c I. split; [|destruct (W c I) as [V|V]].
    + intros H. vm_compute in H. destruct H as [<-|[<-|[<-|[]]]]; (revert I; apply O; [reflexivity|]; intros J; vm_compute in J; intuition discriminate).
    + destruct c as [[] [] [] [] [] [] [] []]; vm_compute in V |- *; congruence.
    + vm_compute in V. repeat (destruct V as [<-|V]; [reflexivity|]). destruct V.
  - intros x y E. destruct y as [|p [|a [|b y]]]; try reflexivity. cbn [escape]. destruct (Z.eqb_spec p 37) as [->|]; [|reflexivity].
    exfalso. assert (In 37 (codes n)) as I by (rewrite E; apply in_or_app; right; now left). unfold codes in I. apply in_map_iff in I. destruct I as (c & C & I).
    apply (O "%"%char); [reflexivity|intros J; vm_compute in J; intuition discriminate|]. now rewrite <- (code_inj c "%"%char C).
Qed.
