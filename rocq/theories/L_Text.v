(** Lemmas on UTF-8 and on reading text. *)
From Coq Require Import List Bool Ascii String ZArith Lia Arith.
From Verif Require Import PyBase PyFacts M_Text S_Text.
Import ListNotations.
Open Scope Z_scope.
Open Scope list_scope.

(** ** UTF-8 *)

Lemma encode_cases z : scalar z ->
  (0 <= z < 128 /\ encode z = [z]) \/
  (128 <= z < 2048 /\ exists a b, encode z = [192 + a; 128 + b] /\ z = a * 64 + b /\ 2 <= a < 32 /\ 0 <= b < 64) \/
  (2048 <= z < 65536 /\ exists a b c, encode z = [224 + a; 128 + b; 128 + c] /\ z = a * 4096 + b * 64 + c /\ 0 <= a < 16 /\ 0 <= b < 64 /\ 0 <= c < 64) \/
  (65536 <= z <= 1114111 /\ exists a b c d, encode z = [240 + a; 128 + b; 128 + c; 128 + d] /\
     z = a * 262144 + b * 4096 + c * 64 + d /\ 0 <= a < 5 /\ 0 <= b < 64 /\ 0 <= c < 64 /\ 0 <= d < 64).
Proof.
  intros S. unfold scalar in S. unfold encode.
  destruct (z <? 128) eqn:E1; [left; split; [lia|reflexivity]|].
  destruct (z <? 2048) eqn:E2.
  { right; left. split; [lia|]. exists (z / 64), (z mod 64). split; [reflexivity|]. Z.to_euclidean_division_equations. lia. }
  destruct (z <? 65536) eqn:E3.
  { right; right; left. split; [lia|]. exists (z / 4096), (z / 64 mod 64), (z mod 64). split; [reflexivity|]. Z.to_euclidean_division_equations. lia. }
  right; right; right. split; [lia|]. exists (z / 262144), (z / 4096 mod 64), (z / 64 mod 64), (z mod 64). split; [reflexivity|].
  Z.to_euclidean_division_equations. lia.
Qed.

Lemma cons_inj {A} (x y : A) l m : x :: l = y :: m -> x = y /\ l = m.
Proof. intros E. injection E. auto. Qed.
Ltac uncons E := repeat (apply cons_inj in E; let X := fresh "X" in destruct E as (X & E)).

Lemma encode_head z z' r r' : scalar z -> scalar z' -> encode z ++ r = encode z' ++ r' -> z = z' /\ r = r'.
Proof.
  intros S S'. unfold scalar in S, S'.
  destruct (encode_cases z S) as [(H & ->)|[(H & a & b & -> & V & R)|[(H & a & b & c & -> & V & R)|(H & a & b & c & d & -> & V & R)]]];
  destruct (encode_cases z' S') as [(H' & ->)|[(H' & a' & b' & -> & V' & R')|[(H' & a' & b' & c' & -> & V' & R')|(H' & a' & b' & c' & d' & -> & V' & R')]]];
  cbn [app]; intros E; uncons E; (split; [lia|assumption]) || (exfalso; lia).
Qed.

Fixpoint salvage (st : option partial) (b : bytes) : text * bool :=
  match b with
  | [] => ([], match st with None => true | Some _ => false end)
  | c :: b' =>
      match utf8_byte st c with
      | Ok (st', t) => let (u, ok) := salvage st' b' in (t ++ u, ok)
      | _ => ([], false)
      end
  end.

(** The first character, if there is one *)
Definition starts (b : bytes) : Prop := exists z p q, b = p ++ q /\ scalar z /\ map code p = encode z /\
  salvage None b = (z :: fst (salvage None q), snd (salvage None q)).
Definition startless (b : bytes) : Prop := (forall z r, scalar z -> map code b <> encode z ++ r) /\ salvage None b = ([], false).

Lemma in_range_iff lo hi z : in_range lo hi z = true <-> lo <= z <= hi.
Proof. unfold in_range. lia. Qed.

(** Kinds of first bytes *)
Lemma lead_cases z : 0 <= z < 256 -> 128 <= z ->
  match lead z with
  | None => (z < 194 \/ 244 < z)
  | Some p =>
      (p = Partial 1 128 191 (z - 192) /\ 194 <= z <= 223) \/
      (exists lo hi, p = Partial 2 lo hi (z - 224) /\ 224 <= z <= 239 /\
         (z = 224 /\ lo = 160 /\ hi = 191 \/ z = 237 /\ lo = 128 /\ hi = 159 \/ z <> 224 /\ z <> 237 /\ lo = 128 /\ hi = 191)) \/
      (exists lo hi, p = Partial 3 lo hi (z - 240) /\ 240 <= z <= 244 /\
         (z = 240 /\ lo = 144 /\ hi = 191 \/ z = 244 /\ lo = 128 /\ hi = 143 \/ z <> 240 /\ z <> 244 /\ lo = 128 /\ hi = 191))
  end.
Proof.
  intros R L. unfold lead, in_range.
  destruct ((194 <=? z) && (z <=? 223)) eqn:E1; [left; split; [reflexivity|lia]|].
  destruct (z =? 224) eqn:E2; [right; left; exists 160, 191; repeat split; try lia; f_equal; lia|].
  destruct (z =? 237) eqn:E3; [right; left; exists 128, 159; repeat split; try lia; f_equal; lia|].
  destruct ((225 <=? z) && (z <=? 239)) eqn:E4; [right; left; exists 128, 191; repeat split; try lia; f_equal; lia|].
  destruct (z =? 240) eqn:E5; [right; right; exists 144, 191; repeat split; try lia; f_equal; lia|].
  destruct ((241 <=? z) && (z <=? 243)) eqn:E6; [right; right; exists 128, 191; repeat split; try lia; f_equal; lia|].
  destruct (z =? 244) eqn:E7; [right; right; exists 128, 143; repeat split; try lia; f_equal; lia|].
  lia.
Qed.

Lemma encode_2 a b : 2 <= a < 32 -> 0 <= b < 64 -> encode (a * 64 + b) = [192 + a; 128 + b].
Proof.
  intros. unfold encode. replace (a * 64 + b <? 128) with false by lia. replace (a * 64 + b <? 2048) with true by lia.
  repeat f_equal; Z.to_euclidean_division_equations; lia.
Qed.
Lemma encode_3 a b c : 0 <= a < 16 -> 0 <= b < 64 -> 0 <= c < 64 -> 2048 <= a * 4096 + b * 64 + c ->
  encode (a * 4096 + b * 64 + c) = [224 + a; 128 + b; 128 + c].
Proof.
  intros. unfold encode. replace (a * 4096 + b * 64 + c <? 128) with false by lia. replace (a * 4096 + b * 64 + c <? 2048) with false by lia.
  replace (a * 4096 + b * 64 + c <? 65536) with true by lia. repeat f_equal; Z.to_euclidean_division_equations; lia.
Qed.
Lemma encode_4 a b c d : 0 <= a < 8 -> 0 <= b < 64 -> 0 <= c < 64 -> 0 <= d < 64 -> 65536 <= a * 262144 + b * 4096 + c * 64 + d ->
  encode (a * 262144 + b * 4096 + c * 64 + d) = [240 + a; 128 + b; 128 + c; 128 + d].
Proof.
  intros. unfold encode. remember (a * 262144 + b * 4096 + c * 64 + d) as z. replace (z <? 128) with false by lia. replace (z <? 2048) with false by lia.
  replace (z <? 65536) with false by lia. subst z. repeat f_equal; Z.to_euclidean_division_equations; lia.
Qed.

Ltac refuse :=
  let z0 := fresh "z0" in let r0 := fresh "r0" in let S0 := fresh "S0" in let E0 := fresh "E0" in
  intros z0 r0 S0 E0; unfold scalar in S0;
  destruct (encode_cases z0 S0) as [(? & X0)|[(? & ? & ? & X0 & ? & ?)|[(? & ? & ? & ? & X0 & ? & ?)|(? & ? & ? & ? & ? & X0 & ? & ?)]]];
  rewrite X0 in E0; cbn [map app] in E0; uncons E0; (discriminate || lia).

Lemma first_char b : b <> [] -> starts b \/ startless b.
Proof.
  destruct b as [|c1 b]; [contradiction|]. intros _. pose proof (code_range c1) as R1.
  destruct (code c1 <? 128) eqn:A.
  { left. exists (code c1), [c1], b. split; [reflexivity|]. split; [unfold scalar; lia|]. split.
    - cbn [map]. unfold encode. now rewrite A.
    - cbn [salvage]. unfold utf8_byte. rewrite A. now destruct (salvage None b). }
  pose proof (lead_cases (code c1) R1 ltac:(lia)) as L. destruct (lead (code c1)) as [p|] eqn:LE.
  2:{ right. split; [|cbn [salvage]; unfold utf8_byte; now rewrite A, LE]. refuse. }
  assert (forall b', salvage None (c1 :: b') = salvage (Some p) b') as ST.
  { intros b'. cbn [salvage]. unfold utf8_byte. rewrite A, LE. now destruct (salvage (Some p) b'). }
  destruct b as [|c2 b].
  { right. split; [|now rewrite ST]. destruct L as [(-> & L)|[(lo & hi & -> & L & L')|(lo & hi & -> & L & L')]]; refuse. }
  pose proof (code_range c2) as R2.
  destruct (in_range (pt_low p) (pt_high p) (code c2)) eqn:I2.
  2:{ right. split; [|rewrite ST; cbn [salvage]; unfold utf8_byte; now rewrite I2].
      assert (~ (pt_low p <= code c2 <= pt_high p)) as I2' by (unfold in_range in I2; lia). clear I2.
      destruct L as [(-> & L)|[(lo & hi & -> & L & L')|(lo & hi & -> & L & L')]]; cbn [pt_low pt_high] in I2'; refuse. }
  apply in_range_iff in I2. destruct L as [(-> & L)|L].
  { cbn [pt_low pt_high] in I2. left. exists ((code c1 - 192) * 64 + (code c2 - 128)), [c1; c2], b. split; [reflexivity|]. split; [unfold scalar; lia|]. split.
    - rewrite encode_2 by lia. cbn [map]. repeat f_equal; lia.
    - rewrite ST. cbn [salvage]. unfold utf8_byte. cbn [pt_low pt_high pt_bits pt_need].
      replace (in_range 128 191 (code c2)) with true by (symmetry; apply in_range_iff; lia). now destruct (salvage None b). }
  destruct L as [(lo & hi & -> & L & L')|(lo & hi & -> & L & L')]; cbn [pt_low pt_high] in I2.
  - assert (forall b', salvage None (c1 :: c2 :: b') = salvage (Some (Partial 1 128 191 ((code c1 - 224) * 64 + (code c2 - 128)))) b') as ST2.
    { intros b'. rewrite ST. cbn [salvage]. unfold utf8_byte at 1. cbn [pt_low pt_high pt_bits pt_need].
      replace (in_range lo hi (code c2)) with true by (symmetry; apply in_range_iff; lia). now destruct (salvage (Some _) b'). }
    destruct b as [|c3 b]; [right; split; [refuse|now rewrite ST2]|]. pose proof (code_range c3) as R3.
    destruct (in_range 128 191 (code c3)) eqn:I3.
    + apply in_range_iff in I3. left. exists ((code c1 - 224) * 4096 + (code c2 - 128) * 64 + (code c3 - 128)), [c1; c2; c3], b.
      split; [reflexivity|]. split; [unfold scalar; lia|]. split.
      * rewrite encode_3 by lia. cbn [map]. repeat f_equal; lia.
      * rewrite ST2. cbn [salvage]. unfold utf8_byte. cbn [pt_low pt_high pt_bits pt_need].
        replace (in_range 128 191 (code c3)) with true by (symmetry; apply in_range_iff; lia).
        destruct (salvage None b). cbn [fst snd app]. match goal with |- (?x :: _, _) = (?y :: _, _) => replace y with x by lia end. reflexivity.
    + right. split; [|rewrite ST2; cbn [salvage]; unfold utf8_byte; cbn [pt_low pt_high]; now rewrite I3].
      assert (~ (128 <= code c3 <= 191)) as I3' by (unfold in_range in I3; lia). clear I3. refuse.
  - assert (forall b', salvage None (c1 :: c2 :: b') = salvage (Some (Partial 2 128 191 ((code c1 - 240) * 64 + (code c2 - 128)))) b') as ST2.
    { intros b'. rewrite ST. cbn [salvage]. unfold utf8_byte at 1. cbn [pt_low pt_high pt_bits pt_need].
      replace (in_range lo hi (code c2)) with true by (symmetry; apply in_range_iff; lia). now destruct (salvage (Some _) b'). }
    destruct b as [|c3 b]; [right; split; [refuse|now rewrite ST2]|]. pose proof (code_range c3) as R3.
    destruct (in_range 128 191 (code c3)) eqn:I3.
    2:{ right. split; [|rewrite ST2; cbn [salvage]; unfold utf8_byte; cbn [pt_low pt_high]; now rewrite I3].
        assert (~ (128 <= code c3 <= 191)) as I3' by (unfold in_range in I3; lia). clear I3. refuse. }
    assert (forall b', salvage None (c1 :: c2 :: c3 :: b') = salvage (Some (Partial 1 128 191 (((code c1 - 240) * 64 + (code c2 - 128)) * 64 + (code c3 - 128)))) b') as ST3.
    { intros b'. rewrite ST2. cbn [salvage]. unfold utf8_byte at 1. cbn [pt_low pt_high pt_bits pt_need]. rewrite I3. now destruct (salvage (Some _) b'). }
    apply in_range_iff in I3.
    destruct b as [|c4 b]; [right; split; [refuse|now rewrite ST3]|]. pose proof (code_range c4) as R4.
    destruct (in_range 128 191 (code c4)) eqn:I4.
    + apply in_range_iff in I4. left. exists ((code c1 - 240) * 262144 + (code c2 - 128) * 4096 + (code c3 - 128) * 64 + (code c4 - 128)), [c1; c2; c3; c4], b.
      split; [reflexivity|]. split; [unfold scalar; lia|]. split.
      * rewrite encode_4 by lia. cbn [map]. repeat f_equal; lia.
      * rewrite ST3. cbn [salvage]. unfold utf8_byte. cbn [pt_low pt_high pt_bits pt_need].
        replace (in_range 128 191 (code c4)) with true by (symmetry; apply in_range_iff; lia).
        destruct (salvage None b). cbn [fst snd app]. match goal with |- (?x :: _, _) = (?y :: _, _) => replace y with x by lia end. reflexivity.
    + right. split; [|rewrite ST3; cbn [salvage]; unfold utf8_byte; cbn [pt_low pt_high]; now rewrite I4].
      assert (~ (128 <= code c4 <= 191)) as I4' by (unfold in_range in I4; lia). clear I4. refuse.
Qed.

Lemma map_app_inv {A B} (f : A -> B) l x y : map f l = x ++ y -> exists p q, l = p ++ q /\ map f p = x /\ map f q = y.
Proof.
  revert x. induction l as [|c l IH]; intros [|a x] E; cbn in E; try discriminate.
  - now exists [], [].
  - now exists [], (c :: l).
  - apply cons_inj in E as (Ea & E). destruct (IH _ E) as (p & q & -> & P & Q). exists (c :: p), q. cbn. now rewrite Ea, P.
Qed.
Lemma encode_some z : encode z <> [].
Proof. unfold encode. now destruct (z <? 128), (z <? 2048), (z <? 65536). Qed.
Lemma written_nil b : written b [] -> b = [].
Proof. intros (_ & E). cbn in E. now destruct b. Qed.
Lemma written_cons z p q t : scalar z -> map code p = encode z -> written q t -> written (p ++ q) (z :: t).
Proof. intros S P (F & Q). split; [now constructor|]. cbn [map List.concat]. now rewrite map_app, P, Q. Qed.

Lemma salvage_sound b : let (t, ok) := salvage None b in if ok then written b t else breaks b t.
Proof.
  remember (List.length b) as n eqn:N. assert (List.length b <= n)%nat as L by lia. clear N. revert b L. induction n as [|n IH]; intros b L.
  - destruct b; [|cbn in L; lia]. cbn. split; [constructor|reflexivity].
  - destruct b as [|c b]; [cbn; split; [constructor|reflexivity]|].
    destruct (first_char (c :: b) ltac:(discriminate)) as [(z & p & q & E & S & P & ->)|(NS & ->)].
    + rewrite E. assert (List.length q <= n)%nat as LQ.
      { apply (f_equal (@List.length _)) in E. rewrite app_length in E. destruct p; [cbn in P; destruct (encode_some z); now rewrite <- P|]. cbn in E, L. lia. }
      specialize (IH q LQ). destruct (salvage None q) as (t, ok). cbn [fst snd]. destruct ok; [now apply written_cons|].
      destruct IH as (p' & q' & -> & W & Q & NS). exists (p ++ p'), q'. rewrite app_assoc. split; [reflexivity|]. split; [now apply written_cons|]. now split.
    + exists [], (c :: b). split; [reflexivity|]. split; [split; [constructor|reflexivity]|]. split; [discriminate|exact NS].
Qed.
Lemma salvage_written b t : written b t -> salvage None b = (t, true).
Proof.
  revert b. induction t as [|z t IH]; intros b W; [now rewrite (written_nil _ W)|].
  destruct W as (F & E). inversion F as [|? ? S F']; subst. cbn [map List.concat] in E.
  destruct (first_char b) as [(z' & p & q & -> & S' & P & ->)|(NS & _)].
  - intros ->. cbn in E. destruct (encode z) eqn:X; [now apply encode_some in X|discriminate].
  - rewrite map_app, P in E. apply encode_head in E as (-> & E); [|assumption..]. now rewrite (IH q (conj F' E)).
  - exfalso. exact (NS z _ S E).
Qed.
Lemma salvage_breaks b t : breaks b t -> salvage None b = (t, false).
Proof.
  intros (p & q & -> & W & Q & NS). revert p W. induction t as [|z t IH]; intros p W.
  - rewrite (written_nil _ W). cbn [app]. destruct (first_char q Q) as [(z & p' & q' & -> & S & P & _)|(_ & ->)]; [|reflexivity].
    exfalso. apply (NS z (map code q') S). now rewrite map_app, P.
  - destruct W as (F & E). inversion F as [|? ? S F']; subst. cbn [map List.concat] in E.
    destruct (first_char (p ++ q)) as [(z' & p1 & q1 & E1 & S' & P & ->)|(NS' & _)].
    + intros X. apply app_eq_nil in X as (-> & _). cbn in E. destruct (encode z) eqn:X; [now apply encode_some in X|discriminate].
    + pose proof (f_equal (map code) E1) as E2. rewrite !map_app, P, E, <- app_assoc in E2. apply encode_head in E2 as (-> & E2); [|assumption..].
      apply map_app_inv in E as (p2 & p3 & -> & P2 & P3).
      assert (p3 ++ q = q1) as <-.
      { rewrite <- app_assoc in E1. assert (List.length p2 = List.length p1) as LE by (apply (f_equal (@List.length _)) in P, P2; rewrite map_length in P, P2; lia).
        apply (f_equal (skipn (List.length p2))) in E1. rewrite LE in E1 at 2. rewrite !skipn_app, !skipn_all, !Nat.sub_diag in E1. exact E1. }
      now rewrite (IH p3 (conj F' P3)).
    + exfalso. apply (NS' z (List.concat (map encode t) ++ map code q) S). now rewrite map_app, E, app_assoc.
Qed.

Lemma feed_salvage st b c : match utf8_feed st b with
  | Ok (st', t) => salvage st (b ++ c) = (t ++ fst (salvage st' c), snd (salvage st' c))
  | Raise UnicodeDecodeError => snd (salvage st (b ++ c)) = false
  | _ => False
  end.
Proof.
  revert st. induction b as [|x b IH]; intros st; cbn [utf8_feed app].
  - now destruct (salvage st c).
  - assert ((exists st' t, utf8_byte st x = Ok (st', t)) \/ utf8_byte st x = Raise UnicodeDecodeError) as [(st' & t & B)|B].
    { unfold utf8_byte. destruct st as [p|].
      - destruct (in_range _ _ _); [|now right]. left. destruct (pt_need p) as [|[|n]]; eauto.
      - destruct (code x <? 128); [eauto|]. destruct (lead (code x)); eauto. }
    + cbn [salvage]. rewrite B. cbn [bind]. specialize (IH st'). destruct (utf8_feed st' b) as [(st2 & t2)|e| |]; cbn [bind]; try contradiction.
      * rewrite IH. now rewrite app_assoc.
      * destruct e; try contradiction. destruct (salvage st' (b ++ c)). exact IH.
    + cbn [salvage]. rewrite B. reflexivity.
Qed.

Lemma decode_salvage b : decode b = (let (t, ok) := salvage None b in if ok then Ok t else Raise UnicodeDecodeError).
Proof.
  unfold decode. pose proof (feed_salvage None b []) as F. rewrite app_nil_r in F. destruct (utf8_feed None b) as [(st & t)|e| |]; cbn [bind]; try contradiction.
  - rewrite F. cbn. rewrite app_nil_r. now destruct st.
  - destruct e; try contradiction. destruct (salvage None b). cbn in F. now rewrite F.
Qed.
Lemma decode_written b t : decode b = Ok t <-> written b t.
Proof.
  rewrite decode_salvage. pose proof (salvage_sound b) as S. split.
  - destruct (salvage None b) as (u & ok). destruct ok; [|discriminate]. intros E. now replace t with u by congruence.
  - intros W. now rewrite (salvage_written _ _ W).
Qed.
Lemma decode_raises b : not_text b -> decode b = Raise UnicodeDecodeError.
Proof.
  intros N. rewrite decode_salvage. pose proof (salvage_sound b) as S. destruct (salvage None b) as (u & ok). destruct ok; [|reflexivity]. destruct (N _ S).
Qed.
Lemma breaks_not_text b t : breaks b t -> not_text b.
Proof. intros B u W. apply salvage_breaks in B. apply salvage_written in W. congruence. Qed.
Lemma not_text_breaks b : not_text b -> exists t, breaks b t.
Proof. intros N. pose proof (salvage_sound b) as S. destruct (salvage None b) as (u & ok). destruct ok; [destruct (N _ S)|eauto]. Qed.
