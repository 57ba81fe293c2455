(** Lemmas for C95 *)
From Coq Require Import List Bool Ascii String ZArith Lia.
From Verif Require Import PyBase PyFacts M_Log S_Log M_LogTable.
Import ListNotations.
Open Scope Z_scope.
Open Scope list_scope.

(** Reads a message into its parts; only messages without %% *)
Fixpoint parse (s : str) : option (list part) :=
  let put (p : part) (r : option (list part)) := match r with Some l => Some (p :: l) | None => None end in
  match s with
  | [] => Some []
  | "%"%char :: "s"%char :: s => put (Place Text) (parse s)
  | "%"%char :: "r"%char :: s => put (Place Repr) (parse s)
  | "%"%char :: "d"%char :: s => put (Place Decimal) (parse s)
  | "%"%char :: "x"%char :: s => put (Place Hexadecimal) (parse s)
  | "%"%char :: "#"%char :: "x"%char :: s => put (Place Prefixed) (parse s)
  | "%"%char :: _ => None
  | c :: s => put (Char c) (parse s)
  end.
Definition accepts (h : hole) (k : kind) : bool :=
  match h, k with
  | Text, _ => true
  | Repr, KObj => true
  | (Decimal | Hexadecimal | Prefixed), KInt => true
  | _, _ => false
  end.
Fixpoint fits (l : list part) (ks : list kind) : bool :=
  match l, ks with
  | [], [] => true
  | Char c :: l, _ => negb (Ascii.eqb c "%") && fits l ks
  | Place h :: l, k :: ks => accepts h k && fits l ks
  | _, _ => false
  end.
Definition fine (c : call) : bool :=
  match parse (c_message c) with
  | Some l => str_eqb (written l) (c_message c) && fits l (c_kinds c)
  | None => false
  end.

Lemma number_base base pre z : base = 10 \/ base = 16 ->
  number_in base pre z (if z <? 0 then "-"%char :: pre ++ digits base (- z) else pre ++ digits base z).
Proof.
  intros Hb. assert (D : forall y, Forall (fun c => if base =? 10 then is_dec c = true else is_hex c = true) (digits base y)).
  { intros y. destruct Hb; subst base; [apply digits_dec|apply digits_hex]. }
  destruct (z <? 0) eqn:E; [apply Z.ltb_lt in E|apply Z.ltb_ge in E].
  - exists (digits base (- z)). split; [apply digits_ne|]. split; [apply D|].
    right. split; [assumption|]. split; [reflexivity|]. apply int_of_digits_digits; lia.
  - exists (digits base z). split; [apply digits_ne|]. split; [apply D|].
    left. split; [assumption|]. split; [reflexivity|]. apply int_of_digits_digits; lia.
Qed.
Lemma number_dec z : number_in 10 [] z (str_of_int z).
Proof. exact (number_base 10 [] z (or_introl eq_refl)). Qed.
Lemma number_hex z : number_in 16 [] z (hex_digits z).
Proof. exact (number_base 16 [] z (or_intror eq_refl)). Qed.
Lemma number_0x z : number_in 16 $"0x" z (hex z).
Proof. exact (number_base 16 $"0x" z (or_intror eq_refl)). Qed.

Lemma format_char c s args : c <> "%"%char -> format (c :: s) args = (r <- format s args ;; Ok (c :: r)).
Proof.
  intros H. destruct c as [[] [] [] [] [] [] [] []]; try reflexivity. now contradiction H.
Qed.

Lemma format_place h k v s args : accepts h k = true -> of_kind k v -> exists t, shown h v t /\
  format (written_part (Place h) ++ s) (v :: args) = (r <- format s args ;; Ok (t ++ r)).
Proof.
  intros A K. destruct h; destruct K; try discriminate; cbn [written_part app].
  all: try (eexists; split; [constructor|reflexivity]; fail).
  - exists (str_of_int z). split; [constructor; apply number_dec|reflexivity].
  - exists (str_of_int z). split; [constructor; apply number_dec|reflexivity].
  - exists (str_of_int z). split; [constructor; apply number_dec|reflexivity].
  - exists (hex_digits z). split; [constructor; apply number_hex|reflexivity].
  - exists (hex z). split; [constructor; apply number_0x|reflexivity].
Qed.

Lemma format_fits l : forall ks args, fits l ks = true -> Forall2 of_kind ks args ->
  exists t, filled l args t /\ format (written l) args = Ok t.
Proof.
  induction l as [|[c|h] l IH]; intros ks args F K.
  - destruct ks; [|discriminate]. inversion K; subst. exists []. split; [constructor|reflexivity].
  - cbn [fits] in F. apply andb_prop in F as [C F].
    destruct (IH _ _ F K) as (t & T & E). exists (c :: t). split; [now constructor|].
    change (written (Char c :: l)) with (c :: written l). rewrite format_char, E; [reflexivity|].
    intros ->. discriminate.
  - destruct ks as [|k ks]; [discriminate|]. cbn [fits] in F. apply andb_prop in F as [A F].
    inversion K as [|? v ? args' Kv Ks]; subst. destruct (IH _ _ F Ks) as (t & T & E).
    destruct (format_place h k v (written l) args' A Kv) as (x & X & P).
    exists (x ++ t). split; [now constructor|].
    change (written (Place h :: l)) with (written_part (Place h) ++ written l). rewrite P, E. reflexivity.
Qed.

Lemma fits_plain l ks : fits l ks = true -> Forall plain_part l.
Proof.
  revert ks. induction l as [|[c|h] l IH]; intros ks F; constructor.
  - cbn in F. apply andb_prop in F as [C _]. intros E. cbn in E. subst. discriminate.
  - cbn in F. apply andb_prop in F as [_ F]. eauto.
  - exact I.
  - destruct ks; [discriminate|]. cbn in F. apply andb_prop in F as [_ F]. eauto.
Qed.

Lemma filled_nil l t : filled l [] t -> t = written l.
Proof.
  remember [] as vs eqn:V. intros F. induction F; try discriminate.
  - reflexivity.
  - now rewrite IHF.
Qed.

Lemma fine_ok c args : fine c = true -> Forall2 of_kind (c_kinds c) args ->
  exists l t, c_message c = written l /\ Forall plain_part l /\ filled l args t /\
    message_text (c_message c) args = Ok t.
Proof.
  unfold fine. destruct (parse (c_message c)) as [l|]; [|discriminate]. intros H K.
  apply andb_prop in H as [W F]. apply str_eqb_eq in W.
  destruct (format_fits l _ _ F K) as (t & T & E). exists l, t. rewrite <- W.
  repeat split; auto.
  - eapply fits_plain; eauto.
  - destruct args; [|exact E]. cbn. now rewrite (filled_nil _ _ T).
Qed.

Definition at_line (f : str) (n : Z) (c : call) : bool := str_eqb (c_file c) f && (c_line c =? n).
Lemma all_fine : forallb (fun c => at_line $"kernel.py" 206 c || at_line $"kernel.py" 547 c || fine c) calls = true.
Proof. vm_compute. reflexivity. Qed.

Lemma calls_fine c : In c calls -> ~ (c_file c = $"kernel.py" /\ (c_line c = 206 \/ c_line c = 547)) -> fine c = true.
Proof.
  intros I N. pose proof (proj1 (forallb_forall _ _) all_fine c I) as H. cbv beta in H.
  apply orb_prop in H as [H|H]; [|exact H]. exfalso. apply N.
  unfold at_line in H. apply orb_prop in H as [H|H]; apply andb_prop in H as [A B];
    apply str_eqb_eq in A; apply Z.eqb_eq in B; auto.
Qed.

Lemma messages c args : In c calls ->
  ~ (c_file c = $"kernel.py" /\ (c_line c = 206 \/ c_line c = 547)) ->
  Forall2 of_kind (c_kinds c) args ->
  exists l t, c_message c = written l /\ Forall plain_part l /\ filled l args t /\
    message_text (c_message c) args = Ok t.
Proof. intros I N. apply fine_ok. now apply calls_fine. Qed.

Lemma find_call f n c : find (at_line f n) calls = Some c -> forall d, In d calls -> c_file d = f -> c_line d = n ->
  forallb (fun d => negb (at_line f n d) || (str_eqb (c_message d) (c_message c) &&
    (if list_eq_dec (fun a b : kind => ltac:(decide equality)) (c_kinds d) (c_kinds c) then true else false))) calls = true ->
  c_message d = c_message c /\ c_kinds d = c_kinds c.
Proof.
  intros _ d I F N A. pose proof (proj1 (forallb_forall _ _) A d I) as H. cbv beta in H.
  unfold at_line in H. rewrite F, N, str_eqb_refl, Z.eqb_refl in H. cbn [andb negb orb] in H.
  apply andb_prop in H as [X Y]. apply str_eqb_eq in X.
  destruct (list_eq_dec _ (c_kinds d) (c_kinds c)); [auto|discriminate].
Qed.

Lemma call_206 c : In c calls -> c_file c = $"kernel.py" -> c_line c = 206 ->
  c_message c = $"Virtual address 0x%x idx %d is outside %s: something is off!" /\ c_kinds c = [KInt; KObj; KInt; KObj].
Proof.
  intros I F N. destruct (find (at_line $"kernel.py" 206) calls) as [d|] eqn:E; [|vm_compute in E; discriminate].
  assert (X := E). vm_compute in X. injection X as <-.
  apply (find_call _ _ _ E c I F N). vm_compute. reflexivity.
Qed.
Lemma call_547 c : In c calls -> c_file c = $"kernel.py" -> c_line c = 547 ->
  c_message c = $"Assuming %s is not implemented as it points to %s:%d after adjustments" /\ c_kinds c = [KObj; KObj; KOptInt].
Proof.
  intros I F N. destruct (find (at_line $"kernel.py" 547) calls) as [d|] eqn:E; [|vm_compute in E; discriminate].
  assert (X := E). vm_compute in X. injection X as <-.
  apply (find_call _ _ _ E c I F N). vm_compute. reflexivity.
Qed.

Lemma message_206 args : Forall2 of_kind [KInt; KObj; KInt; KObj] args ->
  message_text $"Virtual address 0x%x idx %d is outside %s: something is off!" args = Raise TypeError.
Proof.
  intros K. repeat match goal with H : Forall2 _ _ _ |- _ => inversion H; subst; clear H end.
  repeat match goal with H : of_kind _ _ |- _ => inversion H; subst; clear H end.
  cbv [message_text format bind as_int py_str list_ascii_of_string]. reflexivity.
Qed.
Lemma message_547_none n f : of_kind KObj n -> of_kind KObj f ->
  message_text $"Assuming %s is not implemented as it points to %s:%d after adjustments" [n; f; VNone] = Raise TypeError.
Proof.
  intros N F. inversion N; inversion F; subst.
  cbv [message_text format bind as_int py_str list_ascii_of_string]. reflexivity.
Qed.
Lemma message_547_some n f z : of_kind KObj n -> of_kind KObj f ->
  exists l t, $"Assuming %s is not implemented as it points to %s:%d after adjustments" = written l /\
    Forall plain_part l /\ filled l [n; f; VInt z] t /\
    message_text $"Assuming %s is not implemented as it points to %s:%d after adjustments" [n; f; VInt z] = Ok t.
Proof.
  intros N F. apply (fine_ok (Call $"kernel.py" 547 Warning
    $"Assuming %s is not implemented as it points to %s:%d after adjustments" [KObj; KObj; KInt])).
  - vm_compute. reflexivity.
  - cbn. repeat (constructor; [assumption || constructor|]). constructor.
Qed.
Lemma has_206 : exists c, In c calls /\ c_file c = $"kernel.py" /\ c_line c = 206.
Proof.
  destruct (find (at_line $"kernel.py" 206) calls) as [d|] eqn:E; [|vm_compute in E; discriminate].
  exists d. apply find_some in E as [I A]. split; [exact I|]. unfold at_line in A.
  apply andb_prop in A as [A B]. apply str_eqb_eq in A. apply Z.eqb_eq in B. auto.
Qed.

Lemma table_message : exists c, In c calls /\ c_file c = $"kernel.py" /\ c_line c = 206 /\
  forall args, Forall2 of_kind (c_kinds c) args -> message_text (c_message c) args = Raise TypeError.
Proof.
  destruct has_206 as (c & I & F & N). exists c. repeat split; auto.
  destruct (call_206 c I F N) as [-> ->]. apply message_206.
Qed.

Lemma dropped_message c args : In c calls -> c_file c = $"kernel.py" -> c_line c = 547 ->
  Forall2 of_kind (c_kinds c) args ->
  (exists n f, args = [n; f; VNone] /\ message_text (c_message c) args = Raise TypeError) \/
  (exists n f z l t, args = [n; f; VInt z] /\ c_message c = written l /\ Forall plain_part l /\ filled l args t /\
     message_text (c_message c) args = Ok t).
Proof.
  intros I F N. destruct (call_547 c I F N) as [-> ->]. intros K.
  inversion K as [|? n ? ? Kn K2]; subst; clear K. inversion K2 as [|? f ? ? Kf K3]; subst; clear K2.
  inversion K3 as [|? l ? ? Kl K4]; subst; clear K3. inversion K4; subst; clear K4.
  inversion Kl; subst.
  - left. exists n, f. split; [reflexivity|]. now apply message_547_none.
  - right. destruct (message_547_some n f z Kn Kf) as (l & t & A & B & C & D). exists n, f, z, l, t. auto.
Qed.
