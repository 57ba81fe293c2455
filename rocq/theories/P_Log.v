(** C95: every log message can be formatted *)
From Coq Require Import List Bool Ascii String ZArith.
From Verif Require Import PyBase M_Log M_LogTable S_Log L_Log.
Import ListNotations.
Open Scope Z_scope.
Open Scope list_scope.

(** Every call but two has a message that is a sequence of characters and places, as many places as
    arguments; whatever the arguments of those kinds, the text is the message with the arguments shown
    in their places, in order. *)
Theorem C95_messages : forall c args, In c calls ->
  ~ (c_file c = $"kernel.py" /\ (c_line c = 206 \/ c_line c = 547)) ->
  Forall2 of_kind (c_kinds c) args ->
  exists l t, c_message c = written l /\ Forall plain_part l /\ filled l args t /\
    message_text (c_message c) args = Ok t.
Proof. exact messages. Qed.
Print Assumptions C95_messages.

(** The warning about a table entry outside its section has four arguments for three places, and a name
    where a number belongs: it is never shown. *)
Theorem C95_messages_refuted : exists c, In c calls /\ c_file c = $"kernel.py" /\ c_line c = 206 /\
  forall args, Forall2 of_kind (c_kinds c) args -> message_text (c_message c) args = Raise TypeError.
Proof. exact table_message. Qed.
Print Assumptions C95_messages_refuted.

(** The warning about a syscall that is dropped is shown exactly if the line is known. *)
Theorem C95_dropped : forall c args, In c calls -> c_file c = $"kernel.py" -> c_line c = 547 ->
  Forall2 of_kind (c_kinds c) args ->
  (exists n f, args = [n; f; VNone] /\ message_text (c_message c) args = Raise TypeError) \/
  (exists n f z l t, args = [n; f; VInt z] /\ c_message c = written l /\ Forall plain_part l /\ filled l args t /\
     message_text (c_message c) args = Ok t).
Proof. exact dropped_message. Qed.
Print Assumptions C95_dropped.

Example C95_calls : List.length calls = 111%nat.
Proof. vm_compute. reflexivity. Qed.
(** kernel.py 198 *)
Example C95_size :
  exists c, In c calls /\ c_kinds c = [KObj; KInt; KInt] /\
    message_text (c_message c) [VObj $"sys_call_table" $"'sys_call_table'"; VInt 3608; VInt 451] =
      Ok $"Syscall table (sys_call_table) is 3608 bytes, 451 entries".
Proof.
  exists (Call $"kernel.py" 198 Info $"Syscall table (%s) is %d bytes, %d entries" [KObj; KInt; KInt]).
  split; [|split; vm_compute; reflexivity].
  destruct (find (at_line $"kernel.py" 198) calls) as [d|] eqn:E; [|vm_compute in E; discriminate].
  assert (X := E). apply find_some in X as [I _]. vm_compute in E. injection E as <-. exact I.
Qed.
Example C95_formats :
  format $"%#x %x %d %r 100%%" [VInt 255; VInt (-255); VInt (-7); VObj $"a" $"'a'"] = Ok $"0xff -ff -7 'a' 100%" /\
  format $"%d" [VNone] = Raise TypeError /\ format $"%s" [VNone] = Ok $"None" /\
  format $"%s" [] = Raise TypeError /\ format $"x" [VInt 1] = Raise TypeError /\ format $"50%" [] = Raise ValueError.
Proof. vm_compute. repeat split. Qed.
