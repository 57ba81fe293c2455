(** Specification for C97: where a function stands in the sources and what is declared there,
    stated without the functions of the model (only its record types). *)
From Coq Require Import List Bool Ascii String ZArith.
From Verif Require Import PyBase M_Utils M_Elf M_Syscall M_Arch S_Elf S_Build S_Signature S_Location.
Import ListNotations.
Open Scope Z_scope.
Open Scope list_scope.

(** The address [v] is, according to the debug information, in the definition of the syscall that
    starts on the line [l] of [f]. *)
Definition stands_at (file : path -> option str) (ans : Z -> answer) (elfdir kdir : path) (rdir : option path)
    (a : arch) (s : syscall) (v : Z) (f : path) (l : Z) : Prop :=
  exists n content ls text, place_of elfdir kdir rdir (ans v) f n /\ file f = Some content /\ lines_of content ls /\
    adjusted ls n l /\ nth_error ls (Z.to_nat (l - 1)) = Some text /\
    (accepts a (sc_origname s) text \/ accepts a (sc_name s) text).

(** The parameters declared by the definition that starts on the line [l]: of the macros, or a C
    function. *)
Inductive declares (content : str) (l : Z) (big : bool) : list str -> Prop :=
| declares_macro m name ps text before ls rest :
    define_text m name ps text -> total ps <= 6 -> Forall item_ok (flat_map param_items ps) ->
    broken text ls -> Forall one_line (before ++ ls) -> plain_text rest ->
    content = unlines (before ++ ls) ++ rest -> l = len before + 1 ->
    declares content l big (flat_map (declared big) ps)
| declares_function head ps text before ls rest :
    asmlinkage_text head ps text -> Forall tidy ps -> Forall no_parens ps -> ps <> [$"void"] -> len ps <= 7 ->
    broken text ls -> Forall one_line (before ++ ls) -> plain_text rest ->
    content = unlines (before ++ ls) ++ rest -> l = len before + 1 ->
    declares content l big ps.
