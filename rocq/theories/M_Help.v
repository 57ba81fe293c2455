(** Model of the list of architectures: /repo/src/systrack/arch/__init__.py 79-118 (the text is in
    M_HelpText.v) and of the part of __main__.py that shows it. *)
From Coq Require Import List Bool Ascii String ZArith.
From Verif Require Import PyBase M_Arch M_Main M_HelpText.
Import ListNotations.
Open Scope Z_scope.
Open Scope list_scope.

(** arch/__init__.py 79-118 *)
Definition SUPPORTED_ARCHS_HELP : str := List.concat (map (fun l => l ++ [NL]) help_lines).

(** utils.py 134-139: several calls *)
Definition say (silent : bool) (ls : list str) : list str := if silent then [] else ls.

(** __main__.py 165-179: what is said, and the status if the program ends here.
    (M_Main.check_arch is the same without what is said.) *)
Definition arch_messages (silent : bool) (arch : option str) : list str * option Z :=
  match arch with
  | None => ([], None)
  | Some n =>
      let n := lower n in
      if dmem str_eqb n SUPPORTED_ARCHS then ([], None)
      else if negb (str_eqb n $"help" || str_eqb n $"?") then
        (say silent [$"Unsupported architecture/ABI combination: " ++ n; $"See --arch HELP for a list"], Some 1)
      else (say silent [SUPPORTED_ARCHS_HELP], Some 0)
  end.
