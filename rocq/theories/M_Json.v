(** Model of how the JSON document is written: json.dump(data, sys.stdout, cls=SyscallJSONEncoder,
    sort_keys=True, indent='\t') in /repo/src/systrack/output.py 97.  The serializer is that of
    Python's standard library, with its default ensure_ascii. *)
From Coq Require Import List Bool Ascii String ZArith.
From Verif Require Import PyBase M_Arch M_Syscall M_Output.
Import ListNotations.
Open Scope Z_scope.
Open Scope list_scope.

(** json/encoder.py: ESCAPE_ASCII, ESCAPE_DCT *)
Definition esc (c : ascii) : str :=
  let n := code c in
  if n =? 34 then bts [92; 34] else if n =? 92 then bts [92; 92]
  else if n =? 8 then $"\b" else if n =? 12 then $"\f" else if n =? 10 then $"\n" else if n =? 13 then $"\r" else if n =? 9 then $"\t"
  else if in_range 32 126 n then [c]
  else $"\u00" ++ [digit_chr (n / 16); digit_chr (n mod 16)].
Definition quote (s : str) : str := bts [34] ++ flat_map esc s ++ bts [34].
(** A new line and the indentation of a level *)
Definition newline (lvl : nat) : str := NL :: repeat (chr 9) lvl.
(** json/encoder.py: _iterencode.  The items of an object are sorted by their keys; here the values
    are encoded before this. *)
Fixpoint dumps (lvl : nat) (j : json) : str :=
  let block (o c : ascii) (l : list str) :=
    match l with
    | [] => [o; c]
    | _ => o :: newline (S lvl) ++ join ($"," ++ newline (S lvl)) l ++ newline lvl ++ [c]
    end in
  match j with
  | JNull => $"null"
  | JBool true => $"true"
  | JBool false => $"false"
  | JInt z => str_of_int z
  | JStr s => quote s
  | JList l => block "["%char "]"%char (map (dumps (S lvl)) l)
  | JObj d => block "{"%char "}"%char (map (fun x => quote (fst x) ++ $": " ++ snd x)
      (sort_by str_leb fst (map (fun x => (fst x, dumps (S lvl) (snd x))) d)))
  end.
(** output.py 75-97: what is written *)
Definition output_syscalls_json (systrack_version : str) (tag : outcome str) (source : str) (a : arch) (scs : list syscall)
    : outcome str :=
  j <- json_document systrack_version tag source a scs ;; Ok (dumps 0 j).
