(** Model of /repo/src/systrack/output.py *)
From Coq Require Import List Bool Ascii String ZArith.
From Verif Require Import PyBase M_Utils M_Elf M_Syscall M_Arch M_Kernel M_Config.
Import ListNotations.
Open Scope Z_scope.
Open Scope list_scope.

(** ** Text *)

(** A row of the table: cells, or None for a blank line *)
Definition row := option (list str).

(** output.py 31-34 *)
Definition header : list str :=
  [$"INDEX"; $"NUMBER"; $"NAME"; $"ORIG NAME"; $"SYMBOL"; $"LOCATION"; $"KCONFIG"; $"SIGNATURE"].

(** output.py 43-51.  A line 0 counts as none. *)
Definition location_cell (s : syscall) : str :=
  let loc := match sc_file s, sc_line s with
             | Some f, Some l => if l =? 0 then str_of_path f else str_of_path f ++ $":" ++ str_of_int l
             | Some f, None => str_of_path f
             | None, _ => []
             end in
  match loc with
  | [] => []
  | _ => if sc_good s then loc else $"(?) " ++ loc
  end.
(** output.py 53-62 *)
Definition syscall_cells (s : syscall) : list str :=
  [match sc_index s with Some i => rjust_with SP (str_of_int i) 3 | None => $"-  " end;
   hex (sc_number s);
   sc_name s;
   if str_eqb (sc_origname s) (sc_name s) then [] else sc_origname s;
   sym_name (sc_symbol s);
   location_cell s;
   match sc_kconfig s with Some (c :: k) => replace (c :: k) $"CONFIG_" [] | _ => [] end;
   match sc_signature s with
   | Some (a :: l) => join $", " (a :: l)
   | Some [] => $"void"
   | None => $"?"
   end].
(** output.py 36-62 *)
Fixpoint table_rows (prevnum : Z) (scs : list syscall) : list row :=
  match scs with
  | [] => []
  | s :: l =>
      (if 1 <? sc_number s - prevnum then [None] else []) ++
      Some (syscall_cells s) :: table_rows (sc_number s) l
  end.
(** output.py 64.  Every row has 8 cells. *)
Definition cell_width (i : nat) (r : row) : Z :=
  match r with Some cells => len (nth i cells []) | None => 0 end.
Definition width (table : list row) (i : nat) : Z := fold_left Z.max (map (cell_width i) table) 0.
Definition widths (table : list row) : list Z := map (width table) (seq 0 (List.length header)).
(** output.py 67-71, with a spacing of 2 (the default; output.py 130) *)
Definition print_row (ws : list Z) (r : row) : str :=
  match r with
  | Some cells => join (repeat SP 2) (map (fun '(c, w) => ljust c w) (combine cells ws))
  | None => []
  end.
(** output.py 29-73: the lines printed on standard output *)
Definition output_syscalls_text (scs : list syscall) : outcome (list str) :=
  match scs with
  | [] => Raise IndexError
  | s :: _ =>
      let table := Some header :: table_rows (sc_number s) scs in
      Ok (map (print_row (widths table)) table)
  end.

(** ** JSON *)

(** What is given to the serializer of the standard library.  Objects keep the order of their
    keys here; [sort_keys=True] then prints them sorted. *)
Inductive json :=
| JNull | JBool (b : bool) | JInt (z : Z) | JStr (s : str)
| JList (l : list json) | JObj (d : list (str * json)).
Definition jopt {A} (f : A -> json) (x : option A) : json := match x with Some a => f a | None => JNull end.

(** syscall.py 11-16, the slots with their values; a Path is encoded by its string (output.py
    24-25), and the symbol is replaced in any case. *)
Definition slots (s : syscall) : dict str json :=
  [($"index", jopt JInt (sc_index s)); ($"number", JInt (sc_number s));
   ($"name", JStr (sc_name s)); ($"origname", JStr (sc_origname s)); ($"symbol", JNull);
   ($"file", jopt (fun p => JStr (str_of_path p)) (sc_file s)); ($"line", jopt JInt (sc_line s));
   ($"signature", jopt (fun l => JList (map JStr l)) (sc_signature s));
   ($"esoteric", JBool (sc_esoteric s)); ($"good_location", JBool (sc_good s));
   ($"grepped_location", JBool (sc_grepped s)); ($"kconfig", jopt JStr (sc_kconfig s))].
(** output.py 15-22 *)
Definition encode_syscall (s : syscall) : json :=
  let d := dset str_eqb $"symbol" (JStr (sym_name (sc_symbol s))) (slots s) in
  JObj (match sc_kconfig s with
        | Some (c :: k) => dset str_eqb $"kconfig" (JStr (noprefix (c :: k) [$"CONFIG_"])) d
        | _ => d
        end).
(** output.py 83, 88 *)
Definition bits (b : bool) : json := JInt (if b then 32 else 64).
(** output.py 75-97; [tag] and [source] are version_tag and version_source *)
Definition json_document (systrack_version : str) (tag : outcome str) (source : str) (a : arch) (scs : list syscall)
    : outcome json :=
  t <- tag ;;
  Ok (JObj
    [($"systrack_version", JStr systrack_version);
     ($"kernel", JObj
        [($"version", JStr t); ($"version_source", JStr source);
         ($"architecture", JObj [($"name", JStr (class_name (a_class a))); ($"bits", bits (a_bits32 a))]);
         ($"abi", JObj
            [($"name", JStr (a_abi a)); ($"compat", JBool (a_compat a)); ($"bits", bits (a_abi_bits32 a));
             ($"calling_convention", JObj
                [($"syscall_nr", jopt JStr (a_num_reg a)); ($"parameters", JList (map JStr (a_arg_regs a)))])]);
         ($"syscall_table_symbol", jopt JStr (a_table a))]);
     ($"syscalls", JList (map encode_syscall scs))]).

(** ** HTML *)

(** output.py 111: max() of an empty sequence raises ValueError *)
Definition max_args (scs : list syscall) : outcome Z :=
  match flat_map (fun s => match sc_signature s with Some l => [len l] | None => [] end) scs with
  | [] => Raise ValueError
  | n :: l => Ok (fold_left Z.max l n)
  end.
(** templates/syscall_table.html 15-24: how many columns the cells of the header span *)
Definition header_spans (m : Z) : list Z := [2; 1; 1; 1; 1] ++ repeat 1 (Z.to_nat m).
(** templates/syscall_table.html 26-71: the cells of a row *)
Definition row_spans (m : Z) (s : syscall) : list Z :=
  [1; 1; 1; 1; 1; 1] ++
  match sc_signature s with
  | None => [m]
  | Some [] => [m]
  | Some l => repeat 1 (List.length l) ++ (if 0 <? m - len l then [m - len l] else [])
  end.
(** output.py 101-126: the spans of the table that is printed; jinja2 is assumed to be there and
    the rest of the template is not modelled. *)
Definition output_syscalls_html (tag : outcome str) (scs : list syscall) : outcome (list (list Z)) :=
  m <- max_args scs ;;
  _ <- tag ;;
  Ok (header_spans m :: map (row_spans m) scs).

(** ** Choosing *)

(** What reaches standard output *)
Inductive document := TextDoc (lines : list str) | JsonDoc (j : json) | HtmlDoc (spans : list (list Z)).
(** output.py 128-136 *)
Definition output_syscalls (systrack_version : str) (tag : outcome str) (source : str) (a : arch) (scs : list syscall)
    (fmt : str) : outcome document :=
  if str_eqb fmt $"text" then ls <- output_syscalls_text scs ;; Ok (TextDoc ls)
  else if str_eqb fmt $"json" then j <- json_document systrack_version tag source a scs ;; Ok (JsonDoc j)
  else if str_eqb fmt $"html" then h <- output_syscalls_html tag scs ;; Ok (HtmlDoc h)
  else Exit 1.
