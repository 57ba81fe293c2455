(** Specification for C93 and C94: a reader of HTML and the table it must find. *)
From Coq Require Import List Bool Ascii String ZArith.
From Verif Require Import PyBase M_Utils M_Elf M_Syscall M_Arch M_Config.
Import ListNotations.
Open Scope Z_scope.
Open Scope list_scope.

(** ** A tokenizer, after the HTML standard (13.2.5), for a subset without parse errors *)

(** Characters are code points; the ones of references may be beyond Latin-1. *)
Inductive token :=
| TChar (c : Z)
| TStart (name : str) (attrs : list (str * list Z))
| TEnd (name : str)
| TDoctype (text : str).

Inductive state :=
| Data
| TagOpen
| Declaration (text : str)
| TagName (name : str)
| EndName (name : str)
| BeforeAttr (name : str) (attrs : list (str * list Z))
| AttrName (name : str) (attrs : list (str * list Z)) (attr : str)
| BeforeValue (name : str) (attrs : list (str * list Z)) (attr : str)
| Value (name : str) (attrs : list (str * list Z)) (attr : str) (v : list Z)
| AfterValue (name : str) (attrs : list (str * list Z))
| DataRef (ref : str)
| ValueRef (name : str) (attrs : list (str * list Z)) (attr : str) (v : list Z) (ref : str)
| RawText (name : str) (text : str).

Definition codes (s : str) : list Z := map code s.
Definition letter (c : ascii) : bool := in_range 97 122 (code c) || in_range 65 90 (code c).
Definition name_char (c : ascii) : bool := letter c || is_dec c.
Definition white (c : ascii) : bool := existsb (Z.eqb (code c)) [32; 9; 10; 12; 13].
(** The character of a reference &...; *)
Definition reference (r : str) : option Z :=
  if str_eqb r $"amp" then Some 38 else if str_eqb r $"lt" then Some 60 else if str_eqb r $"gt" then Some 62
  else if str_eqb r $"quot" then Some 34 else if str_eqb r $"nbsp" then Some 160
  else match r with
       | c1 :: c2 :: d =>
           if Ascii.eqb c1 "#" then
             if Ascii.eqb c2 "x" then (match d with [] => None | _ => if forallb is_hex d then Some (int_hex d) else None end)
             else if forallb is_dec (c2 :: d) then Some (int_dec (c2 :: d)) else None
           else None
       | _ => None
       end.
(** The text of style and script elements has no markup and no references. *)
Definition is_raw (name : str) : bool := str_eqb name $"style" || str_eqb name $"script".
Definition after_start (name : str) : state := if is_raw name then RawText name [] else Data.
Definition end_tag (name : str) : str := $"</" ++ name ++ $">".
Definition ends_with (s t : str) : option str :=
  let n := (List.length s - List.length t)%nat in if str_eqb (skipn n s) t then Some (firstn n s) else None.

(** One character: the next state and the tokens that are complete. *)
Definition step (st : state) (c : ascii) : option (state * list token) :=
  match st with
  | Data =>
      if Ascii.eqb c "&" then Some (DataRef [], [])
      else if Ascii.eqb c "<" then Some (TagOpen, [])
      else Some (Data, [TChar (code c)])
  | TagOpen =>
      if Ascii.eqb c "!" then Some (Declaration [], [])
      else if Ascii.eqb c "/" then Some (EndName [], [])
      else if letter c then Some (TagName [c], [])
      else None
  | Declaration t => if Ascii.eqb c ">" then Some (Data, [TDoctype t]) else Some (Declaration (t ++ [c]), [])
  | TagName n =>
      if Ascii.eqb c ">" then Some (after_start n, [TStart n []])
      else if white c then Some (BeforeAttr n [], [])
      else if name_char c then Some (TagName (n ++ [c]), [])
      else None
  | EndName n =>
      if Ascii.eqb c ">" then match n with [] => None | _ => Some (Data, [TEnd n]) end
      else if name_char c then Some (EndName (n ++ [c]), [])
      else None
  | BeforeAttr n l =>
      if Ascii.eqb c ">" then Some (after_start n, [TStart n l])
      else if white c then Some (BeforeAttr n l, [])
      else if letter c then Some (AttrName n l [c], [])
      else None
  | AttrName n l a =>
      if Ascii.eqb c "=" then Some (BeforeValue n l a, [])
      else if letter c then Some (AttrName n l (a ++ [c]), [])
      else None
  | BeforeValue n l a => if code c =? 34 then Some (Value n l a [], []) else None
  | Value n l a v =>
      if code c =? 34 then Some (AfterValue n (l ++ [(a, v)]), [])
      else if Ascii.eqb c "&" then Some (ValueRef n l a v [], [])
      else Some (Value n l a (v ++ [code c]), [])
  | AfterValue n l =>
      if Ascii.eqb c ">" then Some (after_start n, [TStart n l])
      else if white c then Some (BeforeAttr n l, [])
      else None
  | DataRef r =>
      if Ascii.eqb c ";" then match reference r with Some z => Some (Data, [TChar z]) | None => None end
      else if name_char c || Ascii.eqb c "#" then Some (DataRef (r ++ [c]), [])
      else None
  | ValueRef n l a v r =>
      if Ascii.eqb c ";" then match reference r with Some z => Some (Value n l a (v ++ [z]), []) | None => None end
      else if name_char c || Ascii.eqb c "#" then Some (ValueRef n l a v (r ++ [c]), [])
      else None
  | RawText n t =>
      match ends_with (t ++ [c]) (end_tag n) with
      | Some text => Some (Data, map TChar (codes text) ++ [TEnd n])
      | None => Some (RawText n (t ++ [c]), [])
      end
  end.
Fixpoint run (st : state) (t : str) : option (state * list token) :=
  match t with
  | [] => Some (st, [])
  | c :: t' =>
      match step st c with
      | Some (st1, ts) => match run st1 t' with Some (st2, ts') => Some (st2, ts ++ ts') | None => None end
      | None => None
      end
  end.
Definition html_read (t : str) : option (list token) :=
  match run Data t with Some (Data, ts) => Some ts | _ => None end.

(** ** The content of a page *)

(** Every start tag has its end tag, in order; [meta] is a void element. *)
Definition is_void (name : str) : bool := str_eqb name $"meta".
Fixpoint nested (stack : list str) (ts : list token) : bool :=
  match ts with
  | [] => match stack with [] => true | _ => false end
  | TStart n _ :: r => nested (if is_void n then stack else n :: stack) r
  | TEnd n :: r => match stack with m :: stack' => str_eqb n m && nested stack' r | [] => false end
  | _ :: r => nested stack r
  end.
(** The texts of the elements with a name (none of which is inside another) *)
Fixpoint texts (name : str) (inside : option (list Z)) (ts : list token) : list (list Z) :=
  match ts with
  | [] => []
  | TStart n _ :: r => if str_eqb n name then texts name (Some []) r else texts name inside r
  | TEnd n :: r =>
      if str_eqb n name then match inside with Some t => t :: texts name None r | None => texts name None r end
      else texts name inside r
  | TChar c :: r => texts name (match inside with Some t => Some (t ++ [c]) | None => None end) r
  | TDoctype _ :: r => texts name inside r
  end.

(** A cell of a table: whether it is a heading, its attributes, the links in it, its text *)
Record cell := Cell { c_head : bool; c_attrs : list (str * list Z); c_links : list (list Z); c_text : list Z }.
Definition is_cell (n : str) : bool := str_eqb n $"td" || str_eqb n $"th".
Definition push_char (c : Z) (x : cell) : cell := Cell (c_head x) (c_attrs x) (c_links x) (c_text x ++ [c]).
Definition push_link (l : list Z) (x : cell) : cell := Cell (c_head x) (c_attrs x) (c_links x ++ [l]) (c_text x).
Definition href (attrs : list (str * list Z)) : list Z := match dget str_eqb $"href" attrs with Some v => v | None => [] end.
(** The rows of the table: the complete ones, the one being read and the cell being read *)
Record reading := Reading { rd_rows : list (list cell); rd_row : list cell; rd_cell : option cell }.
Definition read_token (r : reading) (t : token) : reading :=
  match t with
  | TChar c => Reading (rd_rows r) (rd_row r) (match rd_cell r with Some x => Some (push_char c x) | None => None end)
  | TStart n l =>
      if str_eqb n $"tr" then Reading (rd_rows r) [] None
      else if is_cell n then Reading (rd_rows r) (rd_row r) (Some (Cell (str_eqb n $"th") l [] []))
      else if str_eqb n $"a" then Reading (rd_rows r) (rd_row r) (match rd_cell r with Some x => Some (push_link (href l) x) | None => None end)
      else r
  | TEnd n =>
      if str_eqb n $"tr" then Reading (rd_rows r ++ [rd_row r]) [] None
      else if is_cell n then match rd_cell r with Some x => Reading (rd_rows r) (rd_row r ++ [x]) None | None => r end
      else r
  | TDoctype _ => r
  end.
Definition table_of (ts : list token) : list (list cell) := rd_rows (fold_left read_token ts (Reading [] [] None)).

(** ** What the table must be *)

Definition indent (n : nat) : list Z := 10 :: repeat 9 n.
Definition plain (text : list Z) : cell := Cell false [] [] text.
Definition heading (attrs : list (str * str)) (text : list Z) : cell :=
  Cell true (map (fun x => (fst x, codes (snd x))) attrs) [] text.
(** A cell with attributes *)
Definition marked (attrs : list (str * str)) (links : list (list Z)) (text : list Z) : cell :=
  Cell false (map (fun x => (fst x, codes (snd x))) attrs) links text.
Definition decimal_text (z : Z) : list Z := codes (str_of_int z).

(** The link to a file of a version *)
Definition source_link (tag : str) (f : path) (anchor : str) : list Z :=
  codes ($"https://elixir.bootlin.com/linux/" ++ tag ++ $"/source/" ++ str_of_path f ++ anchor).
Definition relative (f : path) : bool := match root f with [] => true | _ => false end.
(** The location: a relative file is linked, what may be wrong is marked *)
Definition location (tag : str) (s : syscall) : cell :=
  match sc_file s with
  | None => marked [($"class", $"unknown")] [] (codes $"unknown")
  | Some f =>
      let '(attrs, line, anchor) :=
        match sc_line s with
        | Some l =>
            (if negb (sc_good s) then
               [($"class", $"bad"); ($"title", $"The identified location may be inaccurate (non-standard definition or missing kernel sources)")]
             else if sc_grepped s then
               [($"class", $"bad"); ($"title", $"This syscall definition was found through grepping, the identified location may be inaccurate")]
             else [], str_of_int l, $"#L" ++ str_of_int l)
        | None =>
            ([($"class", $"bad"); ($"title", $"The syscall definition could not be located within this file, the identified location may be inaccurate")],
             $"??", [])
        end in
      marked attrs (if relative f then [source_link tag f anchor] else [])
        (indent 6 ++ codes (str_of_path f ++ $":" ++ line) ++ indent 5)
  end.
(** The parameters, filled up to [m] columns *)
Definition parameters (m : Z) (s : syscall) : list cell :=
  match sc_signature s with
  | None => [marked [($"colspan", str_of_int m); ($"class", $"unknown")] [] (codes $"unknown signature")]
  | Some [] => [marked [($"colspan", str_of_int m)] [] (codes $"void")]
  | Some l => map (fun arg => plain (codes arg)) l ++
      if len l <? m then [marked [($"colspan", str_of_int (m - len l))] [] []] else []
  end.
Definition option_text (s : syscall) : str :=
  match sc_kconfig s with
  | Some (c :: k) => replace (c :: k) $"CONFIG_" [] ++ $"=y"
  | _ => []
  end.
Definition row_of (tag : str) (m : Z) (s : syscall) : list cell :=
  [plain (decimal_text (sc_number s)); plain (codes (hex (sc_number s)));
   marked (if sc_esoteric s then [($"class", $"esoteric"); ($"title", $"This syscall has an esoteric implementation")] else []) [] (codes (sc_name s));
   plain (codes (sym_name (sc_symbol s)));
   location tag s;
   plain (codes (option_text s))] ++ parameters m s.
(** The heading: the register of the number and one column per parameter, with its register if
    there is one *)
Definition headings (a : arch) (m : Z) : list cell :=
  [heading [($"class", $"sortable ascending"); ($"colspan", $"2")]
     (codes $"Number" ++ match a_num_reg a with Some (c :: r) => 160 :: codes ($"(" ++ (c :: r) ++ $")") | _ => [] end);
   heading [($"class", $"sortable")] (codes $"Name"); heading [($"class", $"sortable")] (codes $"Symbol");
   heading [($"class", $"sortable")] (codes $"Definition location"); heading [($"class", $"sortable")] (codes $"Kconfig")] ++
  map (fun i => heading [] (codes ($"Arg " ++ str_of_int (Z.of_nat i + 1) ++ $" (" ++ nth i (a_arg_regs a) [] ++ $")"))) (seq 0 (Z.to_nat m)).

(** How many columns a cell covers *)
Definition span_of (c : cell) : Z :=
  match dget str_eqb $"colspan" (c_attrs c) with Some v => int_dec (map chr v) | None => 1 end.

Definition bits_name (b : bool) : str := if b then $"32-bit" else $"64-bit".
Definition abi_name (a : arch) : str := (if a_compat a then $"compat " else []) ++ bits_name (a_abi_bits32 a) ++ $" " ++ a_abi a.
Definition arch_name (a : arch) : str := class_name (a_class a) ++ $" " ++ bits_name (a_bits32 a).
Definition title_text (tag : str) (a : arch) : str := $"Linux " ++ tag ++ $" " ++ arch_name a ++ $", " ++ abi_name a ++ $" syscall table".

(** The longest known signature *)
Definition longest (scs : list syscall) (m : Z) : Prop :=
  (exists s l, In s scs /\ sc_signature s = Some l /\ len l = m) /\
  forall s l, In s scs -> sc_signature s = Some l -> len l <= m.

(** What the table tells about a syscall *)
Record shown := Shown {
  sh_number : Z; sh_name : str; sh_symbol : str; sh_place : option (path * option (Z * bool * bool));
  sh_option : str; sh_parameters : option (list str); sh_esoteric : bool }.
Definition shown_of (s : syscall) : shown :=
  Shown (sc_number s) (sc_name s) (sym_name (sc_symbol s))
    (match sc_file s with
     | Some f => Some (f, match sc_line s with Some l => Some (l, sc_good s, sc_good s && sc_grepped s) | None => None end)
     | None => None
     end)
    (option_text s) (sc_signature s) (sc_esoteric s).
(** The name of the register of the number *)
Definition reg_text (a : arch) : str := match a_num_reg a with Some r => r | None => [] end.
