(** Model of the page that output_syscalls_html (/repo/src/systrack/output.py 101-126) writes: the
    jinja2 template /repo/src/systrack/templates/syscall_table.html with autoescape.  A line of the
    template that is a statement ("# ...") leaves nothing, not even its line end; the last line end
    of a template is dropped.  An index beyond the end of a tuple gives an undefined value, which
    is printed as nothing. *)
From Coq Require Import List Bool Ascii String ZArith.
From Verif Require Import PyBase M_Utils M_Elf M_Syscall M_Arch M_Config M_Output M_Templates.
Import ListNotations.
Open Scope Z_scope.
Open Scope list_scope.

(** markupsafe.escape: what autoescape does with every value printed *)
Definition html_esc (c : ascii) : str :=
  let n := code c in
  if n =? 38 then $"&amp;" else if n =? 62 then $"&gt;" else if n =? 60 then $"&lt;"
  else if n =? 39 then $"&#39;" else if n =? 34 then $"&#34;" else [c].
Definition h (s : str) : str := flat_map html_esc s.
(** A line of the template: its indentation, its text and the line end *)
Definition ln (n : nat) (s : str) : str := repeat (chr 9) n ++ s ++ [NL].

(** ['0x%x' % z] *)
Definition fmt_0x (z : Z) : str := $"0x" ++ if z <? 0 then $"-" ++ digits 16 (- z) else digits 16 z.
Definition bits_text (b : bool) : str := if b then $"32" else $"64".
(** syscall_table.html 4, 12: [{{'compat ' if compat else ''}}{{abi_bits}}-bit {{abi}}] *)
Definition abi_text (a : arch) : str :=
  h (if a_compat a then $"compat " else []) ++ h (bits_text (a_abi_bits32 a)) ++ $"-bit " ++ h (a_abi a).

(** syscall_table.html 1-14 *)
Definition page_head (tag : str) (a : arch) : str :=
  ln 0 $"<!DOCTYPE html>" ++
  ln 0 $"<html lang=""en"">" ++
  ln 1 $"<head>" ++
  ln 2 ($"<title>Linux " ++ h tag ++ $" " ++ h (class_name (a_class a)) ++ $" " ++ h (bits_text (a_bits32 a)) ++ $"-bit, " ++
        abi_text a ++ $" syscall table</title>") ++
  ln 2 $"<meta charset=""UTF-8"">" ++
  ln 2 $"<meta name=""viewport"" content=""width=device-width, initial-scale=1"">" ++
  ln 2 ($"<style>" ++ css ++ $"</style>") ++
  ln 1 $"</head>" ++
  ln 1 $"<body>" ++
  ln 2 ($"<h1>Linux " ++ h tag ++ $" syscall table</h1>") ++
  ln 2 ($"<h2>Architecture: " ++ h (class_name (a_class a)) ++ $" " ++ h (bits_text (a_bits32 a)) ++ $"-bit</h2>") ++
  ln 2 ($"<h2>ABI: " ++ abi_text a ++ $"</h2>") ++
  ln 2 $"<table>" ++
  ln 3 $"<tbody>".

(** syscall_table.html 22 *)
Definition arg_header (a : arch) (i : nat) : str :=
  ln 5 ($"<th>Arg " ++ h (str_of_int (Z.of_nat i + 1)) ++ $" (" ++
        h (match nth_error (a_arg_regs a) i with Some r => r | None => [] end) ++ $")</th>").
(** syscall_table.html 15-24 *)
Definition header_row (a : arch) (m : Z) : str :=
  ln 4 $"<tr>" ++
  ln 5 ($"<th class=""sortable ascending"" colspan=""2"">Number" ++
        match a_num_reg a with Some (c :: r) => $"&nbsp;(" ++ h (c :: r) ++ $")" | _ => [] end ++ $"</th>") ++
  ln 5 $"<th class=""sortable"">Name</th>" ++
  ln 5 $"<th class=""sortable"">Symbol</th>" ++
  ln 5 $"<th class=""sortable"">Definition location</th>" ++
  ln 5 $"<th class=""sortable"">Kconfig</th>" ++
  flat_map (arg_header a) (seq 0 (Z.to_nat m)) ++
  ln 4 $"</tr>".

Definition is_absolute (p : path) : bool := match root p with [] => false | _ => true end.
(** syscall_table.html 40-42, 48-50: [line] is the text after the colon, [anchor] the end of the link *)
Definition place_text (tag : str) (f : path) (line anchor : str) : str :=
  ln 6 (if is_absolute f then h (str_of_path f) ++ $":" ++ line
        else $"<a target=""_blank"" href=""https://elixir.bootlin.com/linux/" ++ h tag ++ $"/source/" ++ h (str_of_path f) ++
             anchor ++ $""">" ++ h (str_of_path f) ++ $":" ++ line ++ $"</a>").
(** syscall_table.html 31-55 *)
Definition location_text (tag : str) (s : syscall) : str :=
  match sc_file s, sc_line s with
  | Some f, Some l =>
      ln 5 (if negb (sc_good s) then
              $"<td class=""bad"" title=""The identified location may be inaccurate (non-standard definition or missing kernel sources)"">"
            else if sc_grepped s then
              $"<td class=""bad"" title=""This syscall definition was found through grepping, the identified location may be inaccurate"">"
            else $"<td>") ++
      place_text tag f (h (str_of_int l)) ($"#L" ++ h (str_of_int l)) ++
      ln 5 $"</td>"
  | Some f, None =>
      ln 5 $"<td class=""bad"" title=""The syscall definition could not be located within this file, the identified location may be inaccurate"">" ++
      place_text tag f $"??" [] ++
      ln 5 $"</td>"
  | None, _ => ln 5 $"<td class=""unknown"">unknown</td>"
  end.
(** syscall_table.html 63-64 *)
Definition arg_text (arg : str) : str :=
  let i := rfind_char SP arg + 1 in
  ln 5 ($"<td><span class=""argtype"">" ++ h (slice_to arg i) ++ $"</span><span class=""argname"">" ++ h (slice_from arg i) ++ $"</span></td>").
(** syscall_table.html 57-70 *)
Definition signature_text (m : Z) (s : syscall) : str :=
  match sc_signature s with
  | None => ln 5 ($"<td colspan=""" ++ h (str_of_int m) ++ $""" class=""unknown"">unknown signature</td>")
  | Some [] => ln 5 ($"<td colspan=""" ++ h (str_of_int m) ++ $"""><span class=""argtype"">void</span></td>")
  | Some l =>
      flat_map arg_text l ++
      let span := m - len l in
      if 0 <? span then ln 5 ($"<td colspan=""" ++ h (str_of_int span) ++ $"""></td>") else []
  end.
(** syscall_table.html 56 *)
Definition kconfig_text (s : syscall) : str :=
  match sc_kconfig s with
  | Some (c :: k) => replace (c :: k) $"CONFIG_" [] ++ $"=y"
  | _ => []
  end.
(** syscall_table.html 26-71 *)
Definition syscall_row (tag : str) (m : Z) (s : syscall) : str :=
  ln 4 $"<tr>" ++
  ln 5 ($"<td>" ++ h (str_of_int (sc_number s)) ++ $"</td>") ++
  ln 5 ($"<td>" ++ h (fmt_0x (sc_number s)) ++ $"</td>") ++
  ln 5 ($"<td" ++ (if sc_esoteric s then $" class=""esoteric"" title=""This syscall has an esoteric implementation""" else []) ++ $">" ++
        h (sc_name s) ++ $"</td>") ++
  ln 5 ($"<td>" ++ h (sym_name (sc_symbol s)) ++ $"</td>") ++
  location_text tag s ++
  ln 5 ($"<td>" ++ h (kconfig_text s) ++ $"</td>") ++
  signature_text m s ++
  ln 4 $"</tr>".
(** syscall_table.html 73-78 *)
Definition page_tail (systrack_version systrack_copy : str) : str :=
  ln 3 $"</tbody>" ++
  ln 2 $"</table>" ++
  ln 2 ($"<p>Auto-generated by <a target=""_blank"" href=""https://github.com/mebeim/systrack"">Systrack v" ++ h systrack_version ++
        $"</a> &#x2014; " ++ h systrack_copy ++ $"</p>") ++
  ln 2 ($"<script>" ++ js ++ $"</script>") ++
  ln 1 $"</body>" ++
  $"</html>".
Definition page (systrack_version systrack_copy tag : str) (a : arch) (m : Z) (scs : list syscall) : str :=
  page_head tag a ++ header_row a m ++ flat_map (syscall_row tag m) scs ++ page_tail systrack_version systrack_copy.

(** output.py 101-126; [systrack_copy] is the copyright notice (which has a dash that is not in
    Latin-1), jinja2 is assumed to be there *)
Definition output_html (systrack_version systrack_copy : str) (tag : outcome str) (a : arch) (scs : list syscall) : outcome str :=
  m <- max_args scs ;;
  t <- tag ;;
  Ok (page systrack_version systrack_copy t a m scs).
