(** Model of the critical messages of extracting syscalls: /repo/src/systrack/kernel.py 239-334
    again, as M_Kernel.vaddrs_from_table and extract_syscalls, with what they log at level
    CRITICAL.  The message of 384-386 is left out: symbols_by_vaddr is never empty there.  What the
    x86 dispatcher logs (level ERROR, x86.py) is left out. *)
From Coq Require Import List Bool Ascii String ZArith.
From Verif Require Import PyBase M_Utils M_Elf M_Syscall M_Arch M_Kernel.
Import ListNotations.
Open Scope Z_scope.
Open Scope list_scope.

(** kernel.py 239-297 *)
Definition vaddrs_telling (a : arch) (e : elf) (name : str) : outcome (list (Z * Z) * list str) :=
  match dget str_eqb name (e_symbols e) with
  | None => Ok ([], [$"Unable to find " ++ name ++ $" symbol!"])
  | Some tbl =>
      match dget str_eqb $".text" (e_sections e) with
      | None => Raise KeyError
      | Some text =>
          let direct :=
            l <- unpack_syscall_table e tbl text ;;
            Ok match l with
               | [] => ([], [$"Could not extract any valid function pointer from " ++ name ++ $", giving up!";
                             $"Is the kernel relocatable? Relocation entries for the syscall table are not supported."])
               | _ => (enum_from 0 l, [])
               end in
          if negb (a_fdesc a) then direct
          else
            first <- unpack_long e (sym_vaddr tbl) ;;
            if in_target text first then direct
            else
              match dget str_eqb $".opd" (e_sections e) with
              | None => Ok ([], [$"Arch uses function descriptors, but vmlinux has no .opd section!"])
              | Some opd =>
                  descs <- unpack_syscall_table e tbl opd ;;
                  l <- mapM (unpack_long e) descs ;;
                  match l with [] => direct | _ => Ok (enum_from 0 l, []) end
              end
      end
  end.

(** '%d' for 32 and 64 *)
Definition show_bits (bits32 : bool) : str := if bits32 then $"32" else $"64".

(** kernel.py 299-585 *)
Definition extract_telling (t : env) (a : arch) (e : elf) (v : version) (kdir : option path)
    : outcome (list syscall * list str) :=
  if xorb (a_bits32 a) (e_bits32 e)
  then Ok ([], [$"Selected arch is " ++ show_bits (a_bits32 a) ++ $"-bit, but kernel is " ++ show_bits (negb (a_bits32 a)) ++ $"-bit"])
  else
    let a := adjust_abi a e in
    x <- match a_table a with
         | Some name => vaddrs_telling a e name
         | None => l <- syscall_vaddrs t a e ;; Ok (l, [])
         end ;;
    let '(vaddrs, lines) := x in
    match vaddrs with
    | [] => Ok ([], lines ++ [$"Unable to extract any syscall vaddr, giving up!"])
    | _ =>
        match v_ni_order t (ni_functions e) with
        | [] => Ok ([], lines ++ [$"No ni_syscall found!"])
        | _ =>
            found <- candidates (v_ni_order t) a e v vaddrs ;;
            located <- v_annotate t found ;;
            r <- filterM (keep_located kdir) located ;;
            Ok (r, lines)
        end
    end.
