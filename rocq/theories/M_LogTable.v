(** Every call of the logging module in /repo/src/systrack that has a literal message, with the kinds of
    its arguments; written by tools/gen_logs.py.  The kinds are the result of reading the callers. *)
From Coq Require Import List Bool Ascii String ZArith.
From Verif Require Import PyBase M_Log.
Import ListNotations.
Open Scope Z_scope.
Open Scope list_scope.
Open Scope string_scope.

Definition calls : list call := [
  (* VERSION *)
  Call $"__main__.py" 164 Debug $"Systrack v%s" [KObj];
  (* command_argv_to_string(sys.argv[1:]) *)
  Call $"__main__.py" 165 Debug $"Command line: systrack %s" [KObj];
  (* sc.name, sc.symbol.name, ni_sym.name *)
  Call $"arch/arch_base.py" 267 Info $"Syscall %s (%s) is not really implemented: vaddr matches %s" [KObj; KObj; KObj];
  (* sc.name, sc.symbol.name, ni_sym.name *)
  Call $"arch/arch_base.py" 277 Info $"Syscall %s (%s) is not really implemented: code matches %s" [KObj; KObj; KObj];
  (* sc.name, sc.symbol.name, code.hex() *)
  Call $"arch/arch_base.py" 286 Info $"Syscall %s (%s) is not really implemented: dummy implementation: %s" [KObj; KObj; KObj];
  (* no arguments *)
  Call $"arch/arch_base.py" 302 Error $"Sorry, don't know how to extract syscall vaddrs for this arch!" [];
  (* no arguments *)
  Call $"arch/x86.py" 361 Error $"Could not find syscall number register" [];
  (* ip, insn *)
  Call $"arch/x86.py" 398 Error $"Unsupported instruction after TEST: %#x: %r" [KInt; KObj];
  (* ip, insn *)
  Call $"arch/x86.py" 406 Error $"Unsupported TEST instruction %#x: %r" [KInt; KObj];
  (* ip, insn *)
  Call $"arch/x86.py" 431 Error $"Unsupported CMP instruction %#x: %r" [KInt; KObj];
  (* ip, insn *)
  Call $"arch/x86.py" 435 Error $"Unexpected register in CMP instruction %#x: %r" [KInt; KObj];
  (* ip, insn *)
  Call $"arch/x86.py" 450 Error $"Unsupported Jcc instruction %#x: %r" [KInt; KObj];
  (* ip, insn *)
  Call $"arch/x86.py" 453 Error $"No previous CMP/TEST instruction for Jcc: %#x: %r" [KInt; KObj];
  (* func.name, insn *)
  Call $"arch/x86.py" 482 Error $"%s calling itself??? %r" [KObj; KObj];
  (* iteration, `s`[:iteration ^ 1] *)
  Call $"arch/x86.py" 510 Info $"Symbolic emulation done in %d iteration%s" [KInt; KObj];
  (* n_skipped, `s`[:n_skipped ^ 1], skipped *)
  Call $"arch/x86.py" 517 Debug $"Skipped %d instruction%s: %s" [KInt; KObj; KObj];
  (* func_name *)
  Call $"arch/x86.py" 545 Error $"Could not find function %s" [KObj];
  (* sym.name, sym.size *)
  Call $"arch/x86.py" 549 Error $"%s is too small (%d bytes)" [KObj; KInt];
  (* sym.name, sym.real_vaddr *)
  Call $"arch/x86.py" 552 Info $"Extracting syscalls from code of %s() at %#x" [KObj; KInt];
  (* vaddr, insn *)
  Call $"arch/x86.py" 571 Error $"Empty set of syscall numbers for %#x (target of %r). Unreachable!?" [KInt; KObj];
  (* insn.ip, len(numbers), insn, vaddr *)
  Call $"arch/x86.py" 576 Debug $"Default switch case at %#x (reachable %d times): %r => %#x is ni_syscall" [KInt; KInt; KObj; KInt];
  (* no arguments *)
  Call $"arch/x86.py" 581 Error $"Multiple default switch cases!?" [];
  (* nr, vaddrs[nr], vaddr *)
  Call $"arch/x86.py" 592 Error $"Number %d leads to multiple vaddrs!? Got %#x and %#x. Bailing out!" [KInt; KInt; KInt];
  (* magic *)
  Call $"elf.py" 62 Warning $"Bad ELF magic: %r" [KObj];
  (* ei_data *)
  Call $"elf.py" 69 Critical $"Invalid ELF e_ident[EI_CLASS] = %d" [KInt];
  (* ei_data *)
  Call $"elf.py" 77 Critical $"Invalid ELF e_ident[EI_DATA] = %d" [KInt];
  (* tbl.name, tbl.size, tbl.size // self.__long_size *)
  Call $"kernel.py" 198 Info $"Syscall table (%s) is %d bytes, %d entries" [KObj; KInt; KInt];
  (* vaddr, tbl.name, idx, target_section.name *)
  Call $"kernel.py" 206 Warning $"Virtual address 0x%x idx %d is outside %s: something is off!" [KInt; KObj; KInt; KObj];
  (* tbl.name, tbl.size *)
  Call $"kernel.py" 213 Warning $"Syscall table (%s) has bad size (%d), doing my best to figure out when to stop" [KObj; KInt];
  (* cur_idx_vaddr - tbl.vaddr, len(vaddrs) *)
  Call $"kernel.py" 234 Info $"Syscall table seems to be %d bytes, %d entries" [KInt; KInt];
  (* self.arch.syscall_table_name *)
  Call $"kernel.py" 242 Critical $"Unable to find %s symbol!" [KObj];
  (* tbl *)
  Call $"kernel.py" 246 Debug $"Syscall table: %r" [KObj];
  (* no arguments *)
  Call $"kernel.py" 264 Debug $"Syscall table uses function descriptors" [];
  (* no arguments *)
  Call $"kernel.py" 268 Critical $"Arch uses function descriptors, but vmlinux has no .opd section!" [];
  (* desc_vaddr *)
  Call $"kernel.py" 280 Warning $"Function descriptor at 0x%x points outside .text: something is off!" [KInt];
  (* no arguments *)
  Call $"kernel.py" 285 Debug $"Syscall table does NOT use function descriptors" [];
  (* self.arch.syscall_table_name *)
  Call $"kernel.py" 291 Critical $"Could not extract any valid function pointer from %s, giving up!" [KObj];
  (* no arguments *)
  Call $"kernel.py" 293 Critical $"Is the kernel relocatable? Relocation entries for the syscall table are not supported." [];
  (* a, b *)
  Call $"kernel.py" 302 Critical $"Selected arch is %d-bit, but kernel is %d-bit" [KInt; KInt];
  (* self.arch *)
  Call $"kernel.py" 306 Debug $"Arch: %r" [KObj];
  (* no arguments *)
  Call $"kernel.py" 313 Warning $"No syscall table available! Trying my best..." [];
  (* no arguments *)
  Call $"kernel.py" 317 Critical $"Unable to extract any syscall vaddr, giving up!" [];
  (* sym *)
  Call $"kernel.py" 329 Debug $"Found ni_syscall: %r" [KObj];
  (* no arguments *)
  Call $"kernel.py" 332 Critical $"No ni_syscall found!" [];
  (* sym, other *)
  Call $"kernel.py" 374 Debug $"Discarding %s as alias for %s" [KObj; KObj];
  (* sym, other *)
  Call $"kernel.py" 377 Debug $"Preferring %s over %s" [KObj; KObj];
  (* no arguments *)
  Call $"kernel.py" 384 Critical $"Unable to find any symbol in the syscall table, giving up!" [];
  (* self.arch_name *)
  Call $"kernel.py" 385 Critical $"Is ""%s"" the correct arch/ABI combination for this kernel?" [KObj];
  (* best.name, counts[0][1] *)
  Call $"kernel.py" 402 Error $"Interesting! I was expecting *_ni_syscall to be the most frequent symbol in the syscall table, but %s is (appearing %d times)." [KObj; KInt];
  (* n, sym *)
  Call $"kernel.py" 409 Warning $"Interesting! Vaddr found %d times: %s" [KInt; KObj];
  (* self.arch.syscall_table_name, idx, vaddr *)
  Call $"kernel.py" 420 Error $"Unable to find symbol for %s[%d]: 0x%x" [KObj; KInt; KInt];
  (* idx, vaddr *)
  Call $"kernel.py" 423 Error $"Unable to find symbol for #%d 0x%x" [KInt; KInt];
  (* self.arch.syscall_table_name, idx, sym *)
  Call $"kernel.py" 429 Debug $"%s[%d]: %s" [KObj; KInt; KObj];
  (* idx, sym *)
  Call $"kernel.py" 432 Debug $"#%d: %s" [KInt; KObj];
  (* `, `.join(prefixes) *)
  Call $"kernel.py" 445 Info $"Common syscall symbol prefixes: %s" [KObj];
  (* no arguments *)
  Call $"kernel.py" 447 Warning $"No common syscall symbol prefixes found (weird!)" [];
  (* sym.name *)
  Call $"kernel.py" 470 Debug $"Skipping %s" [KObj];
  (* n, sym.name *)
  Call $"kernel.py" 478 Info $"%d entries point to %s" [KInt; KObj];
  (* n_esoteric, `s`[:n_esoteric ^ 1], `, `.join(map(itemgetter(1), esoteric)) *)
  Call $"kernel.py" 489 Info $"Found %d esoteric syscall%s: %s" [KInt; KObj; KObj];
  (* sc.name, self.__rel(file), line *)
  Call $"kernel.py" 547 Warning $"Assuming %s is not implemented as it points to %s:%d after adjustments" [KObj; KObj; KOptInt];
  (* *info *)
  Call $"kernel.py" 577 Warning $"Potentially bad location for %s (%s): %s:%s%s" [KObj; KObj; KObj; KObj; KObj];
  (* *info *)
  Call $"kernel.py" 580 Error $"Unable to find location for %s (%s)" [KObj; KObj];
  (* *info *)
  Call $"kernel.py" 583 Error $"Unable to extract signature for %s (%s)" [KObj; KObj];
  (* no arguments *)
  Call $"kernel.py" 609 Error $"Restoring Makefile without backing it up first???" [];
  (* self.arch *)
  Call $"kernel.py" 650 Info $"Configuring for Arch: %r" [KObj];
  (* `, `.join(self.arch.config_targets) *)
  Call $"kernel.py" 651 Info $"Base config target(s): %s" [KObj];
  (* no arguments *)
  Call $"kernel.py" 661 Info $"Applying debugging configs" [];
  (* no arguments *)
  Call $"kernel.py" 665 Info $"Applying compatibility configs" [];
  (* no arguments *)
  Call $"kernel.py" 669 Info $"Enabling more syscalls" [];
  (* no arguments *)
  Call $"kernel.py" 673 Info $"Applying arch-specific configs" [];
  (* no arguments *)
  Call $"kernel.py" 682 Info $"Trying to build with optimizations disabled (-O0)" [];
  (* no arguments *)
  Call $"kernel.py" 695 Error $"Failed to build with -O0, trying -O1" [];
  (* no arguments *)
  Call $"kernel.py" 704 Error $"Failed to build with -O1, doing a normal build" [];
  (* no arguments *)
  Call $"kernel.py" 706 Warning $"Unable to patch Makefile to disable optimizations, doing a normal build instead" [];
  (* no arguments *)
  Call $"location.py" 87 Debug $"No ripgrep available :( falling back to slow python implementation" [];
  (* file *)
  Call $"location.py" 187 Critical $"File ""%s"" does not exist!" [KObj];
  (* no arguments *)
  Call $"location.py" 188 Critical $"Do you have the correct source code version for this kernel?" [];
  (* file *)
  Call $"location.py" 201 Critical $"File ""%s"" does not have enough lines of code!" [KObj];
  (* no arguments *)
  Call $"location.py" 202 Critical $"Do you have the correct source code version for this kernel?" [];
  (* file, i + 1 *)
  Call $"location.py" 225 Debug $"Found start of function body, but not the actual signature: %s:%d" [KObj; KInt];
  (* no arguments *)
  Call $"location.py" 234 Warning $"Command ""addr2line"" unavailable, skipping location info extraction" [];
  (* no arguments *)
  Call $"location.py" 251 Warning $"No kernel source available, trusting addr2line output for location info" [];
  (* no arguments *)
  Call $"location.py" 253 Warning $"No kernel source available and no addr2line output, cannot extract location info" [];
  (* sc.origname, sc.symbol.name, *loc *)
  Call $"location.py" 279 Debug $"Location needs adjustment (invalid): %s (%s) -> %s:%s" [KObj; KObj; KObj; KOptInt];
  (* sc.origname, sc.symbol.name, *loc *)
  Call $"location.py" 283 Debug $"Location needs grepping (invalid and sz <= 0): %s (%s) -> %s:%s" [KObj; KObj; KObj; KOptInt];
  (* sc.origname, sc.symbol.name, rel(file), line *)
  Call $"location.py" 301 Debug $"Location needs adjustment (bad): %s (%s) -> %s:%d" [KObj; KObj; KObj; KInt];
  (* sc.origname, sc.symbol.name, rel(file), line *)
  Call $"location.py" 305 Debug $"Location needs grepping (bad and sz <= 0): %s (%s) -> %s:%d" [KObj; KObj; KObj; KInt];
  (* no arguments *)
  Call $"location.py" 329 Warning $"All the locations obtained from addr2line look bad, did you provide the correct KDIR?" [];
  (* no arguments *)
  Call $"location.py" 331 Warning $"Skipping location information extraction" [];
  (* sc.origname, sc.symbol.name, sc.symbol.size - 1, *loc *)
  Call $"location.py" 344 Debug $"Location needs full-range adjustment (invalid): %s (%s+0x%x) -> %s:%s" [KObj; KObj; KInt; KObj; KOptInt];
  (* sc.origname, sc.symbol.name, sc.symbol.size - 1, *loc *)
  Call $"location.py" 349 Debug $"Location needs grepping (invalid and sz <= 1): %s (%s+0x%x) -> %s:%s" [KObj; KObj; KInt; KObj; KOptInt];
  (* sc.origname, sc.symbol.name, sc.symbol.size - 1, rel(file), line *)
  Call $"location.py" 363 Debug $"Location needs full-range adjustment (bad): %s (%s+0x%x) -> %s:%d" [KObj; KObj; KInt; KObj; KInt];
  (* sc.origname, sc.symbol.name, sc.symbol.size - 1, rel(file), line *)
  Call $"location.py" 368 Debug $"Location needs grepping (bad and sz <= 1): %s (%s+0x%x) -> %s:%s" [KObj; KObj; KInt; KObj; KInt];
  (* sc.origname, sc.symbol.name, offset, rel(file), line *)
  Call $"location.py" 399 Debug $"Location found through full-range adjustment: %s (%s+0x%x) -> %s:%d" [KObj; KObj; KInt; KObj; KInt];
  (* sc.origname, sc.symbol.name, *loc *)
  Call $"location.py" 405 Debug $"Location needs grepping (invalid): %s (%s) -> %s:%s" [KObj; KObj; KObj; KOptInt];
  (* sc.origname, sc.symbol.name, rel(file), line *)
  Call $"location.py" 408 Debug $"Location needs grepping (bad): %s (%s) -> %s:%d" [KObj; KObj; KObj; KInt];
  (* no arguments *)
  Call $"location.py" 414 Error $"Cannot grep source code, debug info points outside provided kernel source directory" [];
  (* sc.name, sc.origname *)
  Call $"location.py" 448 Info $"Location could not be found through grepping: %s (orig name %s)" [KObj; KObj];
  (* sc.origname, rel(file), line *)
  Call $"location.py" 458 Warning $"Location found through grepping: %s -> %s:%d" [KObj; KObj; KInt];
  (* file, line *)
  Call $"signature.py" 94 Error $"This doesn't look like a syscall signature: %s:%d" [KObj; KInt];
  (* no arguments *)
  Call $"signature.py" 111 Info $"Kernel has ftrace syscall metadata from FTRACE_SYSCALLS=y" [];
  (* no arguments *)
  Call $"signature.py" 147 Info $"Kernel DOES NOT have ftrace syscall metadata" [];
  (* sc.name *)
  Call $"signature.py" 164 Debug $"Signature NOT found in ftrace metadata: %s" [KObj];
  (* sc.name *)
  Call $"signature.py" 168 Debug $"Signature extracted from ftrace metadata: %s" [KObj];
  (* sc.name, sc.file, sc.line *)
  Call $"signature.py" 172 Debug $"Signature extraction skipped: %s at %s:%d" [KObj; KObj; KInt];
  (* cmd *)
  Call $"utils.py" 189 Critical $"Command not found: %s" [KObj];
  (* cwd *)
  Call $"utils.py" 191 Critical $"Directory does not exist: %s" [KObj];
  (* cwd *)
  Call $"utils.py" 193 Critical $"Path is not a directory: %s" [KObj];
  (* command_argv_to_string(cmd) *)
  Call $"utils.py" 224 Debug $"Running command: %s" [KObj];
  (* command_argv_to_string(cmd) *)
  Call $"utils.py" 254 Debug $"Running command: %s" [KObj];
  (* child.returncode, cmd, err *)
  Call $"utils.py" 274 Critical $"Command returned %d: %s%s" [KInt; KObj; KObj]
].
