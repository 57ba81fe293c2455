import json
P=[]
def p(title, statement, quantifier, why, anchors):
    P.append(dict(id="C%02d"%(len(P)+1), title=title, statement=statement, quantifier=quantifier, why_tests_cant=why, anchors=anchors))

p("Version ranges are half-open and compose",
  "Kernel versions compare lexicographically as Python tuples (so 5.4 < 5.4.0 < 5.4.1 < 5.5). The comparison is a total order, and two adjacent half-open ranges [a,b) and [b,c) with a <= b <= c cover [a,c) with no version in both.",
  "all versions (tuples of any length) and all range boundaries",
  "The set of versions is infinite and the boundary cases (missing third component) are exactly the ones examples miss.",
  ["src/systrack/utils.py:VersionedDict.__getversion","src/systrack/type_hints.py:KernelVersion","src/systrack/kconfig_options.py:VERSION_ZERO"])
p("VersionedDict lookup returns exactly the applicable entries",
  "For a VersionedDict on which version v has not been looked up yet, d[v] contains key k iff some added (vstart, vend, k, val) has vstart <= v < vend; its value is the last value added for k in the range that, among the ranges containing v and holding k, was first used latest.",
  "every finite history of initial entries and add() calls, every version, every key",
  "The precedence between overlapping ranges depends on the whole insertion history.",
  ["src/systrack/utils.py:VersionedDict"])
p("VersionedDict lookups are stable once made",
  "Once d[v] has been evaluated, every later d[v] returns the same mapping, whatever add() calls happen in between; an add() is visible to a later lookup of v iff v was never looked up before that add(). (The docstring claim that add() adds the mapping 'for all versions between vstart and vend' therefore fails after a lookup.)",
  "every interleaving of add() and lookups",
  "A statement about all histories of interleaved operations on a memoising object.",
  ["src/systrack/utils.py:VersionedDict.__getitem__","src/systrack/utils.py:VersionedDict.add"])
p("VersionedList lookup returns exactly the applicable values",
  "For a VersionedList on which v has not been looked up yet, l[v] is the concatenation, range by range in order of first use of each (vstart,vend), of the values added to ranges containing v, in the order they were added; nothing is lost, duplicated or invented.",
  "every finite history of initial entries and add() calls, every version",
  "Quantifies over all histories and version ranges.",
  ["src/systrack/utils.py:VersionedList"])
p("Architecture objects do not influence each other's Kconfig",
  "The Kconfig options an Arch instance asks for depend only on its own class, kernel version, ABI and bitness, not on which other Arch instances were created before in the same process.",
  "every sequence of Arch instantiations in one process",
  "The options live in a dictionary shared by the class, so the effect only shows for particular creation histories.",
  ["src/systrack/arch/x86.py:ArchX86.__init__","src/systrack/arch/arm.py:ArchArm.__init__","src/systrack/arch/arch_base.py:Arch.kconfig"])
p("Prefix and suffix removal is exact",
  "noprefix(s, *pxs) removes exactly the first listed prefix that s has and nothing else; if s has none of them s is returned unchanged. nosuffix does the same for suffixes, provided the matching suffix is not empty. anyprefix/anysuffix hold iff some listed affix matches.",
  "all strings and all lists of affixes",
  "All strings, including empty affixes, affixes longer than the string and overlapping affixes.",
  ["src/systrack/utils.py:noprefix","src/systrack/utils.py:nosuffix","src/systrack/utils.py:anyprefix","src/systrack/utils.py:anysuffix"])
p("Common symbol prefixes are found exactly",
  "common_syscall_symbol_prefixes(names, t) (names non-empty, t >= 1) returns, without repetition and from longest to shortest, exactly the strings of length >= 2 ending in '_' that are a prefix of at least t of the names. On an empty list of names it raises ValueError.",
  "all lists of names and all thresholds",
  "An iff over all candidate prefixes of all name lists.",
  ["src/systrack/syscall.py:common_syscall_symbol_prefixes"])
p("The longest common prefix is the one stripped",
  "Stripping the common prefixes found for the symbol list from a symbol name removes the longest qualifying prefix of that name, if any, and leaves the name unchanged otherwise.",
  "all symbol lists, thresholds and names",
  "Depends on the ordering of an unbounded computed list.",
  ["src/systrack/kernel.py:Kernel.__extract_syscalls","src/systrack/syscall.py:common_syscall_symbol_prefixes","src/systrack/utils.py:noprefix"])
p("Syscall name normalisation only strips known affixes",
  "The normalised name is a contiguous part of the original name: at most one _time32/_time64 suffix, then a 32/64 still left after a final 'time', then at most one of '32_'/'sys32_', then at most one 'old_', then (OABI only) at most one 'oabi_', then at most one prefix of the architecture are removed, in this order, and nothing else changes. A name with none of these affixes is left untouched.",
  "all names and all architectures/ABIs",
  "All strings; interaction between successive affix removals.",
  ["src/systrack/arch/arch_base.py:Arch.normalize_syscall_name","src/systrack/arch/x86.py:ArchX86._normalize_syscall_name","src/systrack/arch/arm.py:ArchArm._normalize_syscall_name","src/systrack/arch/arm64.py:ArchArm64._normalize_syscall_name","src/systrack/arch/mips.py:ArchMips._normalize_syscall_name","src/systrack/arch/powerpc.py:ArchPowerPC._normalize_syscall_name"])
p("Kernel version strings are parsed exactly",
  "version_from_str on '<a>.<b>.<c><rest>' returns (a,b,c) when rest does not start with a digit, on '<a>.<b><rest>' returns (a,b) when rest starts with neither a digit nor '.<digit>', and returns None iff the string does not start with digits, a dot and a digit. A banner is accepted iff it starts with 'Linux version '.",
  "all version numbers and all strings",
  "All numbers and trailing garbage; leading zeros, rc suffixes and missing components.",
  ["src/systrack/kernel.py:Kernel.version_from_str","src/systrack/kernel.py:Kernel.version_from_banner"])
p("The version tag identifies the kernel release",
  "version_tag is 'v<a>.<b>' for version (a,b,0) and 'v<a>.<b>.<c>' otherwise; different three-component versions get different tags and parsing the tag without its 'v' gives back the version (with a zero third component dropped). It is defined for every version the tool can detect. (It is not for versions of two numbers such as 6.1-rc3, and a pre-release such as 6.1.0-rc3 has the tag of its release.)",
  "all detected versions",
  "Injectivity over all triples; the two-component case is a legal KernelVersion that examples never exercise.",
  ["src/systrack/kernel.py:Kernel.version_tag","src/systrack/__main__.py:main","src/systrack/output.py:output_syscalls_json"])
p("ELF identification is read correctly",
  "For every file starting with a well-formed Elf32 or Elf64 header of either endianness, the reported bitness, endianness, e_machine and e_flags are those encoded in the header; files with another EI_CLASS or EI_DATA make the tool exit with status 1.",
  "all header field values, both classes, both byte orders, any file contents after the header",
  "All values of the fields; byte order and class-dependent field offsets.",
  ["src/systrack/elf.py:ELF.__init__"])
p("Symbol table lines are parsed exactly",
  "Each symbol line printed by readelf -Ws (index, hex value, decimal size, type, ..., name) yields one symbol with that value, size, type and name; lines of another shape yield none. When a name occurs several times the last occurrence is the one available, and functions contains the last FUNC occurrence of each name.",
  "all symbol values, sizes, types, names and all sequences of lines",
  "All inputs of a regular-expression parser, all sequences with duplicate names.",
  ["src/systrack/elf.py:ELF.__extract_symbols"])
p("Thumb addresses are normalised",
  "For an ARM image a FUNC symbol with odd address A has real address A-1; every other symbol's real address equals its address, on every machine.",
  "all symbols of all images with addresses below 2^32 for ARM",
  "All addresses, types and machines.",
  ["src/systrack/elf.py:ELF.__extract_symbols"])
p("Virtual addresses map to the right file offset",
  "vaddr_to_file_offset(v) succeeds iff some known section contains v, and then returns that section's file offset plus v's distance from the start of the section; with non-overlapping sections the answer does not depend on the order of the sections. vaddr_read returns the file bytes at that offset.",
  "all section tables, all addresses and sizes",
  "All section layouts and addresses, including boundary addresses.",
  ["src/systrack/elf.py:ELF.vaddr_to_file_offset","src/systrack/elf.py:ELF.vaddr_read","src/systrack/elf.py:ELF.read_symbol"])
p("Reading a C string stops at its terminator",
  "vaddr_read_string(v) returns exactly the bytes from v's file offset up to, not including, the first NUL byte, and it always returns.",
  "all files, offsets and string contents",
  "Termination for every file, including ones with no terminator before end of file.",
  ["src/systrack/elf.py:ELF.vaddr_read_string"])
p("next_symbol returns the nearest following symbol",
  "next_symbol(s) is None iff no symbol has a real address higher than s's; otherwise it returns a symbol whose real address is higher than s's and no symbol lies strictly between the two real addresses.",
  "all symbol tables and all symbols",
  "All symbol tables; interaction of real and raw (Thumb) addresses.",
  ["src/systrack/elf.py:ELF.next_symbol"])
p("Section headers are parsed exactly",
  "Each PROGBITS or NOBITS line printed by readelf -WS whose name consists of word characters and dots yields the section with that name, address, offset and size; sections of other types are ignored; when a name repeats the last one wins.",
  "all section names, addresses, offsets, sizes and sequences of lines",
  "All inputs of a regular-expression scanner over multi-line output.",
  ["src/systrack/elf.py:ELF.sections"])
p("A sized syscall table is read completely",
  "If the table symbol's size is above 0x80 and is a multiple of the pointer size, and the file holds that many bytes from the table's offset on, the extracted list has exactly size / pointer-size entries and entry i is the pointer-sized integer, in the image's byte order, at table offset + i * pointer-size.",
  "all images, byte orders, pointer sizes and table sizes",
  "All table sizes and contents.",
  ["src/systrack/kernel.py:Kernel.__unpack_syscall_table","src/systrack/kernel.py:Kernel.__iter_unpack_vmlinux"])
p("An unsized syscall table is read up to its natural end",
  "If the table symbol's size is at most 0x80, the extracted list is the longest run of consecutive pointers starting at the table such that every one points into the target section and none lies at or beyond the next symbol; reading never continues past the first violation. If the file ends before such a violation is found, an error is raised.",
  "all images, all table contents, all neighbouring symbols",
  "Maximality and stop conditions over all contents.",
  ["src/systrack/kernel.py:Kernel.__unpack_syscall_table"])
p("Function descriptors are followed exactly once",
  "On an architecture with function descriptors, if the first table entry points outside .text the vaddr of entry i is the pointer stored at the descriptor that entry i of the table refers to; if it points inside .text the table entries are used directly.",
  "all images and tables",
  "All images; choice of indirection depends on data.",
  ["src/systrack/kernel.py:Kernel.__syscall_vaddrs_from_syscall_table"])
p("Every reported syscall comes from the table entry it names",
  "Each non-esoteric reported syscall has an index present in the extracted table, a number equal to the architecture's adjusted base + index, and a symbol whose address is the address in that table entry and that is not an ni_syscall symbol.",
  "all images, architectures and ABIs",
  "Provenance of every output row over all inputs.",
  ["src/systrack/kernel.py:Kernel.__extract_syscalls","src/systrack/syscall.py:Syscall"])
p("No implemented table entry is lost",
  "Every table entry whose address has a symbol that is not resolved to ni_syscall, is not skipped for the ABI and is not a dummy, appears in the pre-filter list exactly once, in increasing index order; the final list is a subsequence of it that drops only entries located in kernel/sys_ni.c.",
  "all images, architectures and ABIs",
  "Completeness and order for every table.",
  ["src/systrack/kernel.py:Kernel.__extract_syscalls"])
p("A table entry without symbol does not break the analysis",
  "If some table address has no symbol, the tool reports an error for it and still lists all the other syscalls.",
  "all images with such an entry",
  "A crash path that needs an unusual image.",
  ["src/systrack/kernel.py:Kernel.__extract_syscalls"])
p("Syscall numbers are unique",
  "No two non-esoteric reported syscalls have the same number, for every architecture/ABI/version, including the interleaved PowerPC tables; esoteric numbers never collide with each other.",
  "all images, architectures, ABIs, versions",
  "Injectivity of numbering across all tables.",
  ["src/systrack/kernel.py:Kernel.__extract_syscalls","src/systrack/arch/powerpc.py:ArchPowerPC.adjust_syscall_number","src/systrack/arch/powerpc.py:ArchPowerPC.skip_syscall"])
p("Symbol choice does not depend on symbol-table order",
  "The symbol chosen for each syscall address depends only on the set of symbols, not on the order in which readelf listed them.",
  "all permutations of the symbol table, all images, all architectures",
  "All permutations of an unbounded table, with a non-symmetric preference function.",
  ["src/systrack/kernel.py:Kernel.__extract_syscalls","src/systrack/arch/arch_base.py:Arch.preferred_symbol"])
p("The result does not depend on hash ordering",
  "Python's set iteration order (hash randomisation) does not change which syscalls are reported.",
  "all iteration orders of the ni_syscall set, all images",
  "A nondeterminism property: one run shows one order.",
  ["src/systrack/kernel.py:Kernel.__extract_syscalls"])
p("An ni_syscall address is never claimed by another symbol",
  "If an address in the table belongs to an ni_syscall function then entries holding this address are never reported, however many other symbols alias that address.",
  "all images, all alias sets, all architectures",
  "All alias sets and orders.",
  ["src/systrack/kernel.py:Kernel.__extract_syscalls","src/systrack/arch/arch_base.py:Arch.symbol_is_ni_syscall"])
p("ni_syscall symbols are recognised exactly",
  "A symbol counts as ni_syscall iff it is a FUNC whose name ends in 'sys_ni_syscall' or 'compat_ni_syscall' and does not start with '_eil_addr_', '__cfi_' or '__pfx_'.",
  "all symbols",
  "All strings.",
  ["src/systrack/arch/arch_base.py:Arch.symbol_is_ni_syscall"])
p("A symbol preference always picks one of the aliases",
  "preferred_symbol(a, b) returns a or b. For two symbols of which exactly one is 'compat', it follows the compat flag on the architectures that use it; otherwise it prefers the symbol carrying the selected ABI's marker when exactly one of the two carries it, whatever the order of the arguments; then names in lower case, then names beginning with sys_, then compat_sys_. So no symbol at the address of a reported syscall ranks higher than the one it is reported with.",
  "all pairs of symbols, all architectures/ABIs",
  "All pairs of names against six different preference functions.",
  ["src/systrack/arch/arch_base.py:Arch.preferred_symbol","src/systrack/arch/arch_base.py:Arch.prefer_compat","src/systrack/arch/x86.py:ArchX86.preferred_symbol","src/systrack/arch/powerpc.py:ArchPowerPC.preferred_symbol","src/systrack/arch/arm64.py:ArchArm64.preferred_symbol","src/systrack/arch/riscv.py:ArchRiscV.preferred_symbol"])
p("Only non-implemented syscalls are dropped by reference code matching",
  "A syscall is dropped for matching the reference ni_syscall only if it shares its address or its code is byte-for-byte the complete, non-empty code of that function.",
  "all images, all syscalls",
  "All code contents, including zero-sized reference symbols.",
  ["src/systrack/arch/arch_base.py:Arch.is_dummy_syscall","src/systrack/kernel.py:Kernel.__extract_syscalls"])
p("x86 dummy detection matches exactly the documented code",
  "On x86 a syscall is a dummy iff its code is, optionally after endbr64/endbr32, exactly mov eax/rax,-ENOSYS/-EINVAL followed by ret, jmp rel8 or jmp rel32 filling the symbol, with total symbol size from 6 to 16.",
  "all byte strings",
  "All machine-code byte strings up to the size limit.",
  ["src/systrack/arch/x86.py:ArchX86._dummy_syscall_code"])
p("MIPS dummy detection matches exactly the documented code",
  "On MIPS a syscall is a dummy iff its symbol is 8 bytes and holds jr ra; li v0,-22 or -89 in the image's byte order.",
  "all byte strings, both byte orders",
  "All 8-byte strings.",
  ["src/systrack/arch/mips.py:ArchMips._dummy_syscall_code"])
p("ARM dummy detection matches exactly the documented code",
  "On ARM a syscall is a dummy iff its symbol is 6 bytes and holds mvn.w r0,#21/#37; bx lr.",
  "all byte strings",
  "All byte strings.",
  ["src/systrack/arch/arm.py:ArchArm._dummy_syscall_code"])
p("PowerPC dummy detection is sound",
  "On PowerPC a syscall is a dummy iff its instructions, after dropping the listed harmless ones, are exactly li r3,-ENOSYS; blr and its stack adjustments match; whenever that is so, running the code returns -ENOSYS.",
  "all instruction sequences of any length",
  "All code sequences; soundness is about executing them.",
  ["src/systrack/arch/powerpc.py:ArchPowerPC._dummy_syscall_code"])
p("PowerPC fast endian switch is detected exactly",
  "The esoteric switch_endian entry (number 0x1ebe) is reported iff the ABI is ppc64, the kernel is older than 6.12 and the code at the system call vector contains cmpdi r0,0x1ebe whose first occurrence is immediately followed by a beq that goes to mfsrr1, then xori, mtsrr1 and rfid in this order.",
  "all code sequences, versions and ABIs",
  "All instruction sequences.",
  ["src/systrack/arch/powerpc.py:ArchPowerPC.extract_esoteric_syscalls"])
p("ARM esoteric syscalls are listed exactly when present",
  "On ARM the private syscalls base+0xf0001..5 (and get_tls from v4.15) are reported iff the image has an arm_syscall function; with base 0x900000 for OABI and 0 for EABI.",
  "all images and versions",
  "All images and versions.",
  ["src/systrack/arch/arm.py:ArchArm.extract_esoteric_syscalls"])
p("x86 ABI filtering is exact",
  "x64 never reports numbers 512-547; x32 before v5.4 never reports the 64-only numbers and from v5.4 reports everything in its table; ia32 drops 113 and 166 on 64-bit kernels and 380-382 on 32-bit kernels; nothing else is dropped.",
  "all numbers, ABIs, versions, bitness",
  "All numbers and versions.",
  ["src/systrack/arch/x86.py:ArchX86.skip_syscall"])
p("Interleaved PowerPC tables are split correctly",
  "Before v5.0 on 64-bit PowerPC, the ppc32 ABI reports exactly the odd table indices and the other ABIs exactly the even ones, each with number index // 2; from v5.0 and on 32-bit kernels every index is kept with its own number.",
  "all indices, ABIs, versions",
  "All indices and versions.",
  ["src/systrack/arch/powerpc.py:ArchPowerPC.skip_syscall","src/systrack/arch/powerpc.py:ArchPowerPC.adjust_syscall_number"])
p("Symbolic emulation of the x86 dispatcher terminates",
  "The analysis of {x64,x32,ia32}_sys_call terminates for every instruction sequence.",
  "all decoded functions, including ones with backward jumps and loops",
  "Termination of a fixpoint iteration for all programs.",
  ["src/systrack/arch/x86.py:ArchX86.__emulate_syscall_switch"])
p("Symbolic emulation over-approximates every real execution",
  "For every dispatcher made of supported instructions in which every conditional jump follows its comparison in the same basic block, if executing it with syscall number nr < 0x1000 reaches a branch out of the function to address A, then nr is in the set computed for A.",
  "all dispatcher programs, all syscall numbers, all execution lengths",
  "All programs and all executions.",
  ["src/systrack/arch/x86.py:ArchX86.__emulate_syscall_switch"])
p("Symbolic emulation never attributes an impossible number",
  "Under the same conditions, every number in the set computed for an out-of-function address A reaches A when the dispatcher is executed with it.",
  "all dispatcher programs, all numbers",
  "All programs; reachability both ways.",
  ["src/systrack/arch/x86.py:ArchX86.__emulate_syscall_switch"])
p("Dispatcher extraction is order independent and functional",
  "The mapping extracted from the dispatcher does not depend on the iteration order of the set of candidate branches; it maps each number to at most one address; targets reachable by more than 100 numbers are left out; and any conflict, empty set or second default case makes the result empty.",
  "all candidate sets and all iteration orders",
  "All set iteration orders.",
  ["src/systrack/arch/x86.py:ArchX86.extract_syscall_vaddrs"])
p("Architecture detection is unambiguous and self-consistent",
  "At most one architecture class recognises an image, the one recognised only depends on e_machine, and the instance built from an automatic detection always accepts the very image it was detected from.",
  "all images (machine, bitness, byte order, flags, symbols)",
  "All header values and symbol tables.",
  ["src/systrack/arch/__init__.py:arch_from_vmlinux","src/systrack/kernel.py:Kernel.__init__","src/systrack/arch/powerpc.py:ArchPowerPC.matches"])
p("ABI detection reports exactly the ABIs present",
  "The ABIs detected for an image are the native one plus each optional one whose marker symbols are present; an ARM image without an OABI table is detected as EABI when its ELF flags carry an EABI version and as OABI otherwise.",
  "all images",
  "All symbol tables and flags.",
  ["src/systrack/arch/x86.py:ArchX86.match","src/systrack/arch/arm.py:ArchArm.match","src/systrack/arch/mips.py:ArchMips.match","src/systrack/arch/powerpc.py:ArchPowerPC.match","src/systrack/arch/riscv.py:ArchRiscV.match","src/systrack/arch/arm64.py:ArchArm64.match"])
p("Architecture names and aliases agree",
  "--arch is case-insensitive; every alias designates the same architecture, ABI and bitness as its main name; every supported name builds an instance with consistent bitness/ABI attributes for every kernel version its class supports, and fails only for versions that are too old.",
  "all names, all case variants, all versions",
  "All case variants and versions.",
  ["src/systrack/arch/__init__.py:SUPPORTED_ARCHS","src/systrack/arch/__init__.py:ARCH_ALIASES","src/systrack/__main__.py:main"])
p("The selected syscall table matches ABI and version",
  "The table symbol looked up is the one documented for the ABI and kernel version (e.g. x32_sys_call_table from v5.4 and none from v6.9 on x86 unless sys_call_table exists and the ABI is native; compat_sys_call_table for ppc32 on 64-bit from v5.0; sys_oabi_call_table for OABI on a compat kernel).",
  "all versions, ABIs and images",
  "All versions and symbol tables.",
  ["src/systrack/arch/x86.py:ArchX86.__init__","src/systrack/arch/x86.py:ArchX86.adjust_abi","src/systrack/arch/arm.py:ArchArm.adjust_abi","src/systrack/arch/powerpc.py:ArchPowerPC.__init__","src/systrack/arch/mips.py:ArchMips.__init__"])
p("Signatures survive the trip through source text",
  "For a SYSCALL_DEFINEn or asmlinkage definition laid out over any number of lines split after commas, the extracted signature is exactly the list of its parameters, in order, with __user removed and blanks normalised; a SYSCALL_DEFINEn always yields n entries.",
  "all parameter lists and all line layouts",
  "All layouts and parameter lists (round-trip law).",
  ["src/systrack/signature.py:syscall_signature_from_source","src/systrack/signature.py:parse_signature"])
p("Signature extraction always terminates",
  "syscall_signature_from_source returns (or reports an error) for every source file and line.",
  "all files and line numbers",
  "Termination for all files, including truncated ones.",
  ["src/systrack/signature.py:syscall_signature_from_source"])
p("64-bit argument macros expand to two halves in byte order",
  "Each SC_ARG64/arg_u32p/compat_arg_u64[_dual] field expands to two u32 parameters, high half first on big-endian and low half first on little-endian images; all other fields are unchanged and in place.",
  "all field lists, both byte orders",
  "All field lists.",
  ["src/systrack/signature.py:expand_macros","src/systrack/signature.py:parse_signature"])
p("ftrace metadata yields the recorded signatures",
  "For well-formed syscall_metadata records in memory, the signature found for a name is the list of recorded type/name pairs in order, types and names separated by one space except after '*'; the last record for a name wins.",
  "all metadata tables, both byte orders and pointer sizes",
  "All memory contents.",
  ["src/systrack/signature.py:extract_syscall_signatures"])
p("Signatures come from the best available source",
  "A syscall with a good location gets its signature from source; otherwise from ftrace metadata by original name, then by normalised name; otherwise none; esoteric syscalls keep theirs.",
  "all lists of syscalls and metadata tables",
  "Decision over all combinations.",
  ["src/systrack/signature.py:extract_syscall_signatures"])
p("Line adjustment finds the enclosing definition",
  "adjust_line(file, line) never moves forward; if the enclosing block opens with a lone '{' line before any earlier lone '}' line, it returns the nearest preceding line that starts with neither blank nor '#', or the '{' line if there is none; otherwise it returns the line unchanged; it exits iff the file is missing or too short.",
  "all files and line numbers",
  "All source texts.",
  ["src/systrack/location.py:adjust_line"])
p("A location marked good really is a definition of that syscall",
  "After location extraction with kernel sources, every syscall marked good has a file and line whose text matches a definition of its original or normalised name.",
  "all answers of addr2line, all source trees, all syscall lists",
  "Invariant over a four-stage pipeline with arbitrary external answers.",
  ["src/systrack/location.py:extract_syscall_locations","src/systrack/location.py:good_location"])
p("Every syscall without good location is eventually grepped",
  "If extraction reaches the grep stage, the syscalls handed to grep are exactly those without a good location (plus none twice), except esoteric ones whose debug location is valid; the stage is skipped only when all locations need adjustment, debug paths lie outside KDIR, or no sources/addr2line are available.",
  "all answers of addr2line, all syscall lists",
  "Conservation over all pipeline paths.",
  ["src/systrack/location.py:extract_syscall_locations"])
p("Full-range adjustment tries every inner address",
  "The full-range retry queries every address from vaddr+1 to vaddr+size-2 of the symbol, as documented, and never queries an empty list.",
  "all symbol addresses and sizes",
  "Off-by-one over all sizes.",
  ["src/systrack/location.py:extract_syscall_locations"])
p("Grepping answers once per syscall with a best-priority line",
  "grep_kernel_sources yields each requested syscall exactly once; a syscall reported as not found matches none of the lines left over, and a found one matches the line it is given; lines under arch/ (and compat/32-bit ones where relevant) are tried first; no line serves two syscalls.",
  "all grep outputs and syscall lists",
  "All matching relations between lines and syscalls.",
  ["src/systrack/location.py:grep_kernel_sources"])
p("Definitions are matched by full syscall name",
  "good_definition accepts 'SYSCALL_DEFINEn(<ident>' followed by a non-word character exactly when <ident> is the given name; it never accepts a definition of a syscall whose name merely starts with, or is a prefix of, the given one.",
  "all identifiers and all definition lines",
  "All pairs of identifiers.",
  ["src/systrack/location.py:good_definition"])
p("Path remapping is faithful",
  "maybe_rel(p, root) / remapping replaces the root prefix and only it: root / maybe_rel(p, root) = p when p is under root, p is returned unchanged otherwise; with --remap a path under ORIG_KDIR becomes the same path under KDIR.",
  "all paths",
  "All paths.",
  ["src/systrack/utils.py:maybe_rel","src/systrack/location.py:smart_addr2line","src/systrack/location.py:extract_syscall_locations"])
p("addr2line output is paired with the right syscalls",
  "For well-formed addr2line output the i-th answer is used for the i-th queried address; '??' files give no location; a file with a line number gives that file and line.",
  "all outputs",
  "All outputs, including decorated line numbers.",
  ["src/systrack/location.py:addr2line","src/systrack/location.py:smart_addr2line"])
p("Requested config options are translated exactly",
  "edit_config runs scripts/config once with, for each option NAME=VALUE in order, -e/-d/-m NAME for y/n/m and --set-val NAME VALUE otherwise (the first '=' separates name and value), and exits if that command fails; with no options it runs nothing, and if an option has no '=' it raises ValueError without running anything.",
  "all option lists",
  "All option values, including ones containing '='.",
  ["src/systrack/kconfig.py:edit_config"])
p("Dependency checking never changes what is applied",
  "edit_config_check_deps applies all requested options regardless of dependencies, reports an error for a dependency iff its effective value (requested, else configured, else default) differs from the wanted one and is not excused (wanted n and unset; HAVE_/ARCH_HAS_ wanted y and unset or n, which gives a warning instead). Before applying, it only runs queries.",
  "all option maps, configurations and default values",
  "All combinations of options, configs and answers.",
  ["src/systrack/kconfig.py:edit_config_check_deps"])
p(".config files are parsed exactly",
  "parse_config returns for each CONFIG_NAME=VALUE line (comments and blank lines ignored) NAME -> VALUE, the last line winning; a file with any other line is rejected: ValueError if the first such line has no '=', else AssertionError.",
  "all config files",
  "All files (round-trip law).",
  ["src/systrack/kconfig.py:parse_config"])
p("Kconfig dependencies of a syscall prefer the architecture's own table",
  "The kconfig reported for a syscall is CONFIG_ plus the option of the arch-specific table for that version if there is one, else of the global table, else none; the normalised name is tried before the original one.",
  "all names, versions and architectures",
  "All combinations of tables.",
  ["src/systrack/kconfig.py:kconfig_syscall_deps","src/systrack/kernel.py:Kernel.__extract_syscalls"])
p("The kernel Makefile is always restored",
  "After build(--disable-opt) ends, however it ends (success, failure of any attempt, interruption with normal interpreter exit at any point), the top-level Makefile has its original content.",
  "all Makefiles, all outcomes of make, all interruption points",
  "All crash points of a multi-step protocol.",
  ["src/systrack/kernel.py:Kernel.build","src/systrack/kernel.py:Kernel.__try_set_optimization_level","src/systrack/kernel.py:Kernel.__restore_makefile"])
p("Disabling optimisations changes only the optimisation digit",
  "When the Makefile has a matching KBUILD_CFLAGS += -O2 line, exactly the digit 2 of the first such line is replaced by the level and nothing else changes; when it has none, the file is left untouched and an ordinary build is done.",
  "all Makefiles",
  "All file contents.",
  ["src/systrack/kernel.py:Kernel.__try_set_optimization_level"])
p("Build attempts are made in the documented order",
  "build(True) tries -O0, then -O1, then the unmodified level, stopping at the first success; it returns only if the last attempted make succeeded and exits otherwise; build(False) only does the unmodified build.",
  "all outcomes of make, all Makefiles",
  "All outcome sequences.",
  ["src/systrack/kernel.py:Kernel.build"])
p("The detected version is never stale across clean/configure/build",
  "version is computed once and reused until clean, configure or build, after which it is recomputed from the same source; it comes from vmlinux when one is given, else from make.",
  "all sequences of operations",
  "All histories.",
  ["src/systrack/kernel.py:Kernel.version","src/systrack/kernel.py:Kernel.clean","src/systrack/kernel.py:Kernel.configure"])
p("Verbosity options behave as documented",
  "Messages of level L are emitted iff L >= 30 + 10*(q' - v) with q' = max(q-1,0) when v = 0 and 0 otherwise; -v dominates -q; progress output is suppressed iff -q is given without -v; -qqqq suppresses every message.",
  "all counts of -q and -v",
  "All counts.",
  ["src/systrack/__main__.py:setup_logging"])
p("The command line never runs an operation it lacks inputs for",
  "main never configures, builds or checks out without KDIR, never configures or builds without a known ARCH, and every such misuse ends with status 1 before any side effect; any invocation ends with an exit status rather than an unhandled exception.",
  "all argument combinations and environments",
  "All option combinations.",
  ["src/systrack/__main__.py:main"])
p("Text output is an aligned table",
  "In the text output every row is padded so that column i starts at the same offset in all rows, every syscall has exactly one row in order, and a blank line precedes a row iff its number exceeds the previous one by more than one; no column is wider than its widest cell.",
  "all lists of syscalls with non-negative numbers and CONFIG_ options",
  "All lists and cell widths.",
  ["src/systrack/output.py:output_syscalls_text"])
p("JSON output is faithful",
  "The JSON object of a syscall has exactly the documented keys; symbol is the symbol name, file is the path string, kconfig is the option without CONFIG_; everything else is unchanged, so syscalls that differ in more than the details of their symbol give different objects. The whole document has exactly the documented entries and one object per syscall in order. The format asked for is the one printed; one that is not implemented ends the run with status 1.",
  "all syscalls, all results",
  "All values (injectivity).",
  ["src/systrack/output.py:SyscallJSONEncoder.default"])
p("Durations are printed losslessly",
  "format_duration(s) prints hours, minutes and seconds that add up to s rounded to the nearest integer (ties to even), with minutes and seconds below 60, omitting leading zero units.",
  "all non-negative durations",
  "All durations (round-trip law).",
  ["src/systrack/utils.py:format_duration"])
p("Logged commands can be pasted back into a shell",
  "command_argv_to_string(cmd) is a string that a POSIX shell splits back into exactly the given arguments.",
  "all argument vectors",
  "All strings (round-trip law).",
  ["src/systrack/utils.py:command_argv_to_string"])
p("Location extraction does not crash",
  "If addr2line answers every address with a file and line, a file alone or nothing, and the search through the sources names existing lines, location extraction ends normally or exits because a source file does not match the debugging information; it never raises an exception.",
  "all answers of addr2line, all source trees, all syscall lists",
  "All combinations of answers for all addresses of a function.",
  ["src/systrack/location.py:extract_syscall_locations"])
p("The edited configuration is the one the kernel is built with",
  "configure() runs only make and scripts/config, always on one configuration file, and reads no other file; that file, as seen by scripts/config and by systrack, is the .config that make uses.",
  "all source and output directories, working directories, commands and files",
  "All combinations of absolute and relative paths; a test uses one layout.",
  ["src/systrack/kernel.py:Kernel.configure", "src/systrack/kernel.py:Kernel.make", "src/systrack/kconfig.py:run_config_script", "src/systrack/kconfig.py:parse_config"])
p("Requested options never contradict each other",
  "For every kernel version and every architecture object, the debugging, compatibility, more-syscalls and architecture options all have the form NAME=VALUE and no two of them ask for different values of one name; no dependency of a requested option asks for a value that another requested option contradicts.",
  "all versions and architecture objects",
  "All versions, including those between two releases; ranges of the tables overlap in many ways.",
  ["src/systrack/kconfig_options.py", "src/systrack/kconfig.py:kconfig_debugging", "src/systrack/arch/x86.py:ArchX86.__init__"])
p("Configuring performs the steps in order and stops at the first failure",
  "A configuration that ends normally has run make for each base target, then applied the debugging, compatibility, more-syscalls and architecture options in this order, each followed by make olddefconfig (oldconfig before 3.7, answered with newlines); the first command that fails is the last one run, and systrack exits.",
  "all kernels, options, and behaviours of the commands",
  "All histories of command results.",
  ["src/systrack/kernel.py:Kernel.configure", "src/systrack/kernel.py:Kernel.sync_config", "src/systrack/utils.py:ensure_command"])
p("HTML output is a rectangular table",
  "Every result can be printed as HTML; all rows of the table, including the heading, cover the same number of columns: six plus the largest number of parameters.",
  "all syscall lists and versions",
  "All signature lengths, including lists without any signature.",
  ["src/systrack/output.py:output_syscalls_html", "src/systrack/templates/syscall_table.html"])
p("The result shown is the result extracted",
  "When main analyses an image and ends with status 0 it prints exactly one document, last, made from all the syscalls that were extracted, in their order and unchanged but for their files, which are relative to KDIR when they lie below it and --absolute-paths is not given; the image is VMLINUX, or KDIR/vmlinux, and the version and architecture are those of the image; the totals reported before are those of the list. When no syscalls are found nothing is printed and the status is not 0.",
  "all arguments, images and environments",
  "All option combinations and results.",
  ["src/systrack/__main__.py:main", "src/systrack/utils.py:maybe_rel", "src/systrack/output.py:output_syscalls"])
p("Sources are checked out once, at the right reference",
  "A run checks sources out at most once, in KDIR and before anything else is done to them; the reference is the one given or, for --checkout auto, the tag of the version found in the image, and then before syscalls are extracted.",
  "all arguments and environments",
  "All option combinations and versions.",
  ["src/systrack/__main__.py:main", "src/systrack/__main__.py:git_checkout", "src/systrack/kernel.py:Kernel.version_tag"])
p("Registers shown are those of the ABI",
  "The register of the syscall number and the registers of the arguments reported for an ABI are those of its calling convention.",
  "all architecture objects, versions and images",
  "All ABIs of all architectures on all kernels, including compatibility ABIs.",
  ["src/systrack/arch/x86.py:ArchX86.__init__", "src/systrack/arch/arm64.py:ArchArm64", "src/systrack/arch/mips.py:ArchMips.__init__"])
p("Configuration starts from the targets of the architecture",
  "The make targets configure() starts from are those that exist for the class, word size and version of the kernel: multi_v7_defconfig for arm since 3.7, rv32_defconfig from 5.1 and defconfig with 32-bit.config from 6.8 for 32-bit riscv, and the default configuration of the class otherwise.",
  "all architecture objects and versions",
  "All versions, including those next to a limit.",
  ["src/systrack/arch/arm.py:ArchArm.__init__", "src/systrack/arch/riscv.py:ArchRiscV.__init__"])
p("The version of an image is that of its banner",
  "The version read from an image is the one in the text that linux_banner stands for, whether the symbol has a size or its text ends at the next NUL; an image without this symbol has no version.",
  "all images",
  "All images, with and without symbol sizes.",
  ["src/systrack/kernel.py:Kernel.__version_from_vmlinux"])
p("Image and architecture agree",
  "A Kernel object made from an image has the machine and word size of the image. Without an architecture name it has the only ABI the image supports, and images of several ABIs, of unknown machines or without symbols are refused; with a name, images of another machine or word size, or not supporting the ABI, are refused with KernelArchError.",
  "all images, names and versions",
  "All images and names.",
  ["src/systrack/kernel.py:Kernel.__init__"])
p("Names are the symbols without decorations",
  "A reported syscall of the table is named after its symbol: without the wrapper prefixes and suffixes of the architecture, then without the longest prefix ending in an underscore that at least 20 implemented entries of the table share, and its normalised name is the documented one of that.",
  "all images, architecture objects and versions",
  "All combinations of symbol names in all tables.",
  ["src/systrack/kernel.py:Kernel.__extract_syscalls", "src/systrack/arch/arch_base.py:Arch.translate_syscall_symbol_name", "src/systrack/syscall.py:common_syscall_symbol_prefixes"])
p("The source search finds every definition",
  "Without ripgrep, the search reports exactly the lines that may be definitions of syscalls in the C files below the kernel sources, leaving out hidden files, the directories without syscalls and other architectures, each line once with file and number. A syscall searched for gets the file and line of such a definition, and every syscall that has a definition there gets one.",
  "all source trees, architecture objects and lists of syscalls",
  "All trees and all ways definitions can be written and shared by syscalls.",
  ["src/systrack/location.py:grep_file", "src/systrack/location.py:grep_recursive", "src/systrack/location.py:grep_kernel_sources"])
p("Doubtful results are announced",
  "After locations and signatures are extracted, every syscall dropped because its location is still kernel/sys_ni.c is announced with that location; when sources are given, every reported syscall of the table whose location is not known to be its definition is announced with a hint on the kind of file; and every reported syscall without location (if the image has line numbers) or without signature (if it has line numbers or syscall metadata) is announced. Nothing else is announced, each once and in table order.",
  "all images, source directories and annotated syscalls",
  "All combinations of locations, signatures and debug information.",
  ["src/systrack/kernel.py:Kernel.__extract_syscalls", "src/systrack/kernel.py:Kernel.can_extract_location_info", "src/systrack/kernel.py:Kernel.can_extract_signature_info", "src/systrack/elf.py:ELF.has_debug_info"])
p("Every result can be printed",
  "Whatever image, debug information and sources syscalls are extracted from, the result has what printing needs: indices, numbers and lines are not negative, files are normalised paths, Kconfig options appear once. So the text output of a non-empty result never fails and keeps its layout, and the JSON objects of any two results tell their syscalls apart in every field.",
  "all images, architecture objects, debug information and source trees",
  "All results of all extractions.",
  ["src/systrack/kernel.py:Kernel.__extract_syscalls", "src/systrack/output.py:output_syscalls_text", "src/systrack/output.py:SyscallJSONEncoder", "src/systrack/location.py:extract_syscall_locations", "src/systrack/arch/x86.py:ArchX86.extract_syscall_vaddrs"])
p("Syscalls outside the table are reported as documented",
  "The private syscalls of ARM and the endian switch of PowerPC follow the syscalls of the table in the result, in the order of their numbers, each without index, with its documented number, name, Kconfig option and parameters and with the symbol that serves it. Each one that the image has is reported unless its function is a dummy, and no other syscall is marked as being outside the table.",
  "all images, architecture objects, debug information and source trees",
  "All images and kernel versions with and without these syscalls.",
  ["src/systrack/kernel.py:Kernel.__extract_syscalls", "src/systrack/arch/arm.py:ArchArm.extract_esoteric_syscalls", "src/systrack/arch/powerpc.py:ArchPowerPC.extract_esoteric_syscalls", "src/systrack/signature.py:extract_syscall_signatures"])
p("The JSON document can be read back",
  "The text written for --format json is valid JSON whatever the names, paths and parameters contain. Reading it gives exactly the documented entries, one object per syscall in order, members sorted by key. Two extractions that are written with the same text agree in everything shown: version, architecture, ABI, calling convention and all fields of all syscalls.",
  "all results of extractions, and all JSON values",
  "All characters in names and paths, all numbers of syscalls and nestings.",
  ["src/systrack/output.py:output_syscalls_json", "src/systrack/output.py:SyscallJSONEncoder"])
p("The configuration asks for the word size and the ABIs of the architecture",
  "The options a new architecture object asks for include, in each kernel version, exactly those options about the word size and the ABIs that a kernel of that word size serving the ABIs takes: 32BIT/64BIT, COMPAT, MIPS32_O32, MIPS32_N32, PPC64, SPU_FS, IA32_EMULATION, X86_X32 and its successor, OABI_COMPAT and the like, each with the right value and only in the versions that have it.",
  "all architecture classes, ABIs, bitnesses and kernel versions",
  "All kernel versions: a wrong bound or branch shows only with particular versions.",
  ["src/systrack/arch/mips.py:ArchMips.__init__", "src/systrack/arch/powerpc.py:ArchPowerPC.__init__", "src/systrack/arch/riscv.py:ArchRiscV.__init__", "src/systrack/arch/x86.py:ArchX86.__init__", "src/systrack/arch/arm.py:ArchArm.__init__", "src/systrack/arch/arm64.py:ArchArm64"])
p("The HTML page can be read back",
  "The page written for --format html is well-formed HTML whatever the names, paths and parameters contain: every tag is closed in order and every value appears as text. A reader finds the title, the headings and one table: a heading row with the registers of the calling convention, then one row per syscall in order with number, name, symbol, location, Kconfig option and parameters, doubtful values marked and relative locations linked to the version. Two extractions with the same page agree in all that is shown.",
  "all results of extractions, and all lists of syscalls with non-negative numbers",
  "All characters in names and paths and all combinations of missing values.",
  ["src/systrack/output.py:output_syscalls_html", "src/systrack/templates/syscall_table.html"])
p("Sorting the HTML table",
  "A click on the heading of the number, name, symbol, location or Kconfig column of the HTML page puts the same rows in the order of that column, rows that agree in it staying in their order and keeping their highlighting; the order is ascending unless that is the order marked, and exactly the clicked heading is marked with it. No sequence of clicks raises an error or loses a row, and at any time the rows of an extraction have the order that is marked, also before the first click.",
  "all lists of syscalls and all sequences of clicks",
  "All orders of rows and all sequences of clicks; numbers are compared through a hexadecimal reading of their decimal text.",
  ["src/systrack/templates/syscall_table.js", "src/systrack/templates/syscall_table.html"])
p("Every log message can be formatted",
  "Each call of the logging module passes as many arguments as its message has places, each of a kind its place accepts, so that the message shown is the text of the source with the arguments in their places, in order; numbers shown can be read back. No message is lost to an error of formatting.",
  "all logging calls of the program and all values of their arguments",
  "Most messages appear only in unusual situations; logging swallows the error of a message that cannot be formatted.",
  ["src/systrack/kernel.py:Kernel.__unpack_syscall_table", "src/systrack/kernel.py:Kernel.__extract_syscalls", "src/systrack/location.py:extract_syscall_locations", "src/systrack/arch/x86.py:ArchX86", "src/systrack/utils.py:ensure_command"])
p("Commands that fail end the run with a reason",
  "ensure_command returns the output of a command only if it was started and ended with status 0. If its directory is missing or is no directory, or if the command is not found, that very reason is logged and the exit status is 127; if it fails, its status, the command and its standard error, indented, are logged and the exit status is 1. run_command returns the status, 127 if the command did not start. The compiler version is the first line the compiler prints.",
  "all commands, directories and behaviours of the programs run",
  "Requires missing directories, missing programs and failing programs with all kinds of output.",
  ["src/systrack/utils.py:do_popen", "src/systrack/utils.py:run_command", "src/systrack/utils.py:ensure_command", "src/systrack/utils.py:gcc_version", "src/systrack/utils.py:git_checkout"])
p("Locations and signatures of the result are those of the sources",
  "A table syscall of the result whose function, according to the debug information, lies in a definition of it in the sources has the file and the starting line of that definition as its location, is marked good and is never dropped, and its signature is the parameters declared there. Whatever way a location marked good was found, it is a definition of the syscall, and the signature is what is declared there.",
  "all images, architectures, debug information, source trees and results of extractions",
  "All layouts of source files and all ways debug information can point into them.",
  ["src/systrack/kernel.py:Kernel.__extract_syscalls", "src/systrack/location.py:extract_syscall_locations", "src/systrack/location.py:adjust_line", "src/systrack/location.py:good_location", "src/systrack/signature.py:extract_syscall_signatures", "src/systrack/signature.py:syscall_signature_from_source"])
p("The analysis of sound input succeeds",
  "The extraction ends with a result, no exception and no early exit, if: every address of the table has a symbol and one is implemented; the code of these symbols is in the file; addr2line answers with lines that exist; the search through the sources names existing lines; definitions at those lines are written in the usual form; and the recorded metadata is readable. Without sources the debug information need not fit anything.",
  "all images, tables, debug information, source trees and search results meeting these conditions",
  "The absence of failures has to hold for every combination of image, debug information and sources.",
  ["src/systrack/kernel.py:Kernel.__extract_syscalls", "src/systrack/location.py:extract_syscall_locations", "src/systrack/signature.py:extract_syscall_signatures", "src/systrack/signature.py:syscall_signature_from_source", "src/systrack/arch/arch_base.py:Arch.is_dummy_syscall"])
p("The analysis ends",
  "The extraction goes on for ever only for one of these reasons: addr2line or the search through the sources does not end; addr2line is run without an address (see C101) and waits; a string of the recorded metadata has no NUL byte up to the end of the file; a definition of a syscall in the sources is not followed by a line that ends with a closing parenthesis. All other loops (table, emulation, going up from a line, matching) end on every input.",
  "all images, architectures, debug information and source trees",
  "Termination on all inputs cannot be observed; the loops end at conditions on data that may never occur.",
  ["src/systrack/kernel.py:Kernel.__extract_syscalls", "src/systrack/kernel.py:Kernel.__unpack_syscall_table", "src/systrack/elf.py:ELF.vaddr_read_string", "src/systrack/signature.py:syscall_signature_from_source", "src/systrack/location.py:adjust_line", "src/systrack/arch/x86.py:ArchX86"])
p("The command line is understood as written",
  "The settings main works with are those the words of the command line ask for: options as letters, alone or joined, or as names, in full or shortened as long as one option only is meant; values in the same word or the next; the last value counts, --quiet and --verbose are counted; at most one other word, the image. Help and version are shown exactly when their option is reached. Everything else ends with status 2 before anything is done. All settings with a format there is can be asked for, whatever the names of files are.",
  "all lists of words",
  "The number of ways to write, join, shorten and order options is unbounded.",
  ["src/systrack/__main__.py:parse_args", "src/systrack/__main__.py:main"])
p("addr2line is never run without an address",
  "Whenever addr2line is run it is given at least one address; otherwise it would read addresses from the standard input it shares with the program, and a run in a terminal would wait for ever. So what addr2line does without addresses has no influence on the result.",
  "all lists of syscalls, debug information and source trees",
  "It takes a function of one particular size whose debug information is useless and a terminal as standard input.",
  ["src/systrack/location.py:addr2line", "src/systrack/location.py:extract_syscall_locations", "src/systrack/kernel.py:Kernel.__extract_syscalls"])
p("Names are taken literally by the regexps",
  "The texts of all regexps of the program are well-formed and mean what they are meant to: sections and symbols of readelf's output, versions, the level in the Makefile, lines that may be definitions. Put into a regexp, the name of a syscall matches only itself, so that the check of a location accepts exactly the definitions of that name, and no name makes compiling the regexp fail.",
  "all architectures, names, texts and lines",
  "Names go into the regexps unescaped; the texts differ with architecture and name, and each can match unboundedly many lines.",
  ["src/systrack/location.py:good_definition", "src/systrack/location.py:grep_kernel_sources", "src/systrack/elf.py:ELF", "src/systrack/kernel.py:Kernel.version_from_str", "src/systrack/arch/mips.py:ArchMips", "src/systrack/arch/arm.py:ArchArm"])
p("What a run prints comes from the files of the computer",
  "A run that ends with status 0 in JSON format prints one document, last. Read back it has the documented keys, the version of the image that was asked for, and one object for each reported syscall, no number twice; each of them is an entry of the table in the file (or what the descriptor there holds, or where the dispatcher of an x86 image without a table leads), its symbol is one that readelf lists at that address, and where its location counts as good, the file there has a definition of it at that line, with the parameters reported. No entry is missing, unless it is not implemented, of another ABI, judged a dummy or located in sys_ni.c. If the image is complete and its sources, readelf and addr2line answer, a run ends without an error, also with the own search through the files in place of ripgrep; its status is 1 only if no function is known for syscalls that are not implemented, all entries are excused in that way, or the dispatcher is unclear (C105). (In HTML format it fails if no parameters are known, C79.)",
  "all command lines and computers (files, programs and what they print)",
  "Joins all steps from the words of the command line to the text printed; no test can range over images, sources and outputs of other programs.",
  ["src/systrack/__main__.py:main", "src/systrack/kernel.py:Kernel.__extract_syscalls", "src/systrack/elf.py:ELF", "src/systrack/location.py:extract_syscall_locations", "src/systrack/signature.py:extract_syscall_signatures", "src/systrack/output.py:output_syscalls_json", "src/systrack/utils.py:ensure_command"])
p("Both searches look through the same files",
  "The fallback search of the kernel sources, with ripgrep or in Python, looks through the same files: C sources outside the directories that are left out and outside the directories of other architectures. (It does not: the last glob given to ripgrep, *.c, takes precedence over those that exclude directories, so that it also reads hidden C sources and those directly in an excluded directory, such as lib/kobject.c. It reads all that the other search reads, and nothing else.)",
  "all architectures, all relative file names, all sets of ignored names",
  "which files are read depends on the tree and on whether ripgrep is installed; tests have one of either.",
  ["src/systrack/location.py:grep_kernel_sources", "src/systrack/location.py:grep_recursive"])
p("A dispatcher with one default case gives its syscalls",
  "If the decoded x86 dispatcher ({x64,x32,ia32}_sys_call) is as compilers make them, all its exits are taken by some number and only one address is reached by more than 100 numbers (the default case), then the extraction gives all other numbers with their addresses. (It does not if two different instructions leave for the default case, such as a conditional and an unconditional jump: then nothing is given. That, an exit which no number takes, and a dispatcher without other cases are the only ways to an empty result.)",
  "all images and dispatchers, all orders of sets, all equalities of instructions",
  "depends on how a compiler arranges the jumps of a function; tests see the kernels at hand.",
  ["src/systrack/arch/x86.py:ArchX86.extract_syscall_vaddrs", "src/systrack/arch/x86.py:ArchX86.__emulate_syscall_switch"])
p("Only the line of a definition must be text",
  "As the comment in grep_file says, sources may contain bytes that are no UTF-8; they do no harm as long as they are not in a line that is looked at. The search raises only if a line that matches is not UTF-8, the check of a location only if its line is not, reading a string from the image only if the string is not; a signature depends on the lines from the definition to its closing parenthesis. Text that is UTF-8 is decoded as RFC 3629 says, and lines are found however the file is cut into chunks. (The signature does not keep to it: the file is opened as text, so that a bad byte anywhere before the end of the signature, or after it in the same chunk, raises UnicodeDecodeError, and no syscall gets a signature.)",
  "all files, all ways to cut them into chunks, all lines; all images and addresses",
  "Sources with such bytes are rare, the chunks depend on the system, and a test shows one combination of both.",
  ["src/systrack/signature.py:syscall_signature_from_source", "src/systrack/signature.py:extract_syscall_signatures", "src/systrack/location.py:grep_file", "src/systrack/location.py:good_location", "src/systrack/elf.py:ELF.vaddr_read_string"])
p("The list of architectures tells the truth",
  "The table shown for --arch help lists exactly the names that --arch takes (in any case), and nothing else is taken; the refusal says so and where to look. In every row the architecture, the word sizes of kernel and ABI and the name of the ABI are those of the names in it, in every version; the aliases of a row mean the same. The build targets, with the footnotes, are those that are built in each version, and footnote 1 holds where it stands. (Footnote 2 is wrong for v3.7: the footnote says defconfig up to v3.7, the code uses multi_v7_defconfig from v3.7 on. Footnote 1 holds for arm64 as well but is missing there.)",
  "all names, all versions, all rows of the text",
  "Text and code are kept in step by hand; the versions are unbounded.",
  ["src/systrack/arch/__init__.py:arch_from_name", "src/systrack/arch/__init__.py:SUPPORTED_ARCHS_HELP", "src/systrack/__main__.py:main", "src/systrack/arch/arm.py:ArchArm"])
p("Preparing sources does all its steps and stops at the first that fails",
  "With --clean, --config or --build, a run that ends with status 0 has done, in this order and nothing else but messages: the git checkout and the output directory if asked for, make distclean, and for --config and --build the base targets of the architecture, then the options for debugging, for compatibility, for more syscalls and of the architecture itself, each followed by a make that brings the configuration up to date, and for --build make vmlinux (up to three times with --disable-opt, the last time with success). Every make has the arguments for the architecture, the toolchain, the output directory, the jobs and the debug prefix. Options are those for the version that make tells. A command that fails ends the program with a status other than 0 and nothing follows, unless it was an attempt with another level of optimisation. If no command fails and the files it reads are there, the program ends with status 0. However the program ends, the Makefile is what it was after the checkout, but for the ends of lines; without those three options nothing but git changes anything. Unless quiet, the last message of a build that succeeds says how long it took since the message that it starts, to the nearest second.",
  "all arguments, all computers (files, programs, what they print, their status, as functions of all that was done before), all outcomes",
  "There is no end of what git, make and scripts/config may print or how they may fail; tests cannot run them all.",
  ["src/systrack/__main__.py:main", "src/systrack/kernel.py:Kernel.clean", "src/systrack/kernel.py:Kernel.configure", "src/systrack/kernel.py:Kernel.build", "src/systrack/kernel.py:Kernel.make", "src/systrack/kernel.py:Kernel.sync_config", "src/systrack/kconfig.py:edit_config", "src/systrack/kconfig.py:edit_config_check_deps", "src/systrack/utils.py:ensure_command"])
p("A run that fails says why",
  "A run that ends with a status other than 0 prints, as the last thing it does, the message for the reason: an unknown architecture; a missing --kdir, --arch or vmlinux; an output path that is no directory or cannot be created; no compiler or no readelf; a version that cannot be found; an image without symbols, of an unknown machine, of several ABIs (all of them are listed) or of another architecture than the one asked for. The reason given is true, and no two reasons share a message. Otherwise a command that it ran failed (C96), or nothing was found: then the critical message logged tells why (no table, no .opd section, nothing readable in the table, no not-implemented function). (With -q nothing of this is said but the critical messages; and if all the syscalls of the table were located in kernel/sys_ni.c, nothing is said at all.)",
  "all arguments, all machines (files, programs, images as functions of what was done before), all images and syscall tables",
  "The combinations of arguments, files, images and failing programs have no end, and a test of messages repeats their text.",
  ["src/systrack/__main__.py:main", "src/systrack/__main__.py:instantiate_kernel", "src/systrack/kernel.py:Kernel.__init__", "src/systrack/kernel.py:Kernel.__extract_syscalls", "src/systrack/kernel.py:Kernel.__syscall_vaddrs_from_syscall_table"])
p("Symbolic links do not mislead the search",
  "The fallback search in Python, in sources with symbolic links, ends, reads each C source once, finds the definitions of the architecture and reads nothing of other architectures. (It ends, because the system follows a limited number of links, and it enters no directory that is to be left out, by whatever name. But a link into a directory of another architecture makes it read what is there, a link to a directory above makes it read the same files again once for each link the system follows, and a second name for the directory of the architecture, in arch/, leaves that directory out. A link to itself in arch/ raises an exception.)",
  "all file systems with directories, files and links (also in circles, to anywhere), all architectures, any limit of links",
  "Links can be anywhere, and combine: the paths that lead to a file are not even as finite as the files. Kernel trees have links, but not these.",
  ["src/systrack/location.py:grep_recursive", "src/systrack/location.py:grep_kernel_sources"])

p("Only readelf is needed to analyse an image",
  "As the README says, readelf is the only program that an analysis needs: a run without it ends with status 127, and with it and a complete image a run ends with a result (or says that there is none, C109) though no other program is there. The result depends on no program but readelf and, where they are there, addr2line and ripgrep: on computers with the same files that agree on these, all runs are the same, whatever compiler, make or git they have. Without addr2line no document says where a syscall is defined: file and line are null in all of them. (With --format html addr2line is not optional: without places no parameters are known unless the image has metadata, and the run fails with a ValueError, C79.)",
  "all computers (files, programs, what they print), all arguments that ask for an analysis, all images",
  "Tests run on one computer, with the programs that it has.",
  ["src/systrack/__main__.py:main", "src/systrack/location.py:extract_syscall_locations", "src/systrack/location.py:grep_kernel_sources", "src/systrack/elf.py:ELF.__extract_symbols", "src/systrack/output.py:output_syscalls_html"])

p("Both searches find the same places",
  "With the same lines of the sources found, the place of every syscall is the same whether ripgrep found them or the search in Python. (It is the same unless a line has a character, such as a form feed, that str.splitlines takes for the end of a line though grep does not: then a definition may be missed, or the program may fail with a ValueError, with ripgrep only.)",
  "all kernels, all paths and texts of lines, all lists of syscalls",
  "Tests have sources without control characters, and seldom run both searches on the same sources.",
  ["src/systrack/location.py:grep_kernel_sources", "src/systrack/location.py:grep_file"])
p("Help texts are wrapped to 65 columns without breaking words",
  "wrap_help breaks each row of a text that is not blank by itself into lines of at most 65 columns, without breaking words, and never earlier than needed; only a line that cannot be broken is longer. Tabs become blanks up to the next multiple of 8; otherwise nothing but blanks at the places where lines are broken and blank rows is left out or put in. No line ends with a blank, and only the first of a row may start with one. (Compounds are broken after a hyphen, and words before and after a dash, though the doc string says otherwise; the texts of this program have no such place at the end of a line.)",
  "all texts",
  "There are more texts than the sixteen of the program, and those never show the places where words are broken.",
  ["src/systrack/__main__.py:wrap_help", "src/systrack/__main__.py:parse_args"])

p("Links in the page lead to the definition",
  "In the HTML page, a location with a path relative to the sources has one link, and it leads, as browsers read links, to that line of that file in that version on elixir.bootlin.com; other locations have none. (The path is not escaped: a file with #, ?, a backslash, a tab or newline, an escape such as %25 or a component .. in its path, or with a blank at its end and no line, is not where its link leads. All others are, among them all made of letters, digits, dots and dashes.)",
  "all pages: all syscalls, files, lines and versions",
  "A test compares the text of a link with one written the same way; that it leads elsewhere shows only for names no kernel has had so far.",
  ["src/systrack/templates/syscall_table.html", "src/systrack/output.py:output_syscalls_html", "src/systrack/kernel.py:Kernel.version_tag"])

p("Options that do not concern what is found do not change it",
  "Whatever -q and -v are given, a run ends in the same way and does and prints the same; only the messages differ. The syscalls that an analysis finds do not depend on --format and --absolute-paths: the documents show the same syscalls, with other paths at most, and what can be shown in some format can be shown as text. The options for preparing sources (--cross, --out, --disable-opt) have no effect on an analysis; without KDIR, --absolute-paths and --remap have none.",
  "all computers whose programs and files do not depend on what was said on standard error, all pairs of command lines",
  "It compares pairs of runs of the whole program, for all inputs.",
  ["src/systrack/__main__.py:main", "src/systrack/__main__.py:setup_logging", "src/systrack/output.py:output_syscalls"])

p("Symbols that have nothing to do with syscalls do not change the result",
  "If symbols are taken away from an image, then what the program does, says and prints and its status stay the same, provided that each of them is needless: its name is not one of those that tell the version, the ABIs, the metadata or the extra syscalls, nor that of the table or dispatcher, it is no ni_syscall function, no syscall starts at its address, and it is not the only sign of where a table without size (or the PowerPC system call handler) ends.",
  "all images, all sets of symbols taken away that meet the conditions, all computers and command lines",
  "Images have more than a hundred thousand symbols; tests use a handful of images as they are.",
  ["src/systrack/kernel.py:Kernel.__extract_syscalls", "src/systrack/elf.py:ELF.next_symbol", "src/systrack/arch/arch_base.py:Arch.match", "src/systrack/signature.py:extract_syscall_signatures"])

p("Bytes that are no text are an exception, others are kept",
  "If a program run for its output prints bytes that are not UTF-8, the call is an exception, whether the program succeeds or not; this includes its standard error when only the status is wanted, but not what goes to the console. Otherwise the result is the text with all line ends made LF. A banner, a configuration or a Makefile with such a byte, be it in a comment or behind the version, is an exception too, for the Makefile before anything is written or built. A Makefile that is text in any characters and ends its lines with LF is byte for byte the same after build(), whatever make does.",
  "all bytes, all programs and their status, all outcomes of make",
  "Tests have ASCII outputs and files; compilers and user names with other characters depend on locale and computer.",
  ["src/systrack/utils.py:ensure_command", "src/systrack/kernel.py:Kernel.version_from_banner", "src/systrack/kconfig.py:parse_config", "src/systrack/kernel.py:Kernel.__try_set_optimization_level", "src/systrack/kernel.py:Kernel.__restore_makefile"])

p("A dispatcher that cannot be read is announced",
  "If the syscalls of an x86 kernel without a table cannot be read off its dispatcher, one error is logged that says why, and no syscalls are found: the function is missing or too small; no register is compared; or it is about the first instruction that cannot be followed (after a TEST, a TEST or CMP of other operands, another register, another conditional jump, a jump without a comparison before it, a call into the function); or a target that no number reaches, a second default case, or a number with two targets. What the error says is true, and if it could be said it is. Without an error the result is empty only if there is at most one exit and it is the default case. For a dispatcher as compilers make them only an unreached target or a second default case are possible.",
  "all images, all lists of instructions, all orders of the set of candidates",
  "Errors show on kernels built by compilers that nobody has tried; which of several is logged depends on the whole function.",
  ["src/systrack/arch/x86.py:ArchX86.__emulate_syscall_switch", "src/systrack/arch/x86.py:ArchX86.extract_syscall_vaddrs"])

p("Preparing a debug message does not change what is found",
  "The instructions of an x86 dispatcher that the emulation does not follow are counted and sorted for a message, whatever the verbosity. If instructions can be compared by <, this changes nothing. If they cannot (iced_x86 defines only == and !=), a dispatcher that is understood ends in a TypeError exactly if two different such instructions, NOPs aside, occur equally often; otherwise nothing changes.",
  "all images, all lists of instructions, all equalities of instructions",
  "It depends on how often each instruction stands in the dispatchers of kernels built by other compilers or with other options.",
  ["src/systrack/arch/x86.py:ArchX86.__emulate_syscall_switch"])

with open('/verif/properties.jsonl','w') as f:
    for x in P: f.write(json.dumps(x)+"\n")
print(len(P))
