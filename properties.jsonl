{"id": "C01", "title": "Version ranges are half-open and compose", "statement": "Kernel versions compare lexicographically as Python tuples (so 5.4 < 5.4.0 < 5.4.1 < 5.5). The comparison is a total order, and two adjacent half-open ranges [a,b) and [b,c) with a <= b <= c cover [a,c) with no version in both.", "quantifier": "all versions (tuples of any length) and all range boundaries", "why_tests_cant": "The set of versions is infinite and the boundary cases (missing third component) are exactly the ones examples miss.", "anchors": ["src/systrack/utils.py:VersionedDict.__getversion", "src/systrack/type_hints.py:KernelVersion", "src/systrack/kconfig_options.py:VERSION_ZERO"]}
{"id": "C02", "title": "VersionedDict lookup returns exactly the applicable entries", "statement": "For a VersionedDict on which version v has not been looked up yet, d[v] contains key k iff some added (vstart, vend, k, val) has vstart <= v < vend; its value is the last value added for k in the range that, among the ranges containing v and holding k, was first used latest.", "quantifier": "every finite history of initial entries and add() calls, every version, every key", "why_tests_cant": "The precedence between overlapping ranges depends on the whole insertion history.", "anchors": ["src/systrack/utils.py:VersionedDict"]}
{"id": "C03", "title": "VersionedDict lookups are stable once made", "statement": "Once d[v] has been evaluated, every later d[v] returns the same mapping, whatever add() calls happen in between; an add() is visible to a later lookup of v iff v was never looked up before that add(). (The docstring claim that add() adds the mapping 'for all versions between vstart and vend' therefore fails after a lookup.)", "quantifier": "every interleaving of add() and lookups", "why_tests_cant": "A statement about all histories of interleaved operations on a memoising object.", "anchors": ["src/systrack/utils.py:VersionedDict.__getitem__", "src/systrack/utils.py:VersionedDict.add"]}
{"id": "C04", "title": "VersionedList lookup returns exactly the applicable values", "statement": "For a VersionedList on which v has not been looked up yet, l[v] is the concatenation, range by range in order of first use of each (vstart,vend), of the values added to ranges containing v, in the order they were added; nothing is lost, duplicated or invented.", "quantifier": "every finite history of initial entries and add() calls, every version", "why_tests_cant": "Quantifies over all histories and version ranges.", "anchors": ["src/systrack/utils.py:VersionedList"]}
{"id": "C05", "title": "Architecture objects do not influence each other's Kconfig", "statement": "The Kconfig options an Arch instance asks for depend only on its own class, kernel version, ABI and bitness, not on which other Arch instances were created before in the same process.", "quantifier": "every sequence of Arch instantiations in one process", "why_tests_cant": "The options live in a dictionary shared by the class, so the effect only shows for particular creation histories.", "anchors": ["src/systrack/arch/x86.py:ArchX86.__init__", "src/systrack/arch/arm.py:ArchArm.__init__", "src/systrack/arch/arch_base.py:Arch.kconfig"]}
{"id": "C06", "title": "Prefix and suffix removal is exact", "statement": "noprefix(s, *pxs) removes exactly the first listed prefix that s has and nothing else; if s has none of them s is returned unchanged. nosuffix does the same for suffixes, provided the matching suffix is not empty. anyprefix/anysuffix hold iff some listed affix matches.", "quantifier": "all strings and all lists of affixes", "why_tests_cant": "All strings, including empty affixes, affixes longer than the string and overlapping affixes.", "anchors": ["src/systrack/utils.py:noprefix", "src/systrack/utils.py:nosuffix", "src/systrack/utils.py:anyprefix", "src/systrack/utils.py:anysuffix"]}
{"id": "C07", "title": "Common symbol prefixes are found exactly", "statement": "common_syscall_symbol_prefixes(names, t) (names non-empty, t >= 1) returns, without repetition and from longest to shortest, exactly the strings of length >= 2 ending in '_' that are a prefix of at least t of the names. On an empty list of names it raises ValueError.", "quantifier": "all lists of names and all thresholds", "why_tests_cant": "An iff over all candidate prefixes of all name lists.", "anchors": ["src/systrack/syscall.py:common_syscall_symbol_prefixes"]}
{"id": "C08", "title": "The longest common prefix is the one stripped", "statement": "Stripping the common prefixes found for the symbol list from a symbol name removes the longest qualifying prefix of that name, if any, and leaves the name unchanged otherwise.", "quantifier": "all symbol lists, thresholds and names", "why_tests_cant": "Depends on the ordering of an unbounded computed list.", "anchors": ["src/systrack/kernel.py:Kernel.__extract_syscalls", "src/systrack/syscall.py:common_syscall_symbol_prefixes", "src/systrack/utils.py:noprefix"]}
{"id": "C09", "title": "Syscall name normalisation only strips known affixes", "statement": "The normalised name is a contiguous part of the original name: at most one _time32/_time64 suffix, then a 32/64 still left after a final 'time', then at most one of '32_'/'sys32_', then at most one 'old_', then (OABI only) at most one 'oabi_', then at most one prefix of the architecture are removed, in this order, and nothing else changes. A name with none of these affixes is left untouched.", "quantifier": "all names and all architectures/ABIs", "why_tests_cant": "All strings; interaction between successive affix removals.", "anchors": ["src/systrack/arch/arch_base.py:Arch.normalize_syscall_name", "src/systrack/arch/x86.py:ArchX86._normalize_syscall_name", "src/systrack/arch/arm.py:ArchArm._normalize_syscall_name", "src/systrack/arch/arm64.py:ArchArm64._normalize_syscall_name", "src/systrack/arch/mips.py:ArchMips._normalize_syscall_name", "src/systrack/arch/powerpc.py:ArchPowerPC._normalize_syscall_name"]}
{"id": "C10", "title": "Kernel version strings are parsed exactly", "statement": "version_from_str on '<a>.<b>.<c><rest>' returns (a,b,c) when rest does not start with a digit, on '<a>.<b><rest>' returns (a,b) when rest starts with neither a digit nor '.<digit>', and returns None iff the string does not start with digits, a dot and a digit. A banner is accepted iff it starts with 'Linux version '.", "quantifier": "all version numbers and all strings", "why_tests_cant": "All numbers and trailing garbage; leading zeros, rc suffixes and missing components.", "anchors": ["src/systrack/kernel.py:Kernel.version_from_str", "src/systrack/kernel.py:Kernel.version_from_banner"]}
{"id": "C11", "title": "The version tag identifies the kernel release", "statement": "version_tag is 'v<a>.<b>' for version (a,b,0) and 'v<a>.<b>.<c>' otherwise; different three-component versions get different tags and parsing the tag without its 'v' gives back the version (with a zero third component dropped). It is defined for every version the tool can detect. (It is not for versions of two numbers such as 6.1-rc3, and a pre-release such as 6.1.0-rc3 has the tag of its release.)", "quantifier": "all detected versions", "why_tests_cant": "Injectivity over all triples; the two-component case is a legal KernelVersion that examples never exercise.", "anchors": ["src/systrack/kernel.py:Kernel.version_tag", "src/systrack/__main__.py:main", "src/systrack/output.py:output_syscalls_json"]}
{"id": "C12", "title": "ELF identification is read correctly", "statement": "For every file starting with a well-formed Elf32 or Elf64 header of either endianness, the reported bitness, endianness, e_machine and e_flags are those encoded in the header; files with another EI_CLASS or EI_DATA make the tool exit with status 1.", "quantifier": "all header field values, both classes, both byte orders, any file contents after the header", "why_tests_cant": "All values of the fields; byte order and class-dependent field offsets.", "anchors": ["src/systrack/elf.py:ELF.__init__"]}
{"id": "C13", "title": "Symbol table lines are parsed exactly", "statement": "Each symbol line printed by readelf -Ws (index, hex value, decimal size, type, ..., name) yields one symbol with that value, size, type and name; lines of another shape yield none. When a name occurs several times the last occurrence is the one available, and functions contains the last FUNC occurrence of each name.", "quantifier": "all symbol values, sizes, types, names and all sequences of lines", "why_tests_cant": "All inputs of a regular-expression parser, all sequences with duplicate names.", "anchors": ["src/systrack/elf.py:ELF.__extract_symbols"]}
{"id": "C14", "title": "Thumb addresses are normalised", "statement": "For an ARM image a FUNC symbol with odd address A has real address A-1; every other symbol's real address equals its address, on every machine.", "quantifier": "all symbols of all images with addresses below 2^32 for ARM", "why_tests_cant": "All addresses, types and machines.", "anchors": ["src/systrack/elf.py:ELF.__extract_symbols"]}
{"id": "C15", "title": "Virtual addresses map to the right file offset", "statement": "vaddr_to_file_offset(v) succeeds iff some known section contains v, and then returns that section's file offset plus v's distance from the start of the section; with non-overlapping sections the answer does not depend on the order of the sections. vaddr_read returns the file bytes at that offset.", "quantifier": "all section tables, all addresses and sizes", "why_tests_cant": "All section layouts and addresses, including boundary addresses.", "anchors": ["src/systrack/elf.py:ELF.vaddr_to_file_offset", "src/systrack/elf.py:ELF.vaddr_read", "src/systrack/elf.py:ELF.read_symbol"]}
{"id": "C16", "title": "Reading a C string stops at its terminator", "statement": "vaddr_read_string(v) returns exactly the bytes from v's file offset up to, not including, the first NUL byte, and it always returns.", "quantifier": "all files, offsets and string contents", "why_tests_cant": "Termination for every file, including ones with no terminator before end of file.", "anchors": ["src/systrack/elf.py:ELF.vaddr_read_string"]}
{"id": "C17", "title": "next_symbol returns the nearest following symbol", "statement": "next_symbol(s) is None iff no symbol has a real address higher than s's; otherwise it returns a symbol whose real address is higher than s's and no symbol lies strictly between the two real addresses.", "quantifier": "all symbol tables and all symbols", "why_tests_cant": "All symbol tables; interaction of real and raw (Thumb) addresses.", "anchors": ["src/systrack/elf.py:ELF.next_symbol"]}
{"id": "C18", "title": "Section headers are parsed exactly", "statement": "Each PROGBITS or NOBITS line printed by readelf -WS whose name consists of word characters and dots yields the section with that name, address, offset and size; sections of other types are ignored; when a name repeats the last one wins.", "quantifier": "all section names, addresses, offsets, sizes and sequences of lines", "why_tests_cant": "All inputs of a regular-expression scanner over multi-line output.", "anchors": ["src/systrack/elf.py:ELF.sections"]}
{"id": "C19", "title": "A sized syscall table is read completely", "statement": "If the table symbol's size is above 0x80 and is a multiple of the pointer size, and the file holds that many bytes from the table's offset on, the extracted list has exactly size / pointer-size entries and entry i is the pointer-sized integer, in the image's byte order, at table offset + i * pointer-size.", "quantifier": "all images, byte orders, pointer sizes and table sizes", "why_tests_cant": "All table sizes and contents.", "anchors": ["src/systrack/kernel.py:Kernel.__unpack_syscall_table", "src/systrack/kernel.py:Kernel.__iter_unpack_vmlinux"]}
{"id": "C20", "title": "An unsized syscall table is read up to its natural end", "statement": "If the table symbol's size is at most 0x80, the extracted list is the longest run of consecutive pointers starting at the table such that every one points into the target section and none lies at or beyond the next symbol; reading never continues past the first violation. If the file ends before such a violation is found, an error is raised.", "quantifier": "all images, all table contents, all neighbouring symbols", "why_tests_cant": "Maximality and stop conditions over all contents.", "anchors": ["src/systrack/kernel.py:Kernel.__unpack_syscall_table"]}
{"id": "C21", "title": "Function descriptors are followed exactly once", "statement": "On an architecture with function descriptors, if the first table entry points outside .text the vaddr of entry i is the pointer stored at the descriptor that entry i of the table refers to; if it points inside .text the table entries are used directly.", "quantifier": "all images and tables", "why_tests_cant": "All images; choice of indirection depends on data.", "anchors": ["src/systrack/kernel.py:Kernel.__syscall_vaddrs_from_syscall_table"]}
{"id": "C22", "title": "Every reported syscall comes from the table entry it names", "statement": "Each non-esoteric reported syscall has an index present in the extracted table, a number equal to the architecture's adjusted base + index, and a symbol whose address is the address in that table entry and that is not an ni_syscall symbol.", "quantifier": "all images, architectures and ABIs", "why_tests_cant": "Provenance of every output row over all inputs.", "anchors": ["src/systrack/kernel.py:Kernel.__extract_syscalls", "src/systrack/syscall.py:Syscall"]}
{"id": "C23", "title": "No implemented table entry is lost", "statement": "Every table entry whose address has a symbol that is not resolved to ni_syscall, is not skipped for the ABI and is not a dummy, appears in the pre-filter list exactly once, in increasing index order; the final list is a subsequence of it that drops only entries located in kernel/sys_ni.c.", "quantifier": "all images, architectures and ABIs", "why_tests_cant": "Completeness and order for every table.", "anchors": ["src/systrack/kernel.py:Kernel.__extract_syscalls"]}
{"id": "C24", "title": "A table entry without symbol does not break the analysis", "statement": "If some table address has no symbol, the tool reports an error for it and still lists all the other syscalls.", "quantifier": "all images with such an entry", "why_tests_cant": "A crash path that needs an unusual image.", "anchors": ["src/systrack/kernel.py:Kernel.__extract_syscalls"]}
{"id": "C25", "title": "Syscall numbers are unique", "statement": "No two non-esoteric reported syscalls have the same number, for every architecture/ABI/version, including the interleaved PowerPC tables; esoteric numbers never collide with each other.", "quantifier": "all images, architectures, ABIs, versions", "why_tests_cant": "Injectivity of numbering across all tables.", "anchors": ["src/systrack/kernel.py:Kernel.__extract_syscalls", "src/systrack/arch/powerpc.py:ArchPowerPC.adjust_syscall_number", "src/systrack/arch/powerpc.py:ArchPowerPC.skip_syscall"]}
{"id": "C26", "title": "Symbol choice does not depend on symbol-table order", "statement": "The symbol chosen for each syscall address depends only on the set of symbols, not on the order in which readelf listed them.", "quantifier": "all permutations of the symbol table, all images, all architectures", "why_tests_cant": "All permutations of an unbounded table, with a non-symmetric preference function.", "anchors": ["src/systrack/kernel.py:Kernel.__extract_syscalls", "src/systrack/arch/arch_base.py:Arch.preferred_symbol"]}
{"id": "C27", "title": "The result does not depend on hash ordering", "statement": "Python's set iteration order (hash randomisation) does not change which syscalls are reported.", "quantifier": "all iteration orders of the ni_syscall set, all images", "why_tests_cant": "A nondeterminism property: one run shows one order.", "anchors": ["src/systrack/kernel.py:Kernel.__extract_syscalls"]}
{"id": "C28", "title": "An ni_syscall address is never claimed by another symbol", "statement": "If an address in the table belongs to an ni_syscall function then entries holding this address are never reported, however many other symbols alias that address.", "quantifier": "all images, all alias sets, all architectures", "why_tests_cant": "All alias sets and orders.", "anchors": ["src/systrack/kernel.py:Kernel.__extract_syscalls", "src/systrack/arch/arch_base.py:Arch.symbol_is_ni_syscall"]}
{"id": "C29", "title": "ni_syscall symbols are recognised exactly", "statement": "A symbol counts as ni_syscall iff it is a FUNC whose name ends in 'sys_ni_syscall' or 'compat_ni_syscall' and does not start with '_eil_addr_', '__cfi_' or '__pfx_'.", "quantifier": "all symbols", "why_tests_cant": "All strings.", "anchors": ["src/systrack/arch/arch_base.py:Arch.symbol_is_ni_syscall"]}
{"id": "C30", "title": "A symbol preference always picks one of the aliases", "statement": "preferred_symbol(a, b) returns a or b. For two symbols of which exactly one is 'compat', it follows the compat flag on the architectures that use it; otherwise it prefers the symbol carrying the selected ABI's marker when exactly one of the two carries it, whatever the order of the arguments; then names in lower case, then names beginning with sys_, then compat_sys_. So no symbol at the address of a reported syscall ranks higher than the one it is reported with.", "quantifier": "all pairs of symbols, all architectures/ABIs", "why_tests_cant": "All pairs of names against six different preference functions.", "anchors": ["src/systrack/arch/arch_base.py:Arch.preferred_symbol", "src/systrack/arch/arch_base.py:Arch.prefer_compat", "src/systrack/arch/x86.py:ArchX86.preferred_symbol", "src/systrack/arch/powerpc.py:ArchPowerPC.preferred_symbol", "src/systrack/arch/arm64.py:ArchArm64.preferred_symbol", "src/systrack/arch/riscv.py:ArchRiscV.preferred_symbol"]}
{"id": "C31", "title": "Only non-implemented syscalls are dropped by reference code matching", "statement": "A syscall is dropped for matching the reference ni_syscall only if it shares its address or its code is byte-for-byte the complete, non-empty code of that function.", "quantifier": "all images, all syscalls", "why_tests_cant": "All code contents, including zero-sized reference symbols.", "anchors": ["src/systrack/arch/arch_base.py:Arch.is_dummy_syscall", "src/systrack/kernel.py:Kernel.__extract_syscalls"]}
{"id": "C32", "title": "x86 dummy detection matches exactly the documented code", "statement": "On x86 a syscall is a dummy iff its code is, optionally after endbr64/endbr32, exactly mov eax/rax,-ENOSYS/-EINVAL followed by ret, jmp rel8 or jmp rel32 filling the symbol, with total symbol size from 6 to 16.", "quantifier": "all byte strings", "why_tests_cant": "All machine-code byte strings up to the size limit.", "anchors": ["src/systrack/arch/x86.py:ArchX86._dummy_syscall_code"]}
{"id": "C33", "title": "MIPS dummy detection matches exactly the documented code", "statement": "On MIPS a syscall is a dummy iff its symbol is 8 bytes and holds jr ra; li v0,-22 or -89 in the image's byte order.", "quantifier": "all byte strings, both byte orders", "why_tests_cant": "All 8-byte strings.", "anchors": ["src/systrack/arch/mips.py:ArchMips._dummy_syscall_code"]}
{"id": "C34", "title": "ARM dummy detection matches exactly the documented code", "statement": "On ARM a syscall is a dummy iff its symbol is 6 bytes and holds mvn.w r0,#21/#37; bx lr.", "quantifier": "all byte strings", "why_tests_cant": "All byte strings.", "anchors": ["src/systrack/arch/arm.py:ArchArm._dummy_syscall_code"]}
{"id": "C35", "title": "PowerPC dummy detection is sound", "statement": "On PowerPC a syscall is a dummy iff its instructions, after dropping the listed harmless ones, are exactly li r3,-ENOSYS; blr and its stack adjustments match; whenever that is so, running the code returns -ENOSYS.", "quantifier": "all instruction sequences of any length", "why_tests_cant": "All code sequences; soundness is about executing them.", "anchors": ["src/systrack/arch/powerpc.py:ArchPowerPC._dummy_syscall_code"]}
{"id": "C36", "title": "PowerPC fast endian switch is detected exactly", "statement": "The esoteric switch_endian entry (number 0x1ebe) is reported iff the ABI is ppc64, the kernel is older than 6.12 and the code at the system call vector contains cmpdi r0,0x1ebe whose first occurrence is immediately followed by a beq that goes to mfsrr1, then xori, mtsrr1 and rfid in this order.", "quantifier": "all code sequences, versions and ABIs", "why_tests_cant": "All instruction sequences.", "anchors": ["src/systrack/arch/powerpc.py:ArchPowerPC.extract_esoteric_syscalls"]}
{"id": "C37", "title": "ARM esoteric syscalls are listed exactly when present", "statement": "On ARM the private syscalls base+0xf0001..5 (and get_tls from v4.15) are reported iff the image has an arm_syscall function; with base 0x900000 for OABI and 0 for EABI.", "quantifier": "all images and versions", "why_tests_cant": "All images and versions.", "anchors": ["src/systrack/arch/arm.py:ArchArm.extract_esoteric_syscalls"]}
{"id": "C38", "title": "x86 ABI filtering is exact", "statement": "x64 never reports numbers 512-547; x32 before v5.4 never reports the 64-only numbers and from v5.4 reports everything in its table; ia32 drops 113 and 166 on 64-bit kernels and 380-382 on 32-bit kernels; nothing else is dropped.", "quantifier": "all numbers, ABIs, versions, bitness", "why_tests_cant": "All numbers and versions.", "anchors": ["src/systrack/arch/x86.py:ArchX86.skip_syscall"]}
{"id": "C39", "title": "Interleaved PowerPC tables are split correctly", "statement": "Before v5.0 on 64-bit PowerPC, the ppc32 ABI reports exactly the odd table indices and the other ABIs exactly the even ones, each with number index // 2; from v5.0 and on 32-bit kernels every index is kept with its own number.", "quantifier": "all indices, ABIs, versions", "why_tests_cant": "All indices and versions.", "anchors": ["src/systrack/arch/powerpc.py:ArchPowerPC.skip_syscall", "src/systrack/arch/powerpc.py:ArchPowerPC.adjust_syscall_number"]}
{"id": "C40", "title": "Symbolic emulation of the x86 dispatcher terminates", "statement": "The analysis of {x64,x32,ia32}_sys_call terminates for every instruction sequence.", "quantifier": "all decoded functions, including ones with backward jumps and loops", "why_tests_cant": "Termination of a fixpoint iteration for all programs.", "anchors": ["src/systrack/arch/x86.py:ArchX86.__emulate_syscall_switch"]}
{"id": "C41", "title": "Symbolic emulation over-approximates every real execution", "statement": "For every dispatcher made of supported instructions in which every conditional jump follows its comparison in the same basic block, if executing it with syscall number nr < 0x1000 reaches a branch out of the function to address A, then nr is in the set computed for A.", "quantifier": "all dispatcher programs, all syscall numbers, all execution lengths", "why_tests_cant": "All programs and all executions.", "anchors": ["src/systrack/arch/x86.py:ArchX86.__emulate_syscall_switch"]}
{"id": "C42", "title": "Symbolic emulation never attributes an impossible number", "statement": "Under the same conditions, every number in the set computed for an out-of-function address A reaches A when the dispatcher is executed with it.", "quantifier": "all dispatcher programs, all numbers", "why_tests_cant": "All programs; reachability both ways.", "anchors": ["src/systrack/arch/x86.py:ArchX86.__emulate_syscall_switch"]}
{"id": "C43", "title": "Dispatcher extraction is order independent and functional", "statement": "The mapping extracted from the dispatcher does not depend on the iteration order of the set of candidate branches; it maps each number to at most one address; targets reachable by more than 100 numbers are left out; and any conflict, empty set or second default case makes the result empty.", "quantifier": "all candidate sets and all iteration orders", "why_tests_cant": "All set iteration orders.", "anchors": ["src/systrack/arch/x86.py:ArchX86.extract_syscall_vaddrs"]}
{"id": "C44", "title": "Architecture detection is unambiguous and self-consistent", "statement": "At most one architecture class recognises an image, the one recognised only depends on e_machine, and the instance built from an automatic detection always accepts the very image it was detected from.", "quantifier": "all images (machine, bitness, byte order, flags, symbols)", "why_tests_cant": "All header values and symbol tables.", "anchors": ["src/systrack/arch/__init__.py:arch_from_vmlinux", "src/systrack/kernel.py:Kernel.__init__", "src/systrack/arch/powerpc.py:ArchPowerPC.matches"]}
{"id": "C45", "title": "ABI detection reports exactly the ABIs present", "statement": "The ABIs detected for an image are the native one plus each optional one whose marker symbols are present; an ARM image without an OABI table is detected as EABI when its ELF flags carry an EABI version and as OABI otherwise.", "quantifier": "all images", "why_tests_cant": "All symbol tables and flags.", "anchors": ["src/systrack/arch/x86.py:ArchX86.match", "src/systrack/arch/arm.py:ArchArm.match", "src/systrack/arch/mips.py:ArchMips.match", "src/systrack/arch/powerpc.py:ArchPowerPC.match", "src/systrack/arch/riscv.py:ArchRiscV.match", "src/systrack/arch/arm64.py:ArchArm64.match"]}
{"id": "C46", "title": "Architecture names and aliases agree", "statement": "--arch is case-insensitive; every alias designates the same architecture, ABI and bitness as its main name; every supported name builds an instance with consistent bitness/ABI attributes for every kernel version its class supports, and fails only for versions that are too old.", "quantifier": "all names, all case variants, all versions", "why_tests_cant": "All case variants and versions.", "anchors": ["src/systrack/arch/__init__.py:SUPPORTED_ARCHS", "src/systrack/arch/__init__.py:ARCH_ALIASES", "src/systrack/__main__.py:main"]}
{"id": "C47", "title": "The selected syscall table matches ABI and version", "statement": "The table symbol looked up is the one documented for the ABI and kernel version (e.g. x32_sys_call_table from v5.4 and none from v6.9 on x86 unless sys_call_table exists and the ABI is native; compat_sys_call_table for ppc32 on 64-bit from v5.0; sys_oabi_call_table for OABI on a compat kernel).", "quantifier": "all versions, ABIs and images", "why_tests_cant": "All versions and symbol tables.", "anchors": ["src/systrack/arch/x86.py:ArchX86.__init__", "src/systrack/arch/x86.py:ArchX86.adjust_abi", "src/systrack/arch/arm.py:ArchArm.adjust_abi", "src/systrack/arch/powerpc.py:ArchPowerPC.__init__", "src/systrack/arch/mips.py:ArchMips.__init__"]}
{"id": "C48", "title": "Signatures survive the trip through source text", "statement": "For a SYSCALL_DEFINEn or asmlinkage definition laid out over any number of lines split after commas, the extracted signature is exactly the list of its parameters, in order, with __user removed and blanks normalised; a SYSCALL_DEFINEn always yields n entries.", "quantifier": "all parameter lists and all line layouts", "why_tests_cant": "All layouts and parameter lists (round-trip law).", "anchors": ["src/systrack/signature.py:syscall_signature_from_source", "src/systrack/signature.py:parse_signature"]}
{"id": "C49", "title": "Signature extraction always terminates", "statement": "syscall_signature_from_source returns (or reports an error) for every source file and line.", "quantifier": "all files and line numbers", "why_tests_cant": "Termination for all files, including truncated ones.", "anchors": ["src/systrack/signature.py:syscall_signature_from_source"]}
{"id": "C50", "title": "64-bit argument macros expand to two halves in byte order", "statement": "Each SC_ARG64/arg_u32p/compat_arg_u64[_dual] field expands to two u32 parameters, high half first on big-endian and low half first on little-endian images; all other fields are unchanged and in place.", "quantifier": "all field lists, both byte orders", "why_tests_cant": "All field lists.", "anchors": ["src/systrack/signature.py:expand_macros", "src/systrack/signature.py:parse_signature"]}
{"id": "C51", "title": "ftrace metadata yields the recorded signatures", "statement": "For well-formed syscall_metadata records in memory, the signature found for a name is the list of recorded type/name pairs in order, types and names separated by one space except after '*'; the last record for a name wins.", "quantifier": "all metadata tables, both byte orders and pointer sizes", "why_tests_cant": "All memory contents.", "anchors": ["src/systrack/signature.py:extract_syscall_signatures"]}
{"id": "C52", "title": "Signatures come from the best available source", "statement": "A syscall with a good location gets its signature from source; otherwise from ftrace metadata by original name, then by normalised name; otherwise none; esoteric syscalls keep theirs.", "quantifier": "all lists of syscalls and metadata tables", "why_tests_cant": "Decision over all combinations.", "anchors": ["src/systrack/signature.py:extract_syscall_signatures"]}
{"id": "C53", "title": "Line adjustment finds the enclosing definition", "statement": "adjust_line(file, line) never moves forward; if the enclosing block opens with a lone '{' line before any earlier lone '}' line, it returns the nearest preceding line that starts with neither blank nor '#', or the '{' line if there is none; otherwise it returns the line unchanged; it exits iff the file is missing or too short.", "quantifier": "all files and line numbers", "why_tests_cant": "All source texts.", "anchors": ["src/systrack/location.py:adjust_line"]}
{"id": "C54", "title": "A location marked good really is a definition of that syscall", "statement": "After location extraction with kernel sources, every syscall marked good has a file and line whose text matches a definition of its original or normalised name.", "quantifier": "all answers of addr2line, all source trees, all syscall lists", "why_tests_cant": "Invariant over a four-stage pipeline with arbitrary external answers.", "anchors": ["src/systrack/location.py:extract_syscall_locations", "src/systrack/location.py:good_location"]}
{"id": "C55", "title": "Every syscall without good location is eventually grepped", "statement": "If extraction reaches the grep stage, the syscalls handed to grep are exactly those without a good location (plus none twice), except esoteric ones whose debug location is valid; the stage is skipped only when all locations need adjustment, debug paths lie outside KDIR, or no sources/addr2line are available.", "quantifier": "all answers of addr2line, all syscall lists", "why_tests_cant": "Conservation over all pipeline paths.", "anchors": ["src/systrack/location.py:extract_syscall_locations"]}
{"id": "C56", "title": "Full-range adjustment tries every inner address", "statement": "The full-range retry queries every address from vaddr+1 to vaddr+size-2 of the symbol, as documented, and never queries an empty list.", "quantifier": "all symbol addresses and sizes", "why_tests_cant": "Off-by-one over all sizes.", "anchors": ["src/systrack/location.py:extract_syscall_locations"]}
{"id": "C57", "title": "Grepping answers once per syscall with a best-priority line", "statement": "grep_kernel_sources yields each requested syscall exactly once; a syscall reported as not found matches none of the lines left over, and a found one matches the line it is given; lines under arch/ (and compat/32-bit ones where relevant) are tried first; no line serves two syscalls.", "quantifier": "all grep outputs and syscall lists", "why_tests_cant": "All matching relations between lines and syscalls.", "anchors": ["src/systrack/location.py:grep_kernel_sources"]}
{"id": "C58", "title": "Definitions are matched by full syscall name", "statement": "good_definition accepts 'SYSCALL_DEFINEn(<ident>' followed by a non-word character exactly when <ident> is the given name; it never accepts a definition of a syscall whose name merely starts with, or is a prefix of, the given one.", "quantifier": "all identifiers and all definition lines", "why_tests_cant": "All pairs of identifiers.", "anchors": ["src/systrack/location.py:good_definition"]}
{"id": "C59", "title": "Path remapping is faithful", "statement": "maybe_rel(p, root) / remapping replaces the root prefix and only it: root / maybe_rel(p, root) = p when p is under root, p is returned unchanged otherwise; with --remap a path under ORIG_KDIR becomes the same path under KDIR.", "quantifier": "all paths", "why_tests_cant": "All paths.", "anchors": ["src/systrack/utils.py:maybe_rel", "src/systrack/location.py:smart_addr2line", "src/systrack/location.py:extract_syscall_locations"]}
{"id": "C60", "title": "addr2line output is paired with the right syscalls", "statement": "For well-formed addr2line output the i-th answer is used for the i-th queried address; '??' files give no location; a file with a line number gives that file and line.", "quantifier": "all outputs", "why_tests_cant": "All outputs, including decorated line numbers.", "anchors": ["src/systrack/location.py:addr2line", "src/systrack/location.py:smart_addr2line"]}
{"id": "C61", "title": "Requested config options are translated exactly", "statement": "edit_config runs scripts/config once with, for each option NAME=VALUE in order, -e/-d/-m NAME for y/n/m and --set-val NAME VALUE otherwise (the first '=' separates name and value), and exits if that command fails; with no options it runs nothing, and if an option has no '=' it raises ValueError without running anything.", "quantifier": "all option lists", "why_tests_cant": "All option values, including ones containing '='.", "anchors": ["src/systrack/kconfig.py:edit_config"]}
{"id": "C62", "title": "Dependency checking never changes what is applied", "statement": "edit_config_check_deps applies all requested options regardless of dependencies, reports an error for a dependency iff its effective value (requested, else configured, else default) differs from the wanted one and is not excused (wanted n and unset; HAVE_/ARCH_HAS_ wanted y and unset or n, which gives a warning instead). Before applying, it only runs queries.", "quantifier": "all option maps, configurations and default values", "why_tests_cant": "All combinations of options, configs and answers.", "anchors": ["src/systrack/kconfig.py:edit_config_check_deps"]}
{"id": "C63", "title": ".config files are parsed exactly", "statement": "parse_config returns for each CONFIG_NAME=VALUE line (comments and blank lines ignored) NAME -> VALUE, the last line winning; a file with any other line is rejected: ValueError if the first such line has no '=', else AssertionError.", "quantifier": "all config files", "why_tests_cant": "All files (round-trip law).", "anchors": ["src/systrack/kconfig.py:parse_config"]}
{"id": "C64", "title": "Kconfig dependencies of a syscall prefer the architecture's own table", "statement": "The kconfig reported for a syscall is CONFIG_ plus the option of the arch-specific table for that version if there is one, else of the global table, else none; the normalised name is tried before the original one.", "quantifier": "all names, versions and architectures", "why_tests_cant": "All combinations of tables.", "anchors": ["src/systrack/kconfig.py:kconfig_syscall_deps", "src/systrack/kernel.py:Kernel.__extract_syscalls"]}
{"id": "C65", "title": "The kernel Makefile is always restored", "statement": "After build(--disable-opt) ends, however it ends (success, failure of any attempt, interruption with normal interpreter exit at any point), the top-level Makefile has its original content.", "quantifier": "all Makefiles, all outcomes of make, all interruption points", "why_tests_cant": "All crash points of a multi-step protocol.", "anchors": ["src/systrack/kernel.py:Kernel.build", "src/systrack/kernel.py:Kernel.__try_set_optimization_level", "src/systrack/kernel.py:Kernel.__restore_makefile"]}
{"id": "C66", "title": "Disabling optimisations changes only the optimisation digit", "statement": "When the Makefile has a matching KBUILD_CFLAGS += -O2 line, exactly the digit 2 of the first such line is replaced by the level and nothing else changes; when it has none, the file is left untouched and an ordinary build is done.", "quantifier": "all Makefiles", "why_tests_cant": "All file contents.", "anchors": ["src/systrack/kernel.py:Kernel.__try_set_optimization_level"]}
{"id": "C67", "title": "Build attempts are made in the documented order", "statement": "build(True) tries -O0, then -O1, then the unmodified level, stopping at the first success; it returns only if the last attempted make succeeded and exits otherwise; build(False) only does the unmodified build.", "quantifier": "all outcomes of make, all Makefiles", "why_tests_cant": "All outcome sequences.", "anchors": ["src/systrack/kernel.py:Kernel.build"]}
{"id": "C68", "title": "The detected version is never stale across clean/configure/build", "statement": "version is computed once and reused until clean, configure or build, after which it is recomputed from the same source; it comes from vmlinux when one is given, else from make.", "quantifier": "all sequences of operations", "why_tests_cant": "All histories.", "anchors": ["src/systrack/kernel.py:Kernel.version", "src/systrack/kernel.py:Kernel.clean", "src/systrack/kernel.py:Kernel.configure"]}
{"id": "C69", "title": "Verbosity options behave as documented", "statement": "Messages of level L are emitted iff L >= 30 + 10*(q' - v) with q' = max(q-1,0) when v = 0 and 0 otherwise; -v dominates -q; progress output is suppressed iff -q is given without -v; -qqqq suppresses every message.", "quantifier": "all counts of -q and -v", "why_tests_cant": "All counts.", "anchors": ["src/systrack/__main__.py:setup_logging"]}
{"id": "C70", "title": "The command line never runs an operation it lacks inputs for", "statement": "main never configures, builds or checks out without KDIR, never configures or builds without a known ARCH, and every such misuse ends with status 1 before any side effect; any invocation ends with an exit status rather than an unhandled exception.", "quantifier": "all argument combinations and environments", "why_tests_cant": "All option combinations.", "anchors": ["src/systrack/__main__.py:main"]}
{"id": "C71", "title": "Text output is an aligned table", "statement": "In the text output every row is padded so that column i starts at the same offset in all rows, every syscall has exactly one row in order, and a blank line precedes a row iff its number exceeds the previous one by more than one; no column is wider than its widest cell.", "quantifier": "all lists of syscalls with non-negative numbers and CONFIG_ options", "why_tests_cant": "All lists and cell widths.", "anchors": ["src/systrack/output.py:output_syscalls_text"]}
{"id": "C72", "title": "JSON output is faithful", "statement": "The JSON object of a syscall has exactly the documented keys; symbol is the symbol name, file is the path string, kconfig is the option without CONFIG_; everything else is unchanged, so syscalls that differ in more than the details of their symbol give different objects. The whole document has exactly the documented entries and one object per syscall in order. The format asked for is the one printed; one that is not implemented ends the run with status 1.", "quantifier": "all syscalls, all results", "why_tests_cant": "All values (injectivity).", "anchors": ["src/systrack/output.py:SyscallJSONEncoder.default"]}
{"id": "C73", "title": "Durations are printed losslessly", "statement": "format_duration(s) prints hours, minutes and seconds that add up to s rounded to the nearest integer (ties to even), with minutes and seconds below 60, omitting leading zero units.", "quantifier": "all non-negative durations", "why_tests_cant": "All durations (round-trip law).", "anchors": ["src/systrack/utils.py:format_duration"]}
{"id": "C74", "title": "Logged commands can be pasted back into a shell", "statement": "command_argv_to_string(cmd) is a string that a POSIX shell splits back into exactly the given arguments.", "quantifier": "all argument vectors", "why_tests_cant": "All strings (round-trip law).", "anchors": ["src/systrack/utils.py:command_argv_to_string"]}
{"id": "C75", "title": "Location extraction does not crash", "statement": "If addr2line answers every address with a file and line, a file alone or nothing, and the search through the sources names existing lines, location extraction ends normally or exits because a source file does not match the debugging information; it never raises an exception.", "quantifier": "all answers of addr2line, all source trees, all syscall lists", "why_tests_cant": "All combinations of answers for all addresses of a function.", "anchors": ["src/systrack/location.py:extract_syscall_locations"]}
{"id": "C76", "title": "The edited configuration is the one the kernel is built with", "statement": "configure() runs only make and scripts/config, always on one configuration file, and reads no other file; that file, as seen by scripts/config and by systrack, is the .config that make uses.", "quantifier": "all source and output directories, working directories, commands and files", "why_tests_cant": "All combinations of absolute and relative paths; a test uses one layout.", "anchors": ["src/systrack/kernel.py:Kernel.configure", "src/systrack/kernel.py:Kernel.make", "src/systrack/kconfig.py:run_config_script", "src/systrack/kconfig.py:parse_config"]}
{"id": "C77", "title": "Requested options never contradict each other", "statement": "For every kernel version and every architecture object, the debugging, compatibility, more-syscalls and architecture options all have the form NAME=VALUE and no two of them ask for different values of one name; no dependency of a requested option asks for a value that another requested option contradicts.", "quantifier": "all versions and architecture objects", "why_tests_cant": "All versions, including those between two releases; ranges of the tables overlap in many ways.", "anchors": ["src/systrack/kconfig_options.py", "src/systrack/kconfig.py:kconfig_debugging", "src/systrack/arch/x86.py:ArchX86.__init__"]}
{"id": "C78", "title": "Configuring performs the steps in order and stops at the first failure", "statement": "A configuration that ends normally has run make for each base target, then applied the debugging, compatibility, more-syscalls and architecture options in this order, each followed by make olddefconfig (oldconfig before 3.7, answered with newlines); the first command that fails is the last one run, and systrack exits.", "quantifier": "all kernels, options, and behaviours of the commands", "why_tests_cant": "All histories of command results.", "anchors": ["src/systrack/kernel.py:Kernel.configure", "src/systrack/kernel.py:Kernel.sync_config", "src/systrack/utils.py:ensure_command"]}
{"id": "C79", "title": "HTML output is a rectangular table", "statement": "Every result can be printed as HTML; all rows of the table, including the heading, cover the same number of columns: six plus the largest number of parameters.", "quantifier": "all syscall lists and versions", "why_tests_cant": "All signature lengths, including lists without any signature.", "anchors": ["src/systrack/output.py:output_syscalls_html", "src/systrack/templates/syscall_table.html"]}
{"id": "C80", "title": "The result shown is the result extracted", "statement": "When main analyses an image and ends with status 0 it prints exactly one document, last, made from all the syscalls that were extracted, in their order and unchanged but for their files, which are relative to KDIR when they lie below it and --absolute-paths is not given; the image is VMLINUX, or KDIR/vmlinux, and the version and architecture are those of the image; the totals reported before are those of the list. When no syscalls are found nothing is printed and the status is not 0.", "quantifier": "all arguments, images and environments", "why_tests_cant": "All option combinations and results.", "anchors": ["src/systrack/__main__.py:main", "src/systrack/utils.py:maybe_rel", "src/systrack/output.py:output_syscalls"]}
{"id": "C81", "title": "Sources are checked out once, at the right reference", "statement": "A run checks sources out at most once, in KDIR and before anything else is done to them; the reference is the one given or, for --checkout auto, the tag of the version found in the image, and then before syscalls are extracted.", "quantifier": "all arguments and environments", "why_tests_cant": "All option combinations and versions.", "anchors": ["src/systrack/__main__.py:main", "src/systrack/__main__.py:git_checkout", "src/systrack/kernel.py:Kernel.version_tag"]}
{"id": "C82", "title": "Registers shown are those of the ABI", "statement": "The register of the syscall number and the registers of the arguments reported for an ABI are those of its calling convention.", "quantifier": "all architecture objects, versions and images", "why_tests_cant": "All ABIs of all architectures on all kernels, including compatibility ABIs.", "anchors": ["src/systrack/arch/x86.py:ArchX86.__init__", "src/systrack/arch/arm64.py:ArchArm64", "src/systrack/arch/mips.py:ArchMips.__init__"]}
{"id": "C83", "title": "Configuration starts from the targets of the architecture", "statement": "The make targets configure() starts from are those that exist for the class, word size and version of the kernel: multi_v7_defconfig for arm since 3.7, rv32_defconfig from 5.1 and defconfig with 32-bit.config from 6.8 for 32-bit riscv, and the default configuration of the class otherwise.", "quantifier": "all architecture objects and versions", "why_tests_cant": "All versions, including those next to a limit.", "anchors": ["src/systrack/arch/arm.py:ArchArm.__init__", "src/systrack/arch/riscv.py:ArchRiscV.__init__"]}
{"id": "C84", "title": "The version of an image is that of its banner", "statement": "The version read from an image is the one in the text that linux_banner stands for, whether the symbol has a size or its text ends at the next NUL; an image without this symbol has no version.", "quantifier": "all images", "why_tests_cant": "All images, with and without symbol sizes.", "anchors": ["src/systrack/kernel.py:Kernel.__version_from_vmlinux"]}
{"id": "C85", "title": "Image and architecture agree", "statement": "A Kernel object made from an image has the machine and word size of the image. Without an architecture name it has the only ABI the image supports, and images of several ABIs, of unknown machines or without symbols are refused; with a name, images of another machine or word size, or not supporting the ABI, are refused with KernelArchError.", "quantifier": "all images, names and versions", "why_tests_cant": "All images and names.", "anchors": ["src/systrack/kernel.py:Kernel.__init__"]}
{"id": "C86", "title": "Names are the symbols without decorations", "statement": "A reported syscall of the table is named after its symbol: without the wrapper prefixes and suffixes of the architecture, then without the longest prefix ending in an underscore that at least 20 implemented entries of the table share, and its normalised name is the documented one of that.", "quantifier": "all images, architecture objects and versions", "why_tests_cant": "All combinations of symbol names in all tables.", "anchors": ["src/systrack/kernel.py:Kernel.__extract_syscalls", "src/systrack/arch/arch_base.py:Arch.translate_syscall_symbol_name", "src/systrack/syscall.py:common_syscall_symbol_prefixes"]}
{"id": "C87", "title": "The source search finds every definition", "statement": "Without ripgrep, the search reports exactly the lines that may be definitions of syscalls in the C files below the kernel sources, leaving out hidden files, the directories without syscalls and other architectures, each line once with file and number. A syscall searched for gets the file and line of such a definition, and every syscall that has a definition there gets one.", "quantifier": "all source trees, architecture objects and lists of syscalls", "why_tests_cant": "All trees and all ways definitions can be written and shared by syscalls.", "anchors": ["src/systrack/location.py:grep_file", "src/systrack/location.py:grep_recursive", "src/systrack/location.py:grep_kernel_sources"]}
{"id": "C88", "title": "Doubtful results are announced", "statement": "After locations and signatures are extracted, every syscall dropped because its location is still kernel/sys_ni.c is announced with that location; when sources are given, every reported syscall of the table whose location is not known to be its definition is announced with a hint on the kind of file; and every reported syscall without location (if the image has line numbers) or without signature (if it has line numbers or syscall metadata) is announced. Nothing else is announced, each once and in table order.", "quantifier": "all images, source directories and annotated syscalls", "why_tests_cant": "All combinations of locations, signatures and debug information.", "anchors": ["src/systrack/kernel.py:Kernel.__extract_syscalls", "src/systrack/kernel.py:Kernel.can_extract_location_info", "src/systrack/kernel.py:Kernel.can_extract_signature_info", "src/systrack/elf.py:ELF.has_debug_info"]}
{"id": "C89", "title": "Every result can be printed", "statement": "Whatever image, debug information and sources syscalls are extracted from, the result has what printing needs: indices, numbers and lines are not negative, files are normalised paths, Kconfig options appear once. So the text output of a non-empty result never fails and keeps its layout, and the JSON objects of any two results tell their syscalls apart in every field.", "quantifier": "all images, architecture objects, debug information and source trees", "why_tests_cant": "All results of all extractions.", "anchors": ["src/systrack/kernel.py:Kernel.__extract_syscalls", "src/systrack/output.py:output_syscalls_text", "src/systrack/output.py:SyscallJSONEncoder", "src/systrack/location.py:extract_syscall_locations", "src/systrack/arch/x86.py:ArchX86.extract_syscall_vaddrs"]}
{"id": "C90", "title": "Syscalls outside the table are reported as documented", "statement": "The private syscalls of ARM and the endian switch of PowerPC follow the syscalls of the table in the result, in the order of their numbers, each without index, with its documented number, name, Kconfig option and parameters and with the symbol that serves it. Each one that the image has is reported unless its function is a dummy, and no other syscall is marked as being outside the table.", "quantifier": "all images, architecture objects, debug information and source trees", "why_tests_cant": "All images and kernel versions with and without these syscalls.", "anchors": ["src/systrack/kernel.py:Kernel.__extract_syscalls", "src/systrack/arch/arm.py:ArchArm.extract_esoteric_syscalls", "src/systrack/arch/powerpc.py:ArchPowerPC.extract_esoteric_syscalls", "src/systrack/signature.py:extract_syscall_signatures"]}
{"id": "C91", "title": "The JSON document can be read back", "statement": "The text written for --format json is valid JSON whatever the names, paths and parameters contain. Reading it gives exactly the documented entries, one object per syscall in order, members sorted by key. Two extractions that are written with the same text agree in everything shown: version, architecture, ABI, calling convention and all fields of all syscalls.", "quantifier": "all results of extractions, and all JSON values", "why_tests_cant": "All characters in names and paths, all numbers of syscalls and nestings.", "anchors": ["src/systrack/output.py:output_syscalls_json", "src/systrack/output.py:SyscallJSONEncoder"]}
{"id": "C92", "title": "The configuration asks for the word size and the ABIs of the architecture", "statement": "The options a new architecture object asks for include, in each kernel version, exactly those options about the word size and the ABIs that a kernel of that word size serving the ABIs takes: 32BIT/64BIT, COMPAT, MIPS32_O32, MIPS32_N32, PPC64, SPU_FS, IA32_EMULATION, X86_X32 and its successor, OABI_COMPAT and the like, each with the right value and only in the versions that have it.", "quantifier": "all architecture classes, ABIs, bitnesses and kernel versions", "why_tests_cant": "All kernel versions: a wrong bound or branch shows only with particular versions.", "anchors": ["src/systrack/arch/mips.py:ArchMips.__init__", "src/systrack/arch/powerpc.py:ArchPowerPC.__init__", "src/systrack/arch/riscv.py:ArchRiscV.__init__", "src/systrack/arch/x86.py:ArchX86.__init__", "src/systrack/arch/arm.py:ArchArm.__init__", "src/systrack/arch/arm64.py:ArchArm64"]}
{"id": "C93", "title": "The HTML page can be read back", "statement": "The page written for --format html is well-formed HTML whatever the names, paths and parameters contain: every tag is closed in order and every value appears as text. A reader finds the title, the headings and one table: a heading row with the registers of the calling convention, then one row per syscall in order with number, name, symbol, location, Kconfig option and parameters, doubtful values marked and relative locations linked to the version. Two extractions with the same page agree in all that is shown.", "quantifier": "all results of extractions, and all lists of syscalls with non-negative numbers", "why_tests_cant": "All characters in names and paths and all combinations of missing values.", "anchors": ["src/systrack/output.py:output_syscalls_html", "src/systrack/templates/syscall_table.html"]}
{"id": "C94", "title": "Sorting the HTML table", "statement": "A click on the heading of the number, name, symbol, location or Kconfig column of the HTML page puts the same rows in the order of that column, rows that agree in it staying in their order and keeping their highlighting; the order is ascending unless that is the order marked, and exactly the clicked heading is marked with it. No sequence of clicks raises an error or loses a row, and at any time the rows of an extraction have the order that is marked, also before the first click.", "quantifier": "all lists of syscalls and all sequences of clicks", "why_tests_cant": "All orders of rows and all sequences of clicks; numbers are compared through a hexadecimal reading of their decimal text.", "anchors": ["src/systrack/templates/syscall_table.js", "src/systrack/templates/syscall_table.html"]}
{"id": "C95", "title": "Every log message can be formatted", "statement": "Each call of the logging module passes as many arguments as its message has places, each of a kind its place accepts, so that the message shown is the text of the source with the arguments in their places, in order; numbers shown can be read back. No message is lost to an error of formatting.", "quantifier": "all logging calls of the program and all values of their arguments", "why_tests_cant": "Most messages appear only in unusual situations; logging swallows the error of a message that cannot be formatted.", "anchors": ["src/systrack/kernel.py:Kernel.__unpack_syscall_table", "src/systrack/kernel.py:Kernel.__extract_syscalls", "src/systrack/location.py:extract_syscall_locations", "src/systrack/arch/x86.py:ArchX86", "src/systrack/utils.py:ensure_command"]}
{"id": "C96", "title": "Commands that fail end the run with a reason", "statement": "ensure_command returns the output of a command only if it was started and ended with status 0. If its directory is missing or is no directory, or if the command is not found, that very reason is logged and the exit status is 127; if it fails, its status, the command and its standard error, indented, are logged and the exit status is 1. run_command returns the status, 127 if the command did not start. The compiler version is the first line the compiler prints.", "quantifier": "all commands, directories and behaviours of the programs run", "why_tests_cant": "Requires missing directories, missing programs and failing programs with all kinds of output.", "anchors": ["src/systrack/utils.py:do_popen", "src/systrack/utils.py:run_command", "src/systrack/utils.py:ensure_command", "src/systrack/utils.py:gcc_version", "src/systrack/utils.py:git_checkout"]}
{"id": "C97", "title": "Locations and signatures of the result are those of the sources", "statement": "A table syscall of the result whose function, according to the debug information, lies in a definition of it in the sources has the file and the starting line of that definition as its location, is marked good and is never dropped, and its signature is the parameters declared there. Whatever way a location marked good was found, it is a definition of the syscall, and the signature is what is declared there.", "quantifier": "all images, architectures, debug information, source trees and results of extractions", "why_tests_cant": "All layouts of source files and all ways debug information can point into them.", "anchors": ["src/systrack/kernel.py:Kernel.__extract_syscalls", "src/systrack/location.py:extract_syscall_locations", "src/systrack/location.py:adjust_line", "src/systrack/location.py:good_location", "src/systrack/signature.py:extract_syscall_signatures", "src/systrack/signature.py:syscall_signature_from_source"]}
{"id": "C98", "title": "The analysis of sound input succeeds", "statement": "The extraction ends with a result, no exception and no early exit, if: every address of the table has a symbol and one is implemented; the code of these symbols is in the file; addr2line answers with lines that exist; the search through the sources names existing lines; definitions at those lines are written in the usual form; and the recorded metadata is readable. Without sources the debug information need not fit anything.", "quantifier": "all images, tables, debug information, source trees and search results meeting these conditions", "why_tests_cant": "The absence of failures has to hold for every combination of image, debug information and sources.", "anchors": ["src/systrack/kernel.py:Kernel.__extract_syscalls", "src/systrack/location.py:extract_syscall_locations", "src/systrack/signature.py:extract_syscall_signatures", "src/systrack/signature.py:syscall_signature_from_source", "src/systrack/arch/arch_base.py:Arch.is_dummy_syscall"]}
{"id": "C99", "title": "The analysis ends", "statement": "The extraction goes on for ever only for one of these reasons: addr2line or the search through the sources does not end; addr2line is run without an address (see C101) and waits; a string of the recorded metadata has no NUL byte up to the end of the file; a definition of a syscall in the sources is not followed by a line that ends with a closing parenthesis. All other loops (table, emulation, going up from a line, matching) end on every input.", "quantifier": "all images, architectures, debug information and source trees", "why_tests_cant": "Termination on all inputs cannot be observed; the loops end at conditions on data that may never occur.", "anchors": ["src/systrack/kernel.py:Kernel.__extract_syscalls", "src/systrack/kernel.py:Kernel.__unpack_syscall_table", "src/systrack/elf.py:ELF.vaddr_read_string", "src/systrack/signature.py:syscall_signature_from_source", "src/systrack/location.py:adjust_line", "src/systrack/arch/x86.py:ArchX86"]}
{"id": "C100", "title": "The command line is understood as written", "statement": "The settings main works with are those the words of the command line ask for: options as letters, alone or joined, or as names, in full or shortened as long as one option only is meant; values in the same word or the next; the last value counts, --quiet and --verbose are counted; at most one other word, the image. Help and version are shown exactly when their option is reached. Everything else ends with status 2 before anything is done. All settings with a format there is can be asked for, whatever the names of files are.", "quantifier": "all lists of words", "why_tests_cant": "The number of ways to write, join, shorten and order options is unbounded.", "anchors": ["src/systrack/__main__.py:parse_args", "src/systrack/__main__.py:main"]}
{"id": "C101", "title": "addr2line is never run without an address", "statement": "Whenever addr2line is run it is given at least one address; otherwise it would read addresses from the standard input it shares with the program, and a run in a terminal would wait for ever. So what addr2line does without addresses has no influence on the result.", "quantifier": "all lists of syscalls, debug information and source trees", "why_tests_cant": "It takes a function of one particular size whose debug information is useless and a terminal as standard input.", "anchors": ["src/systrack/location.py:addr2line", "src/systrack/location.py:extract_syscall_locations", "src/systrack/kernel.py:Kernel.__extract_syscalls"]}
{"id": "C102", "title": "Names are taken literally by the regexps", "statement": "The texts of all regexps of the program are well-formed and mean what they are meant to: sections and symbols of readelf's output, versions, the level in the Makefile, lines that may be definitions. Put into a regexp, the name of a syscall matches only itself, so that the check of a location accepts exactly the definitions of that name, and no name makes compiling the regexp fail.", "quantifier": "all architectures, names, texts and lines", "why_tests_cant": "Names go into the regexps unescaped; the texts differ with architecture and name, and each can match unboundedly many lines.", "anchors": ["src/systrack/location.py:good_definition", "src/systrack/location.py:grep_kernel_sources", "src/systrack/elf.py:ELF", "src/systrack/kernel.py:Kernel.version_from_str", "src/systrack/arch/mips.py:ArchMips", "src/systrack/arch/arm.py:ArchArm"]}
{"id": "C103", "title": "What a run prints comes from the files of the computer", "statement": "A run that ends with status 0 in JSON format prints one document, last. Read back it has the documented keys, the version of the image that was asked for, and one object for each reported syscall, no number twice; each of them is an entry of the table in the file (or what the descriptor there holds, or where the dispatcher of an x86 image without a table leads), its symbol is one that readelf lists at that address, and where its location counts as good, the file there has a definition of it at that line, with the parameters reported. No entry is missing, unless it is not implemented, of another ABI, judged a dummy or located in sys_ni.c. If the image is complete and its sources, readelf and addr2line answer, a run ends without an error, also with the own search through the files in place of ripgrep; its status is 1 only if no function is known for syscalls that are not implemented, all entries are excused in that way, or the dispatcher is unclear (C105). (In HTML format it fails if no parameters are known, C79.)", "quantifier": "all command lines and computers (files, programs and what they print)", "why_tests_cant": "Joins all steps from the words of the command line to the text printed; no test can range over images, sources and outputs of other programs.", "anchors": ["src/systrack/__main__.py:main", "src/systrack/kernel.py:Kernel.__extract_syscalls", "src/systrack/elf.py:ELF", "src/systrack/location.py:extract_syscall_locations", "src/systrack/signature.py:extract_syscall_signatures", "src/systrack/output.py:output_syscalls_json", "src/systrack/utils.py:ensure_command"]}
{"id": "C104", "title": "Both searches look through the same files", "statement": "The fallback search of the kernel sources, with ripgrep or in Python, looks through the same files: C sources outside the directories that are left out and outside the directories of other architectures. (It does not: the last glob given to ripgrep, *.c, takes precedence over those that exclude directories, so that it also reads hidden C sources and those directly in an excluded directory, such as lib/kobject.c. It reads all that the other search reads, and nothing else.)", "quantifier": "all architectures, all relative file names, all sets of ignored names", "why_tests_cant": "which files are read depends on the tree and on whether ripgrep is installed; tests have one of either.", "anchors": ["src/systrack/location.py:grep_kernel_sources", "src/systrack/location.py:grep_recursive"]}
{"id": "C105", "title": "A dispatcher with one default case gives its syscalls", "statement": "If the decoded x86 dispatcher ({x64,x32,ia32}_sys_call) is as compilers make them, all its exits are taken by some number and only one address is reached by more than 100 numbers (the default case), then the extraction gives all other numbers with their addresses. (It does not if two different instructions leave for the default case, such as a conditional and an unconditional jump: then nothing is given. That, an exit which no number takes, and a dispatcher without other cases are the only ways to an empty result.)", "quantifier": "all images and dispatchers, all orders of sets, all equalities of instructions", "why_tests_cant": "depends on how a compiler arranges the jumps of a function; tests see the kernels at hand.", "anchors": ["src/systrack/arch/x86.py:ArchX86.extract_syscall_vaddrs", "src/systrack/arch/x86.py:ArchX86.__emulate_syscall_switch"]}
{"id": "C106", "title": "Only the line of a definition must be text", "statement": "As the comment in grep_file says, sources may contain bytes that are no UTF-8; they do no harm as long as they are not in a line that is looked at. The search raises only if a line that matches is not UTF-8, the check of a location only if its line is not, reading a string from the image only if the string is not; a signature depends on the lines from the definition to its closing parenthesis. Text that is UTF-8 is decoded as RFC 3629 says, and lines are found however the file is cut into chunks. (The signature does not keep to it: the file is opened as text, so that a bad byte anywhere before the end of the signature, or after it in the same chunk, raises UnicodeDecodeError, and no syscall gets a signature.)", "quantifier": "all files, all ways to cut them into chunks, all lines; all images and addresses", "why_tests_cant": "Sources with such bytes are rare, the chunks depend on the system, and a test shows one combination of both.", "anchors": ["src/systrack/signature.py:syscall_signature_from_source", "src/systrack/signature.py:extract_syscall_signatures", "src/systrack/location.py:grep_file", "src/systrack/location.py:good_location", "src/systrack/elf.py:ELF.vaddr_read_string"]}
{"id": "C107", "title": "The list of architectures tells the truth", "statement": "The table shown for --arch help lists exactly the names that --arch takes (in any case), and nothing else is taken; the refusal says so and where to look. In every row the architecture, the word sizes of kernel and ABI and the name of the ABI are those of the names in it, in every version; the aliases of a row mean the same. The build targets, with the footnotes, are those that are built in each version, and footnote 1 holds where it stands. (Footnote 2 is wrong for v3.7: the footnote says defconfig up to v3.7, the code uses multi_v7_defconfig from v3.7 on. Footnote 1 holds for arm64 as well but is missing there.)", "quantifier": "all names, all versions, all rows of the text", "why_tests_cant": "Text and code are kept in step by hand; the versions are unbounded.", "anchors": ["src/systrack/arch/__init__.py:arch_from_name", "src/systrack/arch/__init__.py:SUPPORTED_ARCHS_HELP", "src/systrack/__main__.py:main", "src/systrack/arch/arm.py:ArchArm"]}
{"id": "C108", "title": "Preparing sources does all its steps and stops at the first that fails", "statement": "With --clean, --config or --build, a run that ends with status 0 has done, in this order and nothing else but messages: the git checkout and the output directory if asked for, make distclean, and for --config and --build the base targets of the architecture, then the options for debugging, for compatibility, for more syscalls and of the architecture itself, each followed by a make that brings the configuration up to date, and for --build make vmlinux (up to three times with --disable-opt, the last time with success). Every make has the arguments for the architecture, the toolchain, the output directory, the jobs and the debug prefix. Options are those for the version that make tells. A command that fails ends the program with a status other than 0 and nothing follows, unless it was an attempt with another level of optimisation. If no command fails and the files it reads are there, the program ends with status 0. However the program ends, the Makefile is what it was after the checkout, but for the ends of lines; without those three options nothing but git changes anything. Unless quiet, the last message of a build that succeeds says how long it took since the message that it starts, to the nearest second.", "quantifier": "all arguments, all computers (files, programs, what they print, their status, as functions of all that was done before), all outcomes", "why_tests_cant": "There is no end of what git, make and scripts/config may print or how they may fail; tests cannot run them all.", "anchors": ["src/systrack/__main__.py:main", "src/systrack/kernel.py:Kernel.clean", "src/systrack/kernel.py:Kernel.configure", "src/systrack/kernel.py:Kernel.build", "src/systrack/kernel.py:Kernel.make", "src/systrack/kernel.py:Kernel.sync_config", "src/systrack/kconfig.py:edit_config", "src/systrack/kconfig.py:edit_config_check_deps", "src/systrack/utils.py:ensure_command"]}
{"id": "C109", "title": "A run that fails says why", "statement": "A run that ends with a status other than 0 prints, as the last thing it does, the message for the reason: an unknown architecture; a missing --kdir, --arch or vmlinux; an output path that is no directory or cannot be created; no compiler or no readelf; a version that cannot be found; an image without symbols, of an unknown machine, of several ABIs (all of them are listed) or of another architecture than the one asked for. The reason given is true, and no two reasons share a message. Otherwise a command that it ran failed (C96), or nothing was found: then the critical message logged tells why (no table, no .opd section, nothing readable in the table, no not-implemented function). (With -q nothing of this is said but the critical messages; and if all the syscalls of the table were located in kernel/sys_ni.c, nothing is said at all.)", "quantifier": "all arguments, all machines (files, programs, images as functions of what was done before), all images and syscall tables", "why_tests_cant": "The combinations of arguments, files, images and failing programs have no end, and a test of messages repeats their text.", "anchors": ["src/systrack/__main__.py:main", "src/systrack/__main__.py:instantiate_kernel", "src/systrack/kernel.py:Kernel.__init__", "src/systrack/kernel.py:Kernel.__extract_syscalls", "src/systrack/kernel.py:Kernel.__syscall_vaddrs_from_syscall_table"]}
{"id": "C110", "title": "Symbolic links do not mislead the search", "statement": "The fallback search in Python, in sources with symbolic links, ends, reads each C source once, finds the definitions of the architecture and reads nothing of other architectures. (It ends, because the system follows a limited number of links, and it enters no directory that is to be left out, by whatever name. But a link into a directory of another architecture makes it read what is there, a link to a directory above makes it read the same files again once for each link the system follows, and a second name for the directory of the architecture, in arch/, leaves that directory out. A link to itself in arch/ raises an exception.)", "quantifier": "all file systems with directories, files and links (also in circles, to anywhere), all architectures, any limit of links", "why_tests_cant": "Links can be anywhere, and combine: the paths that lead to a file are not even as finite as the files. Kernel trees have links, but not these.", "anchors": ["src/systrack/location.py:grep_recursive", "src/systrack/location.py:grep_kernel_sources"]}
{"id": "C111", "title": "Only readelf is needed to analyse an image", "statement": "As the README says, readelf is the only program that an analysis needs: a run without it ends with status 127, and with it and a complete image a run ends with a result (or says that there is none, C109) though no other program is there. The result depends on no program but readelf and, where they are there, addr2line and ripgrep: on computers with the same files that agree on these, all runs are the same, whatever compiler, make or git they have. Without addr2line no document says where a syscall is defined: file and line are null in all of them. (With --format html addr2line is not optional: without places no parameters are known unless the image has metadata, and the run fails with a ValueError, C79.)", "quantifier": "all computers (files, programs, what they print), all arguments that ask for an analysis, all images", "why_tests_cant": "Tests run on one computer, with the programs that it has.", "anchors": ["src/systrack/__main__.py:main", "src/systrack/location.py:extract_syscall_locations", "src/systrack/location.py:grep_kernel_sources", "src/systrack/elf.py:ELF.__extract_symbols", "src/systrack/output.py:output_syscalls_html"]}
{"id": "C112", "title": "Both searches find the same places", "statement": "With the same lines of the sources found, the place of every syscall is the same whether ripgrep found them or the search in Python. (It is the same unless a line has a character, such as a form feed, that str.splitlines takes for the end of a line though grep does not: then a definition may be missed, or the program may fail with a ValueError, with ripgrep only.)", "quantifier": "all kernels, all paths and texts of lines, all lists of syscalls", "why_tests_cant": "Tests have sources without control characters, and seldom run both searches on the same sources.", "anchors": ["src/systrack/location.py:grep_kernel_sources", "src/systrack/location.py:grep_file"]}
{"id": "C113", "title": "Help texts are wrapped to 65 columns without breaking words", "statement": "wrap_help breaks each row of a text that is not blank by itself into lines of at most 65 columns, without breaking words, and never earlier than needed; only a line that cannot be broken is longer. Tabs become blanks up to the next multiple of 8; otherwise nothing but blanks at the places where lines are broken and blank rows is left out or put in. No line ends with a blank, and only the first of a row may start with one. (Compounds are broken after a hyphen, and words before and after a dash, though the doc string says otherwise; the texts of this program have no such place at the end of a line.)", "quantifier": "all texts", "why_tests_cant": "There are more texts than the sixteen of the program, and those never show the places where words are broken.", "anchors": ["src/systrack/__main__.py:wrap_help", "src/systrack/__main__.py:parse_args"]}
{"id": "C114", "title": "Links in the page lead to the definition", "statement": "In the HTML page, a location with a path relative to the sources has one link, and it leads, as browsers read links, to that line of that file in that version on elixir.bootlin.com; other locations have none. (The path is not escaped: a file with #, ?, a backslash, a tab or newline, an escape such as %25 or a component .. in its path, or with a blank at its end and no line, is not where its link leads. All others are, among them all made of letters, digits, dots and dashes.)", "quantifier": "all pages: all syscalls, files, lines and versions", "why_tests_cant": "A test compares the text of a link with one written the same way; that it leads elsewhere shows only for names no kernel has had so far.", "anchors": ["src/systrack/templates/syscall_table.html", "src/systrack/output.py:output_syscalls_html", "src/systrack/kernel.py:Kernel.version_tag"]}
{"id": "C115", "title": "Options that do not concern what is found do not change it", "statement": "Whatever -q and -v are given, a run ends in the same way and does and prints the same; only the messages differ. The syscalls that an analysis finds do not depend on --format and --absolute-paths: the documents show the same syscalls, with other paths at most, and what can be shown in some format can be shown as text. The options for preparing sources (--cross, --out, --disable-opt) have no effect on an analysis; without KDIR, --absolute-paths and --remap have none.", "quantifier": "all computers whose programs and files do not depend on what was said on standard error, all pairs of command lines", "why_tests_cant": "It compares pairs of runs of the whole program, for all inputs.", "anchors": ["src/systrack/__main__.py:main", "src/systrack/__main__.py:setup_logging", "src/systrack/output.py:output_syscalls"]}
{"id": "C116", "title": "Symbols that have nothing to do with syscalls do not change the result", "statement": "If symbols are taken away from an image, then what the program does, says and prints and its status stay the same, provided that each of them is needless: its name is not one of those that tell the version, the ABIs, the metadata or the extra syscalls, nor that of the table or dispatcher, it is no ni_syscall function, no syscall starts at its address, and it is not the only sign of where a table without size (or the PowerPC system call handler) ends.", "quantifier": "all images, all sets of symbols taken away that meet the conditions, all computers and command lines", "why_tests_cant": "Images have more than a hundred thousand symbols; tests use a handful of images as they are.", "anchors": ["src/systrack/kernel.py:Kernel.__extract_syscalls", "src/systrack/elf.py:ELF.next_symbol", "src/systrack/arch/arch_base.py:Arch.match", "src/systrack/signature.py:extract_syscall_signatures"]}
{"id": "C117", "title": "Bytes that are no text are an exception, others are kept", "statement": "If a program run for its output prints bytes that are not UTF-8, the call is an exception, whether the program succeeds or not; this includes its standard error when only the status is wanted, but not what goes to the console. Otherwise the result is the text with all line ends made LF. A banner, a configuration or a Makefile with such a byte, be it in a comment or behind the version, is an exception too, for the Makefile before anything is written or built. A Makefile that is text in any characters and ends its lines with LF is byte for byte the same after build(), whatever make does.", "quantifier": "all bytes, all programs and their status, all outcomes of make", "why_tests_cant": "Tests have ASCII outputs and files; compilers and user names with other characters depend on locale and computer.", "anchors": ["src/systrack/utils.py:ensure_command", "src/systrack/kernel.py:Kernel.version_from_banner", "src/systrack/kconfig.py:parse_config", "src/systrack/kernel.py:Kernel.__try_set_optimization_level", "src/systrack/kernel.py:Kernel.__restore_makefile"]}
{"id": "C118", "title": "A dispatcher that cannot be read is announced", "statement": "If the syscalls of an x86 kernel without a table cannot be read off its dispatcher, one error is logged that says why, and no syscalls are found: the function is missing or too small; no register is compared; or it is about the first instruction that cannot be followed (after a TEST, a TEST or CMP of other operands, another register, another conditional jump, a jump without a comparison before it, a call into the function); or a target that no number reaches, a second default case, or a number with two targets. What the error says is true, and if it could be said it is. Without an error the result is empty only if there is at most one exit and it is the default case. For a dispatcher as compilers make them only an unreached target or a second default case are possible.", "quantifier": "all images, all lists of instructions, all orders of the set of candidates", "why_tests_cant": "Errors show on kernels built by compilers that nobody has tried; which of several is logged depends on the whole function.", "anchors": ["src/systrack/arch/x86.py:ArchX86.__emulate_syscall_switch", "src/systrack/arch/x86.py:ArchX86.extract_syscall_vaddrs"]}
{"id": "C119", "title": "Preparing a debug message does not change what is found", "statement": "The instructions of an x86 dispatcher that the emulation does not follow are counted and sorted for a message, whatever the verbosity. If instructions can be compared by <, this changes nothing. If they cannot (iced_x86 defines only == and !=), a dispatcher that is understood ends in a TypeError exactly if two different such instructions, NOPs aside, occur equally often; otherwise nothing changes.", "quantifier": "all images, all lists of instructions, all equalities of instructions", "why_tests_cant": "It depends on how often each instruction stands in the dispatchers of kernels built by other compilers or with other options.", "anchors": ["src/systrack/arch/x86.py:ArchX86.__emulate_syscall_switch"]}
