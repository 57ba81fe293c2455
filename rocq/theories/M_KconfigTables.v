(** Kconfig tables of /repo/src/systrack, transcribed by tools/gen_kconfig_tables.py *)
From Coq Require Import List Bool Ascii String ZArith.
From Verif Require Import PyBase.
Import ListNotations.
Open Scope Z_scope.
Open Scope list_scope.

(** kconfig_options.py 23-24 *)
Definition VERSION_ZERO : version := [2;6;12].
Definition VERSION_INF : version := [9999999999].

(** kconfig_options.py 57-68 *)
Definition tbl_kconfig_debugging : list (version * version * list str) :=
  [ (VERSION_ZERO, [3;8], [$"EXPERIMENTAL=y"]);
    (VERSION_ZERO, VERSION_INF, [$"DEBUG_KERNEL=y"; $"DEBUG_INFO=y"]);
    (VERSION_ZERO, VERSION_INF, [$"RELOCATABLE=n"; $"RANDOMIZE_BASE=n"]);
    ([2;6;30], VERSION_INF, [$"FTRACE_SYSCALLS=y"]);
    ([2;6;31], VERSION_INF, [$"FTRACE=y"]);
    ([2;6;36], VERSION_INF, [$"DEBUG_INFO_REDUCED=n"]);
    ([2;6;38], VERSION_INF, [$"EXPERT=y"]);
    ([5;12], VERSION_INF, [$"DEBUG_INFO_DWARF_TOOLCHAIN_DEFAULT=y"]);
    ([5;18], VERSION_INF, [$"DEBUG_INFO_NONE=n"]) ].
(** kconfig_options.py 75-84 *)
Definition tbl_kconfig_compatibility : list (version * version * list str) :=
  [ ([2;6;32], VERSION_INF, [$"WLAN=n"; $"NETDEVICES=n"]);
    ([2;6;28], VERSION_INF, [$"WIRELESS=n"]);
    ([3;7], VERSION_INF, [$"MODULE_SIG=n"]);
    ([3;13], VERSION_INF, [$"SYSTEM_TRUSTED_KEYRING=n"]);
    ([4;6], VERSION_INF, [$"STACK_VALIDATION=n"]);
    ([4;14], [4;15], [$"GUESS_UNWINDER=y"; $"ORC_UNWINDER=n"; $"FRAME_POINTER_UNWINDER=n"]);
    ([4;15], VERSION_INF, [$"UNWINDER_GUESS=y"; $"UNWINDER_ORC=n"; $"UNWINDER_FRAME_POINTER=n"]) ].
(** kconfig_options.py 105-164 *)
Definition tbl_kconfig_more_syscalls : list (version * version * str * list str) :=
  [ ([3;18], VERSION_INF, $"ADVISE_SYSCALLS=y", []);
    ([2;6;28], VERSION_INF, $"AIO=y", []);
    ([2;6;19], VERSION_INF, $"BLOCK=y", [$"EXPERT=y"]);
    ([3;18], VERSION_INF, $"BPF_SYSCALL=y", []);
    (VERSION_ZERO, [4;1], $"BSD_PROCESS_ACCT=y", []);
    ([4;1], VERSION_INF, $"BSD_PROCESS_ACCT=y", [$"MULTIUSER=y"]);
    ([3;3], VERSION_INF, $"CHECKPOINT_RESTORE=y", []);
    ([4;18], VERSION_INF, $"COMPAT_32BIT_TIME=y", []);
    ([3;15], VERSION_INF, $"CROSS_MEMORY_ATTACH=y", [$"MMU=y"]);
    (VERSION_ZERO, VERSION_INF, $"CRYPTO_SHA256=y", []);
    ([2;6;36], VERSION_INF, $"FANOTIFY=y", []);
    ([2;6;39], VERSION_INF, $"FHANDLE=y", []);
    (VERSION_ZERO, VERSION_INF, $"FUTEX=y", []);
    (VERSION_ZERO, VERSION_INF, $"INET=y", []);
    ([2;6;13], [2;6;29], $"INOTIFY=y", []);
    ([2;6;18], VERSION_INF, $"INOTIFY_USER=y", []);
    ([5;1], VERSION_INF, $"IO_URING=y", [$"EXPERT=y"]);
    ([5;12], VERSION_INF, $"KCMP=y", [$"EXPERT=y"]);
    (VERSION_ZERO, VERSION_INF, $"KEYS=y", []);
    ([4;3], VERSION_INF, $"MEMBARRIER=y", []);
    ([4;18], [6;6], $"MEMFD_CREATE=y", []);
    ([6;6], VERSION_INF, $"MEMFD_CREATE=y", [$"EXPERT=y"]);
    ([2;6;16], VERSION_INF, $"MIGRATION=y", [$"MMU=y"]);
    (VERSION_ZERO, VERSION_INF, $"MODULE_UNLOAD=y", []);
    (VERSION_ZERO, VERSION_INF, $"MODULES=y", []);
    (VERSION_ZERO, VERSION_INF, $"NET=y", []);
    (VERSION_ZERO, [2;6;29], $"NFSD=y", [$"INET=y"]);
    ([2;6;29], [3;1], $"NFSD=y", [$"INET=y"; $"FILE_LOCKING=y"; $"FSNOTIFY=y"]);
    ([2;6;32], VERSION_INF, $"PROFILING=y", []);
    (VERSION_ZERO, VERSION_INF, $"PERF_EVENTS=y", [$"HAVE_PERF_EVENTS=y"]);
    (VERSION_ZERO, VERSION_INF, $"PCI_SYSCALL=y", [$"PCI=y"]);
    (VERSION_ZERO, VERSION_INF, $"POSIX_MQUEUE=y", [$"NET=y"]);
    ([4;10], VERSION_INF, $"POSIX_TIMERS=y", [$"EXPERT=y"]);
    ([2;6;30], VERSION_INF, $"QUOTA=y", []);
    ([4;18], VERSION_INF, $"RSEQ=y", [$"HAVE_RSEQ=y"]);
    ([5;10], VERSION_INF, $"SECCOMP=y", [$"HAVE_ARCH_SECCOMP=y"]);
    ([5;14], VERSION_INF, $"SECRETMEM=y", [$"ARCH_HAS_SET_DIRECT_MAP=y"]);
    (VERSION_ZERO, [4;1], $"SECURITY=y", [$"SYSFS=y"]);
    ([4;1], VERSION_INF, $"SECURITY=y", [$"SYSFS=y"; $"MULTIUSER=y"]);
    ([5;13], [6;5], $"SECURITY_LANDLOCK=y", [$"SECURITY=y"; $"ARCH_EPHEMERAL_INODES=n"]);
    ([6;5], VERSION_INF, $"SECURITY_LANDLOCK=y", [$"SECURITY=y"]);
    ([3;16], VERSION_INF, $"SGETMASK_SYSCALL=y", []);
    ([2;6;22], VERSION_INF, $"SIGNALFD=y", [$"EXPERT=y"]);
    (VERSION_ZERO, [5;5], $"SYSCTL_SYSCALL=y", [$"PROC_SYSCTL=y"]);
    ([3;15], VERSION_INF, $"SYSFS_SYSCALL=y", []);
    (VERSION_ZERO, VERSION_INF, $"SYSVIPC=y", []);
    (VERSION_ZERO, [2;6;16], $"UID16=y", []);
    ([2;6;16], [4;1], $"UID16=y", [$"EXPERT=y"; $"HAVE_UID16=y"]);
    ([4;1], VERSION_INF, $"UID16=y", [$"EXPERT=y"; $"HAVE_UID16=y"; $"MULTIUSER=y"]);
    ([4;3], VERSION_INF, $"USERFAULTFD=y", [$"MMU=y"]);
    ([3;15], VERSION_INF, $"USELIB=y", []) ].
(** kconfig_options.py 185-373 *)
Definition tbl_kconfig_syscall_deps : list (version * version * str * str) :=
  [ (VERSION_ZERO, VERSION_INF, $"fadvise64", $"ADVISE_SYSCALLS");
    (VERSION_ZERO, VERSION_INF, $"fadvise64_64", $"ADVISE_SYSCALLS");
    (VERSION_ZERO, VERSION_INF, $"madvise", $"ADVISE_SYSCALLS");
    (VERSION_ZERO, VERSION_INF, $"process_madvise", $"ADVISE_SYSCALLS");
    (VERSION_ZERO, VERSION_INF, $"io_setup", $"AIO");
    (VERSION_ZERO, VERSION_INF, $"io_destroy", $"AIO");
    (VERSION_ZERO, VERSION_INF, $"io_getevents", $"AIO");
    (VERSION_ZERO, VERSION_INF, $"io_submit", $"AIO");
    (VERSION_ZERO, VERSION_INF, $"io_cancel", $"AIO");
    (VERSION_ZERO, VERSION_INF, $"io_pgetevents", $"AIO");
    (VERSION_ZERO, VERSION_INF, $"ioprio_get", $"BLOCK");
    (VERSION_ZERO, VERSION_INF, $"ioprio_set", $"BLOCK");
    (VERSION_ZERO, VERSION_INF, $"bpf", $"BPF_SYSCALL");
    (VERSION_ZERO, VERSION_INF, $"acct", $"BSD_PROCESS_ACCT");
    ([6;5], VERSION_INF, $"cachestat", $"CACHESTAT_SYSCALL");
    (VERSION_ZERO, [5;12], $"kcmp", $"CHECKPOINT_RESTORE");
    (VERSION_ZERO, VERSION_INF, $"process_vm_readv", $"CROSS_MEMORY_ATTACH");
    (VERSION_ZERO, VERSION_INF, $"process_vm_writev", $"CROSS_MEMORY_ATTACH");
    (VERSION_ZERO, VERSION_INF, $"epoll_create", $"EPOLL");
    (VERSION_ZERO, VERSION_INF, $"epoll_create1", $"EPOLL");
    (VERSION_ZERO, VERSION_INF, $"epoll_ctl", $"EPOLL");
    (VERSION_ZERO, VERSION_INF, $"epoll_pwait", $"EPOLL");
    (VERSION_ZERO, VERSION_INF, $"epoll_pwait2", $"EPOLL");
    (VERSION_ZERO, VERSION_INF, $"epoll_wait", $"EPOLL");
    (VERSION_ZERO, VERSION_INF, $"name_to_handle_at", $"FHANDLE");
    (VERSION_ZERO, VERSION_INF, $"open_by_handle_at", $"FHANDLE");
    (VERSION_ZERO, VERSION_INF, $"fanotify_init", $"FANOTIFY");
    (VERSION_ZERO, VERSION_INF, $"fanotify_mark", $"FANOTIFY");
    (VERSION_ZERO, VERSION_INF, $"fork", $"MMU");
    (VERSION_ZERO, VERSION_INF, $"futex", $"FUTEX");
    (VERSION_ZERO, VERSION_INF, $"futex_wait", $"FUTEX");
    (VERSION_ZERO, VERSION_INF, $"futex_waitv", $"FUTEX");
    (VERSION_ZERO, VERSION_INF, $"futex_wake", $"FUTEX");
    (VERSION_ZERO, VERSION_INF, $"futex_requeue", $"FUTEX");
    (VERSION_ZERO, VERSION_INF, $"get_robust_list", $"FUTEX");
    (VERSION_ZERO, VERSION_INF, $"set_robust_list", $"FUTEX");
    (VERSION_ZERO, VERSION_INF, $"inotify_add_watch", $"INOTIFY_USER");
    (VERSION_ZERO, VERSION_INF, $"inotify_init", $"INOTIFY_USER");
    (VERSION_ZERO, VERSION_INF, $"inotify_init1", $"INOTIFY_USER");
    (VERSION_ZERO, VERSION_INF, $"inotify_rm_watch", $"INOTIFY_USER");
    (VERSION_ZERO, VERSION_INF, $"io_uring_enter", $"IO_URING");
    (VERSION_ZERO, VERSION_INF, $"io_uring_setup", $"IO_URING");
    (VERSION_ZERO, VERSION_INF, $"io_uring_register", $"IO_URING");
    ([5;12], VERSION_INF, $"kcmp", $"KCMP");
    (VERSION_ZERO, VERSION_INF, $"kexec_load", $"KEXEC");
    (VERSION_ZERO, VERSION_INF, $"kexec_file_load", $"KEXEC_FILE");
    (VERSION_ZERO, VERSION_INF, $"add_key", $"KEYS");
    (VERSION_ZERO, VERSION_INF, $"keyctl", $"KEYS");
    (VERSION_ZERO, VERSION_INF, $"request_key", $"KEYS");
    (VERSION_ZERO, VERSION_INF, $"membarrier", $"MEMBARRIER");
    ([4;18], VERSION_INF, $"memfd_create", $"MEMFD_CREATE");
    (VERSION_ZERO, VERSION_INF, $"mincore", $"MMU");
    (VERSION_ZERO, VERSION_INF, $"mlock", $"MMU");
    (VERSION_ZERO, VERSION_INF, $"mlock2", $"MMU");
    (VERSION_ZERO, VERSION_INF, $"mlockall", $"MMU");
    (VERSION_ZERO, VERSION_INF, $"mprotect", $"MMU");
    (VERSION_ZERO, VERSION_INF, $"msync", $"MMU");
    (VERSION_ZERO, VERSION_INF, $"munlock", $"MMU");
    (VERSION_ZERO, VERSION_INF, $"munlockall", $"MMU");
    (VERSION_ZERO, VERSION_INF, $"remap_file_pages", $"MMU");
    (VERSION_ZERO, VERSION_INF, $"process_mrelease", $"MMU");
    ([4;3], VERSION_INF, $"modify_ldt", $"MODIFY_LDT_SYSCALL");
    (VERSION_ZERO, VERSION_INF, $"delete_module", $"MODULE_UNLOAD");
    (VERSION_ZERO, VERSION_INF, $"init_module", $"MODULES");
    (VERSION_ZERO, VERSION_INF, $"finit_module", $"MODULES");
    ([4;1], VERSION_INF, $"capget", $"MULTIUSER");
    ([4;1], VERSION_INF, $"capset", $"MULTIUSER");
    ([4;1], VERSION_INF, $"setuid", $"MULTIUSER");
    ([4;1], VERSION_INF, $"setgid", $"MULTIUSER");
    ([4;1], VERSION_INF, $"setreuid", $"MULTIUSER");
    ([4;1], VERSION_INF, $"setregid", $"MULTIUSER");
    ([4;1], VERSION_INF, $"getresuid", $"MULTIUSER");
    ([4;1], VERSION_INF, $"setresuid", $"MULTIUSER");
    ([4;1], VERSION_INF, $"getresgid", $"MULTIUSER");
    ([4;1], VERSION_INF, $"setresgid", $"MULTIUSER");
    ([4;1], VERSION_INF, $"setfsuid", $"MULTIUSER");
    ([4;1], VERSION_INF, $"setfsgid", $"MULTIUSER");
    ([4;1], VERSION_INF, $"getgroups", $"MULTIUSER");
    ([4;1], VERSION_INF, $"setgroups", $"MULTIUSER");
    (VERSION_ZERO, VERSION_INF, $"accept", $"NET");
    (VERSION_ZERO, VERSION_INF, $"accept4", $"NET");
    (VERSION_ZERO, VERSION_INF, $"bind", $"NET");
    (VERSION_ZERO, VERSION_INF, $"connect", $"NET");
    (VERSION_ZERO, VERSION_INF, $"listen", $"NET");
    (VERSION_ZERO, VERSION_INF, $"getpeername", $"NET");
    (VERSION_ZERO, VERSION_INF, $"getsockname", $"NET");
    (VERSION_ZERO, VERSION_INF, $"getsockopt", $"NET");
    (VERSION_ZERO, VERSION_INF, $"recv", $"NET");
    (VERSION_ZERO, VERSION_INF, $"recvfrom", $"NET");
    (VERSION_ZERO, VERSION_INF, $"recvmsg", $"NET");
    (VERSION_ZERO, VERSION_INF, $"recvmmsg", $"NET");
    (VERSION_ZERO, VERSION_INF, $"send", $"NET");
    (VERSION_ZERO, VERSION_INF, $"sendmmsg", $"NET");
    (VERSION_ZERO, VERSION_INF, $"sendmsg", $"NET");
    (VERSION_ZERO, VERSION_INF, $"sendto", $"NET");
    (VERSION_ZERO, VERSION_INF, $"setsockopt", $"NET");
    (VERSION_ZERO, VERSION_INF, $"shutdown", $"NET");
    (VERSION_ZERO, VERSION_INF, $"socket", $"NET");
    (VERSION_ZERO, VERSION_INF, $"socketcall", $"NET");
    (VERSION_ZERO, VERSION_INF, $"socketpair", $"NET");
    (VERSION_ZERO, [3;1], $"nfsservctl", $"NFSD");
    (VERSION_ZERO, VERSION_INF, $"mbind", $"NUMA");
    (VERSION_ZERO, VERSION_INF, $"migrate_pages", $"MIGRATION");
    (VERSION_ZERO, VERSION_INF, $"move_pages", $"MIGRATION");
    (VERSION_ZERO, VERSION_INF, $"get_mempolicy", $"NUMA");
    (VERSION_ZERO, VERSION_INF, $"set_mempolicy", $"NUMA");
    (VERSION_ZERO, VERSION_INF, $"set_mempolicy_home_node", $"NUMA");
    (VERSION_ZERO, VERSION_INF, $"pciconfig_read", $"PCI_SYSCALL");
    (VERSION_ZERO, VERSION_INF, $"pciconfig_write", $"PCI_SYSCALL");
    (VERSION_ZERO, VERSION_INF, $"perf_event_open", $"PERF_EVENTS");
    (VERSION_ZERO, VERSION_INF, $"mq_notify", $"POSIX_MQUEUE");
    (VERSION_ZERO, VERSION_INF, $"mq_open", $"POSIX_MQUEUE");
    (VERSION_ZERO, VERSION_INF, $"mq_timedreceive", $"POSIX_MQUEUE");
    (VERSION_ZERO, VERSION_INF, $"mq_timedsend", $"POSIX_MQUEUE");
    (VERSION_ZERO, VERSION_INF, $"mq_unlink", $"POSIX_MQUEUE");
    (VERSION_ZERO, VERSION_INF, $"mq_getsetattr", $"POSIX_MQUEUE");
    (VERSION_ZERO, VERSION_INF, $"timer_create", $"POSIX_TIMERS");
    (VERSION_ZERO, VERSION_INF, $"timer_delete", $"POSIX_TIMERS");
    (VERSION_ZERO, VERSION_INF, $"timer_getoverrun", $"POSIX_TIMERS");
    (VERSION_ZERO, VERSION_INF, $"timer_gettime", $"POSIX_TIMERS");
    (VERSION_ZERO, VERSION_INF, $"timer_settime", $"POSIX_TIMERS");
    (VERSION_ZERO, VERSION_INF, $"rtas", $"PPC_RTAS");
    (VERSION_ZERO, VERSION_INF, $"subpage_prot", $"PPC_SUBPAGE_PROT");
    (VERSION_ZERO, VERSION_INF, $"quotactl", $"QUOTACTL");
    (VERSION_ZERO, VERSION_INF, $"quotactl_fd", $"QUOTACTL");
    (VERSION_ZERO, VERSION_INF, $"rseq", $"RSEQ");
    (VERSION_ZERO, VERSION_INF, $"lsm_get_self_attr", $"SECURITY");
    (VERSION_ZERO, VERSION_INF, $"lsm_list_modules", $"SECURITY");
    (VERSION_ZERO, VERSION_INF, $"lsm_set_self_attr", $"SECURITY");
    (VERSION_ZERO, VERSION_INF, $"landlock_create_ruleset", $"SECURITY_LANDLOCK");
    (VERSION_ZERO, VERSION_INF, $"landlock_add_rule", $"SECURITY_LANDLOCK");
    (VERSION_ZERO, VERSION_INF, $"landlock_restrict_self", $"SECURITY_LANDLOCK");
    (VERSION_ZERO, VERSION_INF, $"seccomp", $"SECCOMP");
    (VERSION_ZERO, VERSION_INF, $"memfd_secret", $"SECRETMEM");
    (VERSION_ZERO, VERSION_INF, $"sgetmask", $"SGETMASK_SYSCALL");
    (VERSION_ZERO, VERSION_INF, $"ssetmask", $"SGETMASK_SYSCALL");
    (VERSION_ZERO, VERSION_INF, $"signalfd", $"SIGNALFD");
    (VERSION_ZERO, VERSION_INF, $"signalfd4", $"SIGNALFD");
    (VERSION_ZERO, VERSION_INF, $"spu_create", $"SPU_FS");
    (VERSION_ZERO, VERSION_INF, $"spu_run", $"SPU_FS");
    (VERSION_ZERO, VERSION_INF, $"swapon", $"SWAP");
    (VERSION_ZERO, VERSION_INF, $"swapoff", $"SWAP");
    (VERSION_ZERO, [5;5], $"sysctl", $"SYSCTL_SYSCALL");
    (VERSION_ZERO, VERSION_INF, $"sysfs", $"SYSFS_SYSCALL");
    (VERSION_ZERO, VERSION_INF, $"ipc", $"SYSVIPC");
    (VERSION_ZERO, VERSION_INF, $"msgctl", $"SYSVIPC");
    (VERSION_ZERO, VERSION_INF, $"msgget", $"SYSVIPC");
    (VERSION_ZERO, VERSION_INF, $"msgrcv", $"SYSVIPC");
    (VERSION_ZERO, VERSION_INF, $"msgsnd", $"SYSVIPC");
    (VERSION_ZERO, VERSION_INF, $"semctl", $"SYSVIPC");
    (VERSION_ZERO, VERSION_INF, $"semget", $"SYSVIPC");
    (VERSION_ZERO, VERSION_INF, $"semop", $"SYSVIPC");
    (VERSION_ZERO, VERSION_INF, $"semtimedop", $"SYSVIPC");
    (VERSION_ZERO, VERSION_INF, $"shmat", $"SYSVIPC");
    (VERSION_ZERO, VERSION_INF, $"shmctl", $"SYSVIPC");
    (VERSION_ZERO, VERSION_INF, $"shmdt", $"SYSVIPC");
    (VERSION_ZERO, VERSION_INF, $"shmget", $"SYSVIPC");
    ([3;17], [4;18], $"memfd_create", $"TMPFS");
    (VERSION_ZERO, VERSION_INF, $"chown16", $"UID16");
    (VERSION_ZERO, VERSION_INF, $"fchown16", $"UID16");
    (VERSION_ZERO, VERSION_INF, $"lchown16", $"UID16");
    (VERSION_ZERO, VERSION_INF, $"getuid16", $"UID16");
    (VERSION_ZERO, VERSION_INF, $"getgid16", $"UID16");
    (VERSION_ZERO, VERSION_INF, $"geteuid16", $"UID16");
    (VERSION_ZERO, VERSION_INF, $"getegid16", $"UID16");
    (VERSION_ZERO, VERSION_INF, $"getresuid16", $"UID16");
    (VERSION_ZERO, VERSION_INF, $"getresgid16", $"UID16");
    (VERSION_ZERO, VERSION_INF, $"getgroups16", $"UID16");
    (VERSION_ZERO, VERSION_INF, $"setuid16", $"UID16");
    (VERSION_ZERO, VERSION_INF, $"setgid16", $"UID16");
    (VERSION_ZERO, VERSION_INF, $"setreuid16", $"UID16");
    (VERSION_ZERO, VERSION_INF, $"setregid16", $"UID16");
    (VERSION_ZERO, VERSION_INF, $"setfsuid16", $"UID16");
    (VERSION_ZERO, VERSION_INF, $"setfsgid16", $"UID16");
    (VERSION_ZERO, VERSION_INF, $"setresuid16", $"UID16");
    (VERSION_ZERO, VERSION_INF, $"setresgid16", $"UID16");
    (VERSION_ZERO, VERSION_INF, $"setgroups16", $"UID16");
    (VERSION_ZERO, VERSION_INF, $"userfaultfd", $"USERFAULTFD");
    (VERSION_ZERO, VERSION_INF, $"uselib", $"USELIB");
    (VERSION_ZERO, [4;3], $"vm86old", $"VM86");
    (VERSION_ZERO, [4;3], $"vm86", $"VM86");
    ([4;3], VERSION_INF, $"vm86old", $"X86_LEGACY_VM86");
    ([4;3], VERSION_INF, $"vm86", $"X86_LEGACY_VM86");
    ([5;5], VERSION_INF, $"ioperm", $"X86_IOPL_IOPERM");
    ([5;5], VERSION_INF, $"iopl", $"X86_IOPL_IOPERM");
    ([6;6], VERSION_INF, $"map_shadow_stack", $"X86_USER_SHADOW_STACK") ].

(** arch/arm.py 17-23 *)
Definition arm_kconfig : list (version * version * str * list str) :=
  [ ([2;6;21], VERSION_INF, $"KEXEC=y", [$"PM_SLEEP_SMP=y"; $"MMU=y"]);
    ([2;6;37], [5;10], $"SECCOMP=y", []) ].
(** arch/arm.py 45-45: if self.abi == 'eabi' *)
Definition arm_adds_45 : list (version * version * str * list str) :=
  [ ([2;6;16], VERSION_INF, $"OABI_COMPAT=n", []) ].
(** arch/arm.py 56-56: if self.abi == 'oabi' *)
Definition arm_adds_56 : list (version * version * str * list str) :=
  [ ([2;6;16], VERSION_INF, $"OABI_COMPAT=y", [$"AEABI=y"; $"THUMB2_KERNEL=n"]) ].

(** arch/arm64.py 16-26 *)
Definition arm64_kconfig : list (version * version * str * list str) :=
  [ ([3;7], VERSION_INF, $"COMPAT=y", [$"ARM64_4K_PAGES=y"; $"EXPERT=y"]);
    ([4;8], VERSION_INF, $"KEXEC=y", [$"PM_SLEEP_SMP=y"]);
    ([5;0], VERSION_INF, $"KEXEC_FILE=y", []);
    ([3;19], [5;10], $"SECCOMP=y", []);
    ([4;7], VERSION_INF, $"NUMA=y", []) ].

(** arch/mips.py 15-21 *)
Definition mips_kconfig : list (version * version * str * list str) :=
  [ ([2;6;20], [3;9], $"KEXEC=y", [$"EXPERIMENTAL=y"]);
    ([3;9], VERSION_INF, $"KEXEC=y", []);
    ([2;6;15], [5;10], $"SECCOMP=y", []) ].
(** arch/mips.py 54-62: if self.bits32 *)
Definition mips_adds_54 : list (version * version * str * list str) :=
  [ (VERSION_ZERO, VERSION_INF, $"32BIT=y", []);
    (VERSION_ZERO, VERSION_INF, $"64BIT=n", []);
    ([2;6;15], VERSION_INF, $"CPU_MIPS32_R1=n", []);
    ([2;6;15], VERSION_INF, $"CPU_MIPS32_R2=y", [$"SYS_HAS_CPU_MIPS32_R2=y"]);
    ([4;0], VERSION_INF, $"CPU_MIPS32_R6=n", []) ].
(** arch/mips.py 72-85: else of self.bits32 *)
Definition mips_adds_72 : list (version * version * str * list str) :=
  [ (VERSION_ZERO, VERSION_INF, $"32BIT=n", []);
    (VERSION_ZERO, VERSION_INF, $"64BIT=y", []);
    (VERSION_ZERO, VERSION_INF, $"NUMA=y", [$"SYS_SUPPORTS_NUMA=y"]);
    (VERSION_ZERO, VERSION_INF, $"MIPS32_O32=y", []);
    (VERSION_ZERO, VERSION_INF, $"MIPS32_N32=y", []) ].

(** arch/powerpc.py 27-45 *)
Definition ppc_kconfig : list (version * version * str * list str) :=
  [ ([2;6;30], VERSION_INF, $"PPC_OF_BOOT_TRAMPOLINE=n", []);
    ([2;6;16], [2;6;27], $"CRASH_DUMP=n", []);
    ([2;6;27], VERSION_INF, $"CRASH_DUMP=n", []);
    ([4;12], VERSION_INF, $"CRASH_DUMP=n", []);
    ([3;4], VERSION_INF, $"FA_DUMP=n", []);
    (VERSION_ZERO, VERSION_INF, $"RELOCATABLE=n", [$"PPC_OF_BOOT_TRAMPOLINE=n"; $"CRASH_DUMP=n"; $"FA_DUMP=n"]);
    ([2;6;15], [3;9], $"KEXEC=y", [$"PPC_BOOK3S=y"; $"EXPERIMENTAL=y"]);
    ([3;9], VERSION_INF, $"KEXEC=y", [$"PPC_BOOK3S=y"]);
    ([2;6;15], [5;10], $"SECCOMP=y", [$"PROC_FS=y"]);
    ([2;6;15], VERSION_INF, $"PPC_RTAS=y", []) ].
(** arch/powerpc.py 51-55 *)
Definition ppc_kconfig_syscall_deps : list (version * version * str * str) :=
  [ (VERSION_ZERO, VERSION_INF, $"pkey_alloc", $"PPC_MEM_KEYS");
    (VERSION_ZERO, VERSION_INF, $"pkey_free", $"PPC_MEM_KEYS");
    (VERSION_ZERO, VERSION_INF, $"pkey_mprotect", $"PPC_MEM_KEYS") ].
(** arch/powerpc.py 93-94: if self.bits32 *)
Definition ppc_adds_93 : list (version * version * str * list str) :=
  [ (VERSION_ZERO, VERSION_INF, $"PPC64=n", []);
    (VERSION_ZERO, VERSION_INF, $"PPC_BOOK3S_32=y", []) ].
(** arch/powerpc.py 111-136: else of self.bits32 *)
Definition ppc_adds_111 : list (version * version * str * list str) :=
  [ ([2;6;15], [5;7], $"COMPAT=y", [$"PPC64=y"]);
    ([5;7], VERSION_INF, $"COMPAT=y", [$"PPC64=y"; $"CPU_LITTLE_ENDIAN=n"; $"CC_IS_CLANG=n"]);
    ([2;6;15], [2;6;22], $"PPC_PSERIES=y", [$"PPC64=y"; $"PPC_MULTIPLATFORM=y"]);
    ([2;6;22], VERSION_INF, $"PPC_PSERIES=y", [$"PPC64=y"; $"PPC_BOOK3S=y"]);
    ([2;6;15], VERSION_INF, $"NUMA=y", [$"PPC64=y"; $"SMP=y"; $"PPC_PSERIES=y"]);
    ([4;10], VERSION_INF, $"KEXEC_FILE=y", [$"PPC64=y"; $"CRYPTO=y"; $"CRYPTO_SHA256=y"]);
    ([2;6;15], VERSION_INF, $"PPC_64K_PAGES=y", [$"PPC_BOOK3S_64=y"]);
    ([2;6;25], [5;9], $"PPC_SUBPAGE_PROT=y", [$"PPC_64K_PAGES=y"; $"PPC_BOOK3S_64=y"]);
    ([5;9], VERSION_INF, $"PPC_SUBPAGE_PROT=y", [$"PPC_64K_PAGES=y"; $"PPC_64S_HASH_MMU=y"]);
    ([4;16], VERSION_INF, $"PPC_MEM_KEYS=y", [$"PPC_BOOK3S_64=y"; $"PPC_64S_HASH_MMU=y"]);
    ([4;15], [6;12], $"PPC_FAST_ENDIAN_SWITCH=y", []);
    ([2;6;16], VERSION_INF, $"SPU_FS=y", [$"PPC_CELL=y"; $"COREDUMP=y"]);
    ([2;6;18], VERSION_INF, $"SPU_BASE=y", []) ].

(** arch/riscv.py 15-22 *)
Definition riscv_kconfig : list (version * version * str * list str) :=
  [ ([4;8], VERSION_INF, $"KEXEC=y", [$"MMU=y"]);
    ([5;5], [5;10], $"SECCOMP=y", []);
    ([5;12], VERSION_INF, $"NUMA=y", [$"SMP=y"; $"MMU=y"]) ].
(** arch/riscv.py 47-52: if self.bits32 *)
Definition riscv_adds_47 : list (version * version * str * list str) :=
  [ ([4;15], [5;1], $"32BIT=y", []);
    ([4;15], [5;1], $"64BIT=n", []);
    ([4;15], [5;1], $"ARCH_RV32I=y", []);
    ([4;15], [5;1], $"ARCH_RV64I=n", []);
    ([4;15], [5;1], $"CPU_SUPPORTS_32BIT_KERNEL=y", []);
    ([4;15], [5;1], $"CPU_SUPPORTS_64BIT_KERNEL=n", []) ].
(** arch/riscv.py 58-60: else of self.bits32 *)
Definition riscv_adds_58 : list (version * version * str * list str) :=
  [ ([5;19], VERSION_INF, $"COMPAT=y", [$"64BIT=y"; $"MMU=y"]);
    ([5;19], VERSION_INF, $"KEXEC_FILE=y", [$"64BIT=y"; $"MMU=y"]) ].

(** arch/x86.py 21-35 *)
Definition x86_kconfig : list (version * version * str * list str) :=
  [ ([4;15], VERSION_INF, $"RETPOLINE=n", []);
    ([2;6;13], [2;6;19], $"KEXEC=y", [$"EXPERIMENTAL=y"]);
    ([2;6;19], VERSION_INF, $"KEXEC=y", []);
    (VERSION_ZERO, [2;6;24], $"SECCOMP=y", [$"PROC_FS=y"]);
    ([2;6;24], [5;10], $"SECCOMP=y", []);
    ([5;5], VERSION_INF, $"X86_IOPL_IOPERM=y", []);
    ([4;3], VERSION_INF, $"MODIFY_LDT_SYSCALL=y", []);
    ([4;3], VERSION_INF, $"MODIFY_LDT_SYSCALL=y", []) ].
(** arch/x86.py 37-41 *)
Definition x86_kconfig_syscall_deps : list (version * version * str * str) :=
  [ (VERSION_ZERO, VERSION_INF, $"pkey_alloc", $"X86_INTEL_MEMORY_PROTECTION_KEYS");
    (VERSION_ZERO, VERSION_INF, $"pkey_free", $"X86_INTEL_MEMORY_PROTECTION_KEYS");
    (VERSION_ZERO, VERSION_INF, $"pkey_mprotect", $"X86_INTEL_MEMORY_PROTECTION_KEYS") ].
(** arch/x86.py 96-111: if self.bits32 *)
Definition x86_adds_96 : list (version * version * str * list str) :=
  [ ([2;6;16], [2;6;18], $"VM86=y", [$"X86=y"; $"EMBEDDED=y"]);
    ([2;6;18], [2;6;24], $"VM86=y", [$"EMBEDDED=y"]);
    ([2;6;24], [4;3], $"VM86=y", [$"X86_32=y"; $"EXPERT=y"]);
    ([4;3], VERSION_INF, $"X86_LEGACY_VM86=y", [$"X86_32=y"]);
    ([4;3], VERSION_INF, $"X86_LEGACY_VM86=y", [$"X86_32=y"]);
    (VERSION_ZERO, VERSION_INF, $"NOHIGHMEM=n", []);
    (VERSION_ZERO, VERSION_INF, $"HIGHMEM4G=n", []);
    (VERSION_ZERO, VERSION_INF, $"HIGHMEM64G=y", []);
    (VERSION_ZERO, VERSION_INF, $"X86_BIGSMP=y", [$"SMP=y"]);
    (VERSION_ZERO, [2;6;23], $"NUMA=y", [$"SMP=y"; $"HIGHMEM64G=y"]);
    ([2;6;23], [2;6;29], $"NUMA=y", [$"SMP=y"; $"HIGHMEM64G=y"; $"EXPERIMENTAL=y"]);
    ([2;6;29], VERSION_INF, $"NUMA=y", [$"SMP=y"; $"HIGHMEM64G=y"; $"X86_BIGSMP=y"]) ].
(** arch/x86.py 123-141: else of self.bits32 *)
Definition x86_adds_123 : list (version * version * str * list str) :=
  [ (VERSION_ZERO, VERSION_INF, $"IA32_EMULATION=y", []);
    ([3;4], [3;9], $"X86_X32=y", [$"EXPERIMENTAL=y"]);
    ([3;9], [5;18], $"X86_X32=y", []);
    ([5;18], VERSION_INF, $"X86_X32_ABI=y", []);
    ([3;17], VERSION_INF, $"KEXEC_FILE=y", [$"X86_64=y"; $"CRYPTO=y"; $"CRYPTO_SHA256=y"]);
    (VERSION_ZERO, [2;6;15], $"NUMA=y", []);
    ([2;6;15], [2;6;29], $"NUMA=y", [$"SMP=y"]);
    ([2;6;29], VERSION_INF, $"NUMA=y", [$"SMP=y"]);
    ([4;6], VERSION_INF, $"X86_INTEL_MEMORY_PROTECTION_KEYS=y", [$"X86_64=y"; $"CPU_SUP_INTEL=y"]);
    ([6;6], VERSION_INF, $"X86_USER_SHADOW_STACK=y", [$"AS_WRUSS=y"]) ].

