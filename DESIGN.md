# Formal model of securefs in Rocq (Coq 8.16.1)

This file says what is modelled, how each property of `properties.jsonl` is
stated and proved, what is trusted, and what was found.  The Coq sources are in
`rocq/theories` (logical name `Verif`).

## 1. Conventions

* Bytes are Coq's `Byte.byte`; strings and buffers are `list byte`.  Lengths,
  offsets and block numbers are `nat` (unbounded); every place where the C++
  width (`uint32_t`, `uint64_t`, `size_t`) can matter is either an explicit
  `mod 2^w` on `N` or an explicit guard in the theorem, and is named below.
* A C++ method that mutates an object is a function `state -> state * outcome`;
  the returned state is also given on failure, because several methods mutate
  before they throw.
* Undefined behaviour (out-of-bounds access, underflowing length, use of an
  uninitialised value) is a separate outcome, never a default value.
* Cryptographic primitives (AES-GCM, HMAC-SHA-256, AES-CMAC, AES-CTR, BLAKE2b,
  PBKDF2/scrypt/argon2) are arguments of the model.  Correctness theorems
  assume only functional facts (decrypt inverts encrypt, output lengths).
  Authenticity theorems assume unforgeability *explicitly in the statement*,
  as "whatever verifies was produced by an earlier call recorded in the log".
* Random numbers are an arbitrary infinite sequence given as an argument.
* A physical file is a `list byte` with POSIX `pread`/`pwrite`/`ftruncate`
  semantics.
* Files: `*Model.v` (definitions only), `*Proofs.v`, and `Properties*.v`
  (theorem statements closed by `exact`, `Print Assumptions`, and an `Example`
  showing that the hypotheses are satisfiable).

## 2. Plan per property

| id | model | proof |
|----|-------|-------|
| C01 | `BlockBasedStream` over an abstract block backend, lite backend | generic refinement theorem from backend contract, contract proved for lite backend |
| C02 | same generic layer, full-format backend (data file + HMAC'd metadata file) | contract proved for full backend |
| C03 | constructors of both streams, header read/write, HMAC flush | representation relation implies reopen succeeds |
| C04 | `calculate_real_size`, `compute_virtual_size` | arithmetic |
| C05 | lite `read_multi_blocks` on arbitrary stored bytes | case analysis per block, unforgeability hypothesis over the log of encryptions |
| C06 | `HMACStream` constructor, full `read_multi_blocks` | same |
| C07 | `HMACStream`, `PaddedStream`, `WriteCachedStream` | refinement by induction over operation lists |
| C08 | `default_compute_padding` | arithmetic on big-endian integers |
| C09 | a second run of the block stream that records its physical writes and resizes (`CrashModel`); what a crash leaves is a relation that bounds which bytes may differ and which lengths are possible (`CrashSpec`) | the recorded writes stay inside the touched blocks for any back end (invariant of the recording run); reading depends on the blocks read only |
| C10-C12 | integer, hex and base32 codecs | induction, finite sweeps over bytes |
| C13, C14 | header and B-tree page codecs | composition of C10 and list lemmas |
| C15 | AES-SIV construction over CMAC/CTR arguments | xor algebra |
| C16 | HKDF | induction on the number of blocks |
| C17-C21 | page-level B-tree with node cache, free list, flush/reload/rebuild | inductive tree shape predicate on a page store; refinement to sorted association list |
| C22, C13 | `FileBase` times and flags | case analysis, induction over operation lists |
| C23, C26, C27, C28, C49 | full-format namespace operations over directory maps and file table, path resolution with remembered parents, cache eviction as an operation | one invariant over all histories; path resolution equal to an inductive walk, errors included; refuted statements where the code mutates before it checks |
| C24 | file table (`TableModel`): every interleaving of atomic actions of any number of threads, failures included | invariant over all schedules; refinement to one cell per file (`TableSpec`) |
| C25 | path formulas of both layouts; create/open/unlink over a model of the host directory, with crashes (`TableIoModel`) | injectivity of hex; refinement to two byte strings per id |
| C29-C33 | name translators over the SIV and base32 models | round-trip and injectivity |
| C34 | `DirectoryImpl::next` loop | refuted for foreign names that decode but do not verify, exact for others |
| C35 | directory + SQLite table as map with transactions | invariant over op list with failures |
| C36, C37 | xattr name/value cryptors, list protocol, host attribute store | refinement of every history of calls to plain attributes; tampering; refuted for over-sized buffers in lite |
| C38, C39, C46, C50-C52 | protobuf wire format, configuration encrypt/decrypt, legacy configuration, create/chpass/migrate as sequences of host states (`ProtoModel`, `ParamsModel`) | round trip from bytes to bytes; unforgeability hypothesis over what was sealed; every intermediate host state, with failures |
| C53 | names, inodes, stored files and handles with their own key and padding (`HandleModel`); the specification keeps one byte array per file and counts truncating opens (`HandleSpec`) | simulation: equal names, every stored file represents its array, every handle not outdated has the key and padding in the header |
| C54 | the operations of `LongNameModel` with every translator `make_translator` can choose; the specification runs the same host calls on a tree with plain names and lists the two refusals (`LiteTreeSpec`) | simulation: the host's directory at the encrypted path holds the plain entries under their encrypted names, and at most a table besides; exact equality when no name is long |
| C55 | `FuseModel`: the static callbacks, the tracer, the error mapping and the wrappers that `mount` puts around a file system, over an arbitrary file system | case analysis over all 31 calls; the wrappers as functions of the inner file system |
| C56 | the log lines of `FuseModel`; two calls are compared after erasing the contents of their buffers (`FuseSpec.hide`) | equality of the lines of two runs (non-interference) |
| C57 | `ConcModel`: threads that take the mutex and the host's lock, run the operation in steps that interleave, and let go; `ConcSpec`: operations that happen at once | refinement: the steps of a thread that holds the locks commute into one; deadlock freedom from an invariant on who holds a lock; termination by well-founded induction on what the threads have left to do |
| C58 | `MountModel`: the command line, the message to the child process and its bytes, the file system put together from it; `MountSpec`: which part of the file system each option decides | round trip of the message (`ProtoProofs`), then case analysis over formats and options |
| C59 | the streams of C01 and C02 with verification on and off, on arbitrary stored bytes | two runs of the block stream compared step by step for any two back ends whose reads agree wherever the first does not report failed verification |
| C60 | reading passwords byte by byte from a console with terminal flags and echo, the four commands that use a password from options and input to exit code, on top of the model of C38/C39/C52 with every written byte a state | reading by induction on the input; histories by an invariant (the configuration file opens with the known secrets to the known parameters and to nothing else) kept by every command and every killed command |
| C61 | the info command with an arbitrary printer | two runs compared |
| C62 | the table of commands, the comparison with C strings (reading beyond the end is undefined), exit codes | cases on the words; the invariant of C60 |
| C63 | workers, waiter thread, pipe and signals as a transition system with the points at which a thread can be cancelled | invariants (requests taken = completed + in hand; bytes in the pipe cover ended workers; cancelled workers) and a measure that every step after the exit flag decreases |
| C64 | open file with the stored bytes as of the last fsync and the physical operations since (lite: one file; full: two, with the attributes in memory) | invariant linking the pending operations to the calls since the fsync; each call's operations avoid the blocks it does not touch (C09), so any left-over agrees there; `C64_full_fsync_refuted` for fsync without flush |
| C65 | the physical operations of C09 over whole histories; records cut out of them by `SecrecySpec` | the block calls of an operation are a function of the content alone (`plan`), the encryptions with their draws a function of the calls (`ghost`); draws rise strictly |
| C66 | the same, with an ideal cipher `otp` (pad per key and nonce, any tag function of the ciphertext) | equal shapes give the same draws and lengths; the change of pads is looked up by nonce, unique by C65; full format in lock step with equal stored states. Real AES-GCM is not ideal: the reduction from its security is outside the model |
| C67 | `FaultModel`: the two streams again, every pread, pwrite and ftruncate with an outcome given by an arbitrary fault plan | the run with faults is in step with the traced run without faults (C09) up to the failing call; what it leaves is one of the left-overs of C09 |
| C68 | `NormModel`: the four comparisons and how one is chosen, and the true path of a path; the Unicode library is a parameter with stated properties | each comparison is the lexicographic order of a key of the names; the functions that walk paths give equal results for equal keys; spellings by following every entry through every operation; lite: a mount with normalization is in step with one without on the normal forms, then C54 and C30 |
| C69 | `FsConcModel`: each operation on names as a program whose steps are what is done under one lock; threads run such programs in any interleaving | invariant over the steps of all threads: every running program carries the references (with types) and link counts it still owes, and is proved safe to continue from every state that has them; a program that nothing interrupts is proved equal to the sequential model of C23 and C49 |
| C70 | `FsConcModel`, as for C69; `FsMomentSpec`: the steps a call took, path walks through successive states, what each call is to do in one of its steps | programs that note their steps: what the steps of each program do is proved under arbitrary interference, and where a call relies on the others (a file that has lost a name is still there) together with the invariant of C69; then carried through every run |
| C71 | `LiteFsModel` joins the tree of `LongNameModel`, the stored bytes and handles of `HandleModel` and the link texts of `NameModel` through inode numbers; `LiteFsSpec` is a plain file system (tree, byte arrays, texts) with the refusals of C54 | simulation: the step lemmas of C53 and C54 are combined with the invariant that every inode number in the tree has contents; histories by induction |
| C72 | `RepoModel`: the stored pairs of files, the objects in memory (`ObjModel`: attributes in the encrypted header, padding, contents or a B-tree, `GBtreeModel`, in the encrypted stream), the file table, all calls as programs of steps between locks, evictions, unmounts and mounts; `RepoSpec`: uses of open files on the map of `FullFsModel`, agreement of answers | each object represents an inode (the stream laws of C02 and C03, the header laws of C13 and the B-tree laws of C17-C20 combined); every step of `RepoModel` is simulated by the step of `FsConcModel` with the references the program holds; programs by a simulation relation closed under sequencing, runs by induction, one call alone by C69_alone |
| C73 | `LiteConcModel`: every call as a program of system calls and SQLite calls, tables as files with an inode, locks and transactions of SQLite, any number of threads; `LiteConcSpec`: a plain tree on which each call takes effect at one moment | forward simulation: the moment of a call is its (last) system call, or the step that makes it fail; induction over the schedule, with the relation of C54 between plain and physical tree |
| C74 | the same model; `LiteConcSpec`: schedules that leave each call its table | invariant over the schedule: the tree with the rows that will be there once the calls that have done their work have committed satisfies the invariant of C35; each call is shown to be built from steps that keep it |
| C75 | the same model with a kill between any two steps: open transactions are rolled back, the tree stays | the rows on the disk and the rows that the invariant of C74 speaks of differ only in the names of calls under way (each call edits only the rows of its own names) |
| C76 | `RepoKillModel` over `RepoModel`: the bytes under the streams of all objects, without what the objects remember; `RepoKillSpec`: reading stored files, moments since the last flush, MACs | every step leaves the bytes of a file alone, marks its MAC as out of date, or flushes it (`RepoSettle`); what nobody holds has been flushed; the root is flushed whenever its last holder lets go |
| C77 | `OpenRaceModel`: opening in steps, one per access to the stored file, among the threads of `ConcModel`; `OpenRaceSpec`: nothing yet or an array, and the open handles | the invariant that all open handles remember the key and padding of the stored header, `holds` of C53; refinement by `ConcProofs.refine`; the stepwise programs run alone are `lite_open` and `bb_step` |
| C78 | `ObjModel` (attributes of an object, chmod, chown, utimens), `RepoModel`; `RepoAttrSpec`: what stat reports, a table of what may change it | every step of every call is one of the table's changes for every file, by composition over programs; loading what was stored gives back the attributes (C72's invariant) |
| C79 | `WinModel` (quoting, feeding the pipe); `WinSpec.argv`: how Windows takes a command line apart | induction over the quoting loop with the number of backslashes pending; induction over the system's answers |
| C80 | `WinModel` (conversion of times, with wrap-around and undefined overflow) | arithmetic |
| C81 | `WinModel.concat_and_norm`; `WinSpec.spells`, `walk` | induction over the spelling |
| C82 | `WinModel` (links, opening, transfers); `WinSpec.posix_open`, `arr_read`, `arr_write` | cases; induction over the pieces |
| C83 | `UnmountModel`: the commands, against any directory of the host, and `FuseModel`'s mount behind the kernel as one such directory | cases, from C55 |
| C84 | `LogModel`: threads that log, the stream with its lock and buffer, step by step; `LogSpec`: lines | invariant over all histories |
| C85 | `ListConcModel`: the steps of a listing between those of `LiteConcModel`; `ListConcSpec`: what POSIX says about readdir of a changing directory | invariants over all interleavings; every row of every table was written for a name (induction over the schedule); the invariant of C75 |
| C86 | `GetpathModel`: the steps of `vgetpath` between those of `TableModel`, with the addresses it keeps; `GetpathSpec`: the spelling by plain cells | an invariant over all interleavings: an object put to rest is destroyed only after 41 others |
| C87 | `LifeModel`: commands one after another, put together from `ParamsModel`, `MountModel`, `LiteFsModel` and `RepoModel`; `LifeSpec`: the secrets in force and the plain file system they open | induction over the commands with the invariant that the configuration file is sealed with the secrets in force; then C71 and C72 from any reached state |
| C88 | `AccessModel`: the flags as bits, what the host lets a descriptor do, the physical operations of `CrashModel` done through that descriptor; `AccessSpec`: a byte array with a mode | simulation: every open handle's descriptor reads, writes if that was asked for, and does not append; facts about the bits for all flags |
| C89 | no new model: `BlockModel`, `LiteModel` and `FullStreamModel` without the hypothesis `sop_within` of C01 and C02; `LimitSpec`: a byte array with a largest size | the representation invariants hold for contents of any size; every operation beyond the limit is rejected before it changes anything, apart from the extension in front of a write; induction over histories |
| C90 | `XattrFsModel`: `LiteFsModel` with the attributes of each of the host's inodes, attribute calls found by `locate`; `XattrFsSpec`: the file system of `LiteFsSpec` with a set of named values for each file; attributes of directories and symbolic links are left out | the invariants of C71 and C36 side by side, for every inode; induction over histories |
| C91 | `XattrRepoModel`: `RepoModel` with the attributes of the two stored files of each id, which end with these files; `XattrRepoSpec`: the map of `FullFsModel` with a set of named values for each file; one call after another | the look-up of an attribute call is simulated as the others of C72; the invariants of C72 and C36 side by side, for every id; induction over histories |
| C92 | `WaitModel`: the loop of the command, the child, other processes that mount and unmount, and waitpid's answers, as one transition system; `WaitSpec`: how processes end and what should be reported | an invariant over all runs; the distance to the end of the loop decreases |
| C93 | `UnixPathModel`: how paths are joined to the directory's name, and resolution of paths in a tree of the host (symbolic links in the storage are not modelled); `UnixPathSpec`: going down name by name | lemmas on splitting a joined path, and C31 for encrypted names |
| C94 | `RandomModel`: the table of bit counts and the two comparisons; `RandomSpec`: ones counted bit by bit | all 256 entries of the table, then induction over the key |
| C95 | `SpawnModel`: tables of descriptors, pipe, dup2, close and exec, posix_spawn's actions, and every call that can fail; `SpawnSpec`: what the two processes should have open | lookup lemmas for tables; cases over the failures |
| C96 | `WalkModel`: trees of the host (listings with "." and "..", types told or not, errors), `recursive_traverse` with any callback, its two callers, joined to `LongNameModel` and `NameModel`; `WalkSpec`: what is inside a tree | nested induction over trees; the walk equals a fold over the entries met; composed with C47 and C40 |
| C97 | `SuffixKillModel`: the states of the host between the renames and commits of `change_long_name_suffix`, tables rolled back; `SuffixKillSpec`: only names of long entries differ | every state is a renaming of the first (the simulation behind C47 extended to states between renames); refutations by a killed run of C47's example |
| C98 | `DirFaultModel`: the directory of C17 over a stream whose calls fail by a plan, writes cut after any number of bytes (encryption left out); `DirFaultSpec`: the right answer or an error of the plan, an operation that failed having no effect | what only reads, read with faults, lies between the states before and after the same without; a cut write of a page hits a node that is dirty in memory, so the invariant of C17 holds; then as C17; refutations by runs |
| C99 | `CommitFailModel`: the operations of `LongNameModel` with a choice, per call and table, of whether the commit in `finish` fails; a failing rollback is not modelled, closing the database rolls back; `CommitFailSpec`: states that differ in the rows of tables only, rows that belong to a name | simulation, call by call, of the run in which every commit succeeds; invariant over rows; refutations by one create, and by a create and an unlink |
| C100 | `AttrPathModel`: resolution of paths on a host with symbolic links, the four calls, and the second attempt of `OSService::chmod` and `chown` after ENOTSUP; the tree itself does not change (C71 has the calls that change it); `AttrPathSpec`: going down name by name, attributes by file | resolution without links on the way is going down (C93, C31); induction over histories; the text of an encrypted link begins at the host's root |
| C101 | `PidFileModel`: the steps open-and-truncate, write, remove of any number of processes on one name, with failures and cut writes, and `raise_fd_limit`; what serving does is a parameter, a relative name is taken to stay the same file when FUSE goes to the background, and the number of a process is a parameter; `PidFileSpec`: the content of the file and the number that a text says | induction over the mounts, an invariant over all interleavings, and the standard library's round trip of decimal numbers |
| C40 | threshold arithmetic | `lia` |
| C41 | registry, slots, generations and per-thread holders (`ThreadLocalModel`), every history | refinement to one object per owner and thread (`ThreadLocalSpec`) |
| C42 | timer, worker, callers, destructor and clock as transition system (`TimerModel`) | invariant over all histories; promptness; refuted for the moment of the call itself and for decreasing times |
| C43 | lock file protocol, system call by system call, any number of processes that fail and die (`LockerModel`) | refuted for overlapping acquisitions; proved for histories in which they do not overlap |
| C44 | every operation of both formats as lock scopes with all its traces (`LockModel`); threads under every interleaving, `std::lock` with its back-off | an order on locks; from every reachable state all threads can finish; number of steps bounded but for back-offs; exclusion |
| C45 | inode function | arithmetic |
| C47 | suffix change over a directory tree | simulation between the old tree and the partly changed one; refuted for orders that visit a parent before a long-named subdirectory |
| C48 | `construct`, `cast_as` as actions of `TableModel` | invariant over all schedules |

Not expressible: performance, memory safety of third-party libraries, actual
cryptographic strength, the Windows API under `win.cpp`, FUSE kernel behaviour.

## 3. Trusted base

* Coq 8.16.1 kernel and its standard library.
* The reading of the C++ sources behind each definition (cited in comments).
* The hypotheses written in each theorem statement.
* `Print Assumptions` is run under every theorem in `Properties*.v`.  Every one
  answers `Closed under the global context`: no axiom is used, neither from the
  standard library nor from anywhere else.  (The ssreflect constants that an
  axiom scan of the loaded files lists come from `Coq.ssr`, loaded by `lia`-side
  libraries; no theorem depends on them.)

## 4. What is modelled, file by file

| Coq file | code |
|----------|------|
| `Base`, `StreamSpec` | byte buffers, POSIX file arrays, the byte-array specification |
| `BlockModel` | `BlockBasedStream` (streams.cpp) |
| `LiteModel`, `PaddingModel` | lite_stream.cpp |
| `FullStreamModel` | full-format AES-GCM and HMAC streams (streams.cpp) |
| `AdaptorModel` | `PaddedStream`, HMAC'd and write-cached streams |
| `CodecModel`, `TextModel` | little-endian integers, hex, base32, case folding, inode numbers |
| `CryptoModel` | AES-SIV, HKDF, per-file keys (crypto.cpp, myutils.cpp) |
| `AttrModel` | file attributes and times (files.cpp, files.h) |
| `BtreeModel` | btree_dir.cpp, page level with cache, free list, rebuild |
| `NameModel` | name translators, listing, link targets, migration (lite_format.cpp, commands.cpp) |
| `LongNameModel` | long-name tables, create/mkdir/link/unlink/rmdir/rename of the lite format, suffix change (lite_format.cpp, lite_long_name_lookup_table.cpp) over a model of the host's directories |
| `LiteConcModel` | `lite_format.cpp` 945-1047, 1153-1225 and `lite_long_name_lookup_table.cpp` 40-52, 83-157 as sequences of steps for several threads; one step is one system call or one SQLite call, either of the latter may fail; opening a table either makes it or fails without a trace; deleting the table file removes the name, connections keep the file; a kill ends all calls and rolls open transactions back, tree and committed rows stay; SQLite's journals are not modelled; listings are in `ListConcModel` |
| `XattrModel` | attribute names, list protocol, attribute values of both formats (xattr_name.cpp, lite_format.cpp, files.cpp) over a model of the host's attributes |
| `FullFsModel` | full_format.cpp: open_base, open_all, generic_open, create, vlink, vunlink, vrmdir, vrename, vopen, vrelease, vtruncate, vchmod, vchown, vutimens, vgetattr, vreadlink, vreaddir over directories as maps (justified by C17), link counts of 32 bits, objects dropped from the cache at any time. One operation at a time: no interleaving of operations. Owner, group and times: `ObjModel` (C22, C78). Not modelled: vgetpath, vstatfs. File ids are arguments, equal ids being refused as the host refuses to create the same file twice |
| `TableModel` | file_table_v2.cpp: open_as, create_as, close, close_internal, the destructor, FileTableCloser, with the counts of files.h, under every interleaving |
| `TableIoModel` | FileTableIOVersion1, FileTableIOVersion2 over a model of the host directory |
| `LockModel` | the guards of files.h and lock_guard.h, and which locks each operation of full_format.cpp, file_table_v2.cpp and lite_format.cpp takes, in which nesting, on every path including exceptions; not SQLite's own file locks |
| `ThreadLocalModel` | thread_local.h, thread_local.cpp (all) |
| `TimerModel` | resettable_timer.cpp, resettable_timer.h (all) |
| `LockerModel` | RepoLocker: full_format.h 19-52, full_format.cpp 665-704, with is_process_running (unix.cpp 507-537) |
| `ProtoModel` | the protobuf wire format (varints, tags, length-delimited fields, unknown fields, UTF-8 check, duplicate and merged fields) for the messages of params.proto |
| `CrashModel` | the physical writes and resizes of lite_stream.cpp write_multi_blocks and adjust_logical_size, streams.cpp AESGCMCryptStream and HMACStream, in the order issued; C09_*_all_changes_are_physical_operations shows nothing is missing |
| `FaultModel` | `unix.cpp` 103-147 (`UnixFileStream::read`, `write`, `resize`) with failing calls; under them `lite_stream.cpp` 144-262, `streams.cpp` 62-157 and 367-480 again, with the place where `is_dirty` is set |
| `NormModel` | `mystring.cpp` 276-309 (comparisons of names), `internal_mount.cpp` 31-49, `full_format.cpp` 460-508 (`vgetpath`; the views into directories it has left are copies here, see `GetpathModel`) |
| `FsConcModel` | `full_format.cpp` 40-660 in steps between locks (walks, creation, removal, links, renames, opening, closing), `file_table_v2.cpp` 51-84, 141-196, 336-342 as steps that take and drop references; that what is under one lock is one step is C44, not proved again |
| `GBtreeModel` | `btree_dir.cpp` as in `BtreeModel`, with pages read and written through a stream instead of an array, the dirty flag of the header (`files.h` 72-97) and exceptions of the stream |
| `ObjModel` | `files.h` and `files.cpp`: construction, initialize_empty, stat, flush, read, write, truncate, get and set of links, entries of directories, times, mode and link count, over the streams of `FullStreamModel` and `AdaptorModel`; extended attributes, locks and SimpleDirectory are left out; the class of an object is what its mode says |
| `RepoModel` | `full_format.cpp` 40-660 over `ObjModel`, `file_table_v2.cpp` 21-216 and 336-342 (open_as, create_as, close, close_internal, init, the destructor); the host does what it is asked, except that it may refuse to create; the cache evicts any closed object at any time; statfs, extended attributes and special files are left out |
| `RepoKillModel` | the same, cut off between two steps: streams write through, so the host has the bytes under every object; a step of `RepoModel` (what is done under one lock) is not cut in two, for which see `CrashModel` and C09; the host keeps what it was given |
| `HandleModel` | open, create, read, write, truncate, ftruncate, getattr (size), link, rename, unlink, release of lite_format.cpp on files with several names and handles; directories are flat here (see `LongNameModel`); opening an empty file read-only, which fails, is left out |
| `LiteFsModel` | the calls of FuseHighLevelOps on names, contents, handles and symbolic links together (lite_format.cpp 766-1065, 1153-1186); permissions, owners, times, extended attributes, host read and write errors are left out; inode numbers are even for files and odd for links; opening a path that is a symbolic link is left out because the kernel follows links itself |
| `FuseModel` | `fuse_high_level_ops_base.cpp` (static callbacks), `fuse_tracer_v2.{h,cpp}`, `fuse_hook.cpp`, the wrapping in `internal_mount.cpp`, error classes of `exceptions.h`; the file system inside is an arbitrary function of the call and a state; time, thread and line number of a log line and the text layout of arguments are left out; structures passed by address (stat, statvfs, flock) are abstract values; FUSE's own behaviour is not modelled |
| `ConcModel` | locking in `lite_format.h` (class `File`), `lock_guard.h`, `unix.cpp` (flock), `files.h` (`FileLockGuard`); `streams.cpp` (`BlockBasedStream`) with a step for every call of the block layer; only the operations on open handles run concurrently; opening, closing and the operations on names do not; memory is sequentially consistent and a block-layer call is one step (the theorem itself holds for any finer steps, as the program of an operation is arbitrary); each thread draws random bytes from its own position of the source; flock between processes is not modelled beyond its failure |
| `OpenRaceModel` | `File::File`, the constructor of `AESGCMCryptStream`, `vcreate`, `vopen`, `vrelease` between threads and processes; left out: O_TRUNC (`HandleModel`), short reads and writes by the host, reuse of a descriptor by two openings |
| `MountModel` | `commands.cpp` (`MountCommand::build_internal_mount_data`, `should_use_ino`, `execute`; `ProtoMountCommand::execute`), `internal_mount.cpp`, `params.proto` (`InternalMountData`) on Linux; the parsed command line is the input; printing of a number is a parameter; reading the password and deriving keys is C38's model; the pipe to the child delivers what was written; FUSE itself is not modelled |
| `CommandModel` | `unix.cpp` 623-697 (passwords), `commands.cpp` 166-190, 302-387, 442-501, 1038-1077, 1130-1195 (commands), 1388-1470 (choice, exit codes); not modelled: TCLAP's parsing, the texts printed, dropping of typed-ahead input by the terminal, creating the data directory |
| `WinModel` | `win.cpp` 32-73, 516-521, 592-622, 677-692, 710-720, 776-837, 1044-1069, 1390-1454, 1505-1513, 1576-1612 and `unix.cpp` 909-941; UTF-16 conversion, the Windows API and the rest of `win.cpp` (error numbers, directory search, console, locks) are not modelled |
| `UnmountModel` | `unix.cpp` 310-324, 383-386, 420-430, 609-622, `fuse_high_level_ops_base.cpp` 848-878, `commands.cpp` 1348-1383; `served` is the kernel's part (path of the call, lookup before rmdir) and is trusted; Windows' variant is not modelled |
| `LogModel` | `logger.cpp` 51-128, `logger.h` 74-96, `common_platform.cpp` 58-98, the bracketing in `fuse_tracer_v2.cpp` 166-221; the text of a line's head is a function of the time; the lock of a `FILE` and its buffer as POSIX says; creating and handing over a logger is not modelled; changing the level is one atomic step (`m_level` is a plain variable) |
| `ListConcModel` | `lite_format.cpp` 641-711 and the loop of `vreaddir`, with encrypted names and a threshold for long names; one step is one entry of the host's readdir, opening the table, or a lookup, which reads what is committed; the host's readdir is a hypothesis (`readdir_works`); file status and the sizes of readdir-plus are left out; the listing is one thread, not killed |
| `GetpathModel` | `full_format.cpp` 460-508 over the objects of `TableModel`; a kept address is a directory, its content at that time and the text; after any change of the directory the text counts as gone; nodes of a directory are not modelled one by one |
| `LifeModel` | `commands.cpp` 474-501, 933-945, 1207-1217, 1438-1452 and `internal_mount.cpp` 50-130, 271-328 as the order in which the other models are used; a mounted process is not killed here (C75, C76); configuration and stored files are two separate maps of the host |
| `AccessModel` | `lite_format.cpp` 768-835, 886-944, 1059-1065, 1153-1186 for one name that stays, with flags and modes as bits (Linux numbers); of the permissions only those of the owner; every stream operation is taken to read from its descriptor; the kernel lets through what the opener asked for |
| `ShutdownModel` | `fuse2_workaround.cpp` 40-214; taken from libfuse: receiving hands over one request or none, and a cancelled thread has not taken one; not modelled: setup and its failures, the fuse-t branch, the capacity of the pipe, signals before the handlers are installed, failing reads of the pipe |
| `DurableModel` | lite_format.cpp 901-938, 1044-1053; full_format.cpp 359-368; files.h 205-341; files.cpp 81-112, 237-264; unix.cpp 90-95: calls on an open file, flush and fsync, and what is stable and what is pending. fsync(2) itself is taken at its word; the directory entry of a new file is not covered |
| `ParamsModel` | params_io.cpp (all); commands.cpp: CreateCommand, ChangePasswordCommand, MigrateLongNameCommand (the configuration part), lookup of the configuration, password options. JSON parsing of legacy files is an argument |

Simplifications are stated in the comment of each definition.  Not modelled:
command-line parsing (TCLAP), Windows code outside `WinModel`, third-party libraries
(Crypto++, SQLite, protobuf, FUSE), memory allocation failure.

## 5. Findings

Statements that a user would expect and that are false of the code.  Each has a
theorem whose name ends in `_refuted`, or is a hypothesis of the positive theorem.

* C05, C06: a block that reads as all zeros is accepted without authentication,
  and cutting a lite file at a block boundary is not detected.
* C08: a maximal padding of 2^32-1 makes the modulus zero (division by zero).
* C12: base32 decoding is not injective and accepts NUL.
* C14: the page loader accepts one entry more than the limit.
* C17: a name with NUL is cut when the directory is reloaded.
* C19: page positions are computed in 32 bits and collide from page 2^20 on.
* C22: `utimens` with a "now" marker uses an uninitialised variable on one path;
  removing a link does not update the change time.
* C29: a long-name suffix made of base32 characters (accepted by the tool) makes
  short names disappear from listings.
* C31: with the old naming a virtual path with two leading separators becomes an
  absolute host path.
* C32: link targets and file names share a key without domain separation, so a
  file name can be replayed as a link target; the old naming's read buffer can be
  too small for targets with many short components.
* C33: the advertised maximal name length wraps around for host limits below 26
  and ignores the size of long names' physical names.
* C34: a foreign file whose name is base32 text is listed under the previous
  entry's name.
* C35: three operations lose a row of the long-name table, after which the file is
  still there but not listed: a failed rmdir of a directory with long names (the
  table is deleted first), rename between two hard links of one file, and a create
  whose header cannot be written.
* C47: if the host reports a directory's table before a long-named subdirectory
  that has a table itself, the suffix change stops half-way and files are found
  with neither suffix.
* C36: in the lite format getxattr with a buffer larger than the value fails (the
  whole buffer is handed to the cipher instead of the bytes read), setting an empty
  value silently does nothing, and values are not bound to the name or the file. In
  the full format a set whose second half is refused loses the old value, and a
  non-null buffer of 0 bytes would be overrun.
- Full format, rmdir (C27_refusal_refuted): `vrmdir` removes the entry before it looks whether the directory is empty. `rmdir` of a non-empty directory fails with ENOTEMPTY and the directory, with all below it, is no longer reachable. FUSE and the kernel do not check emptiness, so a plain `rmdir` does this.
- Full format, rename (C23_replaced_directory_refuted): `vrename` does not look whether a replaced directory is empty; its files stay stored with no name. (C26_long_name_refuted): the old entry is removed before the new name's length is checked; with a new name over 255 bytes the rename fails and the file has no name. The kernel normally looks the new name up first and so refuses. (C26_own_descendant_refuted): a directory renamed into itself becomes unreachable; the kernel normally refuses this.
- Full format, create (C23_long_name_refuted): with a name over 255 bytes, or below a non-directory, the stored file has been made when the entry is refused, and stays.
- Full format, paths: absolute symbolic links are walked from the directory holding the link; `file/.` and `file/..` resolve for regular files; links nested 17 deep give ELOOP (C28).
- Full format, file table (C24_use_after_free_refuted): `FileTableCloser` gives up its reference before it reads the object's id; another thread can open, unlink, drop and clean up the file in between, and the closer reads a destroyed object. With the id read first (C24_prompt) no schedule does that.
- Full format, file table (C48_poisoned_refuted): an object opened once with a wrong type keeps the wrong class, so that opening it with the right type is refused as long as it is in use or idle in the cache.
- Full format, file table: `vopen` accepts directories, `vrelease` on one answers EINVAL before it takes the holder back, so the object stays in use for ever (FClose in `FullFsModel`). A failed flush in the cleanup leaves the object in the live map with no user (hypothesis `healthy` of C24_no_orphans). A failed flush of the root on close is not caught.
- Full format, storage: creating a file whose data part cannot be followed by its metadata part leaves the data part (C25_store, `store_step`); the first-level directories of the old layout are never removed (`io_unlink`: the second level is removed twice).
- Locks (C44): `std::lock` can in theory back off for ever (C44_bounded counts these steps). Two lite renames in opposite directions with long names wait for each other's SQLite lock and one fails after two seconds (C73_opposite_renames_refuted).
- Idle timer (C42_call_refuted, C42_late_refuted): the callback is called after the mutex is released, so activity reported, or a destructor begun, between the decision and the call does not stop it; and `should_wake_up_` is overwritten by each call, so an earlier time followed by one in between leaves the worker asleep until the first deadline. The shutdown hook asks for non-decreasing times except for races between threads, so only the first matters there.
- Repository lock (C43_refuted): two processes can both mount for writing: the second sees the lock file before the pid is in it; or both see a dead pid; or one opens the lock file before its holder removes it and takes a file without a name. If a stale lock file holds the pid the new process happens to have (usual in containers), mounting is refused.
- Configuration (C38_no_mac_refuted): the MAC's length is taken from the file; with an empty MAC field any ciphertext is accepted without authentication, so that whoever can write the file can flip bits of the parameters. (C38_suffix_refuted): a long-name suffix that is not UTF-8 is written without complaint and the repository can then not be opened.
- Configuration (C39_power_failure_refuted): the new configuration is not flushed before it is renamed over the old one; after a power failure the file can be empty and no secrets open it.
- Legacy configuration (C46_sizes_refuted, C46_versions_refuted): block, IV and padding sizes are not authenticated, nor are versions 1, 2 and 3 separated from each other. (C46_newline_refuted): text starting with a newline, a brace and exactly 123 more bytes is taken for the present format.
- Create (C50_legacy_refuted): a legacy configuration in the directory is not noticed; the new one shadows it.
- Passwords (C51_empty_refuted): `chpass --newpass "" --newkeyfile K` uses the empty password where mount with the same options uses a space, so the repository is not opened by them.
- Migration (C52_repeat_refuted): the temporary configuration has a fixed name; after an interruption it stays and every later migration fails with EEXIST, the stored names having been renamed already.
- Torn writes (C09_same_block_refuted): a write torn inside a block loses the whole block, also the bytes the write did not address; a read of them fails verification.
- Full format (C09_full_verified_open_refuted): between the write of metadata and the flush of its MAC the stored file is one that cannot be opened with verification on, so a crash there makes all of its content unavailable until it is opened without verification.
- O_TRUNC (C53_outdated_handle_refuted): opening a lite file with O_TRUNC passes the flag to the host (FUSE_CAP_ATOMIC_O_TRUNC is asked for), so the header is lost and a new one with a new key is written. Handles opened earlier keep the old key and padding: what is written through them afterwards fails verification for everybody else, and their own reads of what others wrote fail.
- Rename onto an emptied directory (C54_rename_onto_emptied_directory_refuted): a directory that once held a long name keeps its `.long_names.db` after the last name is gone. `rename(2)` of another directory onto it then fails with ENOTEMPTY, which a plain host would allow; `rmdir` is not affected because it removes the table first.
- Reserved name with plain names (C54_reserved_name_refuted): with `--plain-text-names` nothing keeps a user from creating `.long_names.db`. `rmdir` of its directory deletes that file before asking the host, so the file is lost even when `rmdir` fails because of other entries, and a directory with that file alone is removed instead of being refused. (The configuration file in the root, which plain names expose as well, is not part of the model.)
- Names in the log (C56_names_logged_refuted): paths, attribute names and the targets of new symbolic links are logged in full even without `--allow-sensitive-logging`, also at the default level when a call fails, so a log kept outside the repository reveals plaintext names.
- A failure whose error number is 0 or negative (an exception built from `errno` after it was reset) would be reported as success; C55_failures_are_seen therefore asks for a positive number.
- Concurrency (C57_noflock_refuted): with `--noflock` every handle of a lite file still has its own mutex only, so of two concurrent writes to different bytes of one block through two handles, both successful, one can be lost. FUSE opens one handle per open() call, so two processes are enough.
- Concurrency (C57_size_by_path_refuted): lite `getattr` computes the size from the physical length without any lock, so during a write past the end of a file it can show a size that the file has neither before nor after the write.
- Opening with O_TRUNC truncates the physical file before any lock is taken (`lite_format.cpp`, vopen), so it is not atomic with respect to operations on other handles; handles opened before are outdated (C53).
- Mounting (C58_noflock_in_background_refuted): `--noflock` sets a flag of the process that parses the command line. With `--background` the file system runs in a child that never gets it, so it locks all the same.
- Mounting (C58_background_bytes_refuted): the message to the child keeps paths in proto3 strings, so a mount point, data directory or option that is not UTF-8 works in the foreground and fails in the background.
- Mounting (C58_use_ino_full_refuted): `should_use_ino` looks at the member `fsparams`, which is never assigned, so with `--use-ino auto` the full format gets `use_ino` only if the host's file system is on the list.
- Mounting (C58_normalization_checked_refuted): a mode that does not exist (`NFC`) is silently taken for `none`, so names are stored in another form than asked for.
- Mounting (C58_owner_override_lite_refuted): `--uid-override` and `--gid-override` have no effect in the lite format.
- Mounting: the parent looks only at whether the mount point is mounted by securefs; if it was so before, success is reported at once although the child fails.
- Verification off (full format): a metadata file cut in the middle of a record is reported as failed verification also with `--insecure` (`streams.cpp` 433-436), so there the claim that everything can be read holds for the lite format only.
- Passwords: `read_password_no_confirmation` ends a line at CR or at LF and does not skip the LF of CR LF; `chpass` with CR LF input therefore sets the empty password and exits with 0 (`C60_crlf_refuted`); so it does when the second line is missing (`C60_one_line_refuted`). An empty password is refused nowhere.
- Passwords: the exception for a line of more than 4000 bytes leaves the terminal without echo (`C60_echo_refuted`).
- Dispatch: `securefs ""` compares the NUL with the `short_name()` 0 of chpass and then reads `argv[0][1]`, beyond the end of the argument (`C62_empty_word_refuted`).
- Serving: `std::thread::hardware_concurrency()` may return 0; then no worker is started and the mount never answers a request (`C63_no_workers_refuted`).
- C64: `fsync` on a full-format file (full_format.cpp 359-368, files.h 337-341) calls fsync(2) on both stored files without flushing first, so the MAC over the metadata, and changed attributes, are still in memory only. A program that writes and fsyncs, as databases do, and then loses power finds a file that cannot be opened with verification, although every byte is on the disk (`C64_full_fsync_refuted`). The lite format flushes first and is safe.
- **A short `pread` is taken for the end of the file** (`C67_short_read_refuted`).  `UnixFileStream::read` makes one `pread` and hands on the count; the block layer takes a short count for the end of the file.  POSIX allows short counts in the middle of a file (interrupted reads on some file systems); a write that reads the rest of its block then reports success and loses it.
- **A metadata write that fails half-way does not mark the metadata as changed** (`C67_full_torn_metadata_refuted`).  `HMACStream::write` and `resize` set `is_dirty` after the call, so when it throws the MAC is not brought up to date by the next flush, and the file cannot be opened with verification.
- **`~HMACStream` drops the error of its flush** (`C67_full_error_on_close_refuted`).
- **Renaming a file onto another link of itself respells both names** (`C68_rename_onto_own_link_refuted`).  `vrename` takes both entries out and puts them back under the names it was given.
- **Normalization is an option of mounting, not of the repository** (`C68_lite_listed_but_not_found_refuted`): names stored in another form are listed but cannot be opened or removed under the name that is shown.
- **`vgetpath` reads memory it no longer owns** (`C86_deep_path_refuted`, `C86_concurrent_removal_refuted`): it keeps `string_view`s into the entries of directories after it has unlocked and closed them.  A path of 43 components can read freed memory with nobody else active; with another thread that removes the entry, one component is enough.
- **A file can be made in a directory that is being removed** (`C69_removed_directory_refuted`).  `vrmdir` checks under the lock of the directory that it is empty and counts its link down, but `create`, `vlink` and `vrename` that hold the directory already add entries to it afterwards without looking at its link count.  Both calls succeed, and the new file stays stored without a name.
- **`..` asks a cache** (`C69_dotdot_refuted`).  The parent of a directory is remembered in its object only; if the object is evicted and made again, the parent is the root until a walk passes it from above.  A path with two `..` can so lead to another file although no name changes.
- **A symbolic link exists before it has a target** (`C70_symlink_refuted`).  `vsymlink` creates the link with its name first and writes the target under another lock, so that another thread can read an empty target.
- **A hard link can revive a removed file** (`C70_link_refuted`).  `vlink` looks the file up, and later adds the name without checking that the file still has a link; a thread that has meanwhile removed the only name, and seen that neither name exists, finds the new name afterwards.
- **A long name can be recorded in the wrong directory** (`C74_directory_moved_meanwhile_refuted`).  The table is found by path when the call begins, the file is made by path later; if the directory is renamed in between and another takes its place, the file is in one directory and its name in the table of the other.  It can be opened but is not listed.
- **Trying to remove a directory deletes its table first** (`C74_directory_removed_meanwhile_refuted`, and `C35_failed_rmdir_refuted` without overlap).  A call that has inserted its name and not yet made its file loses the name, although the directory was empty when its removal was asked for and stays.
- **A failed commit of a table is logged and forgotten** (`C74_failed_commit_refuted`): the file exists, the call reports success, the name is not recorded.
- **An empty directory can be refused removal** (`C73_empty_directory_is_removed_refuted`), when another thread's attempt to create a long name in it has just made the table again.
- **Two renames of long names in opposite directions block each other** (`C73_opposite_renames_refuted`) until SQLite's timeout of two seconds makes one of them fail.
- By reading, not modelled: `LongNameLookupTable` runs `create table if not exists` before it sets its timeout, so that a table that is busy at this moment fails the call at once; deleting the file of a table while a journal belongs to it, as `vrmdir` may, is what SQLite warns against; `vgetattr` of a symbolic link or of a file with padding looks at the path twice (`lstat`, then `readlink` or `open`) and reports an error if it has been replaced in between.
- **A kill between the host call and the commit leaves a file without a recorded name** (`C75_recorded_after_kill_refuted`): it can be opened by its name, it is not listed, and no later call repairs the table.
- **A new repository that is killed before its first call has ended cannot be mounted** (`C76_before_first_call_refuted`): with padding, the root's stored files then have bytes without a MAC; without, they are empty and the root has no mode.
- **Killed while the root is held, a repository may be impossible to mount** (`C76_root_held_refuted`): the root is flushed only when its last holder lets go; somebody who lists it, or calls that always overlap, put that off for as long as they like.
- **A file that was written, flushed and closed can be lost with its name** (`C76_closed_file_lost`): fsync flushes the file only; its directory is flushed when its last holder lets go.
- **With --noflock, two openings of a new lite file can spoil it** (`C77_noflock_refuted`): both find it empty and write a header; the one that loses keeps a key that fits nothing on disk.
- **A lite file that is being created cannot be opened for reading yet** (`C77_reading_too_early_refuted`): the constructor of the stream tries to write the header and gets EBADF; the same for any empty stored file.
- **A kill while the header of a lite file is written leaves a file nobody can open** (`C77_cut_off_refuted`): id without padding. (Also an id of 1 to 15 bytes, if the host writes it in parts.)
- **A file that loses one of its names keeps its time of change** (last row of `C78_accounted_example`): unlink, rmdir and rename set the link count without the ctime; POSIX wants it updated. After utimens the ctime is an uninitialised value (C22).
- **On Windows, times before 1970 are reported with negative nanoseconds** (`C80_before_1970_refuted`): the division rounds towards zero.
- **On Windows, '..' can remove the drive from a path** (`C81_drive_refuted`).
- **On Windows, a backslash in a link's target comes back as a slash, and a link made by another program has a wrong size** (`C82_backslash_refuted`, `C82_foreign_link_refuted`).
- **With FUSE-T, unmount reports success for directories that are no mounts** (`C83_fuse_t_silent_refuted`): the result of removing the special directory is ignored.
- **Without FUSE-T, every directory inside a mount passes for a mount point, and unmounting it ends the mount** (`C83_inside`).
- **Times in the log can go back** (`C84_times_refuted`): the clock is read before the stream is locked. **Raising the level while a thread is logging makes it unlock a stream it has not locked** (`C84_level_refuted`); the program sets the level only at start.
- **A listing silently leaves out a file that is there** if SQLite is busy for longer than its timeout when the long name is looked up (`C85_busy_refuted`), or if the call that created the file has not committed yet, though others can already open it (`C85_not_yet_committed_refuted`): the error is logged and the entry skipped.
- **A lite file that its owner may write but not read cannot be opened for writing or truncated** (`C88_write_only_refuted`), since the header has to be read; a file created with such a mode gets the permission to read (`C88_created_mode_refuted`); with padding, a file without that permission cannot even be listed with its size (`C88_stat_refuted`).
- **Opening a lite file read-only with O_TRUNC destroys its header** (`C88_truncated_for_reading_refuted`): the host empties it, the new header cannot be written, and it cannot be opened for reading any more until somebody opens it for writing.
- **A write that fails because of the largest size may have extended the file** (`C89_failed_write_extends_refuted`): the gap in front of it is filled first. **With holes on the host (Unix and Windows), a file can be resized beyond the largest size** (`C89_beyond_the_limit_refuted`): what lies beyond counts in its size and can neither be read nor written. **A read that ends beyond the largest size fails, however small the file** (`C89_read_past_limit_refuted`), instead of returning what there is.
- **Setting an empty attribute value succeeds on a lite repository even where there is no file** (`C90_empty_value_of_no_file_refuted`): the call returns before the path is looked at.
- **A mount in the background over another securefs is reported as a success whatever happens.** Mounting in the background on a directory on which a securefs is mounted already is reported as a success even if the child fails (`C92_already_mounted_refuted`); started by a process that ignores SIGCHLD, the command waits for ever when its child fails, since waitpid finds no child (`C92_ignored_signal_refuted`).
- If the repository's directory is renamed while mounted, files are still opened in it by descriptor, but listings, extended attributes and tables of long names are looked for under its old name, possibly in another directory (`C93_moved_refuted`). A suffix for long names is never checked; one with `/../` in it leads outside the repository (`C93_suffix_refuted`).
- The keys of a file with padding are checked for randomness as one block of four, so that one of them being all zeros is not noticed (`C94_together_refuted`).
- Mounting in the background from a process whose standard input is closed fails: the pipe for the child gets descriptor 0, which the child closes after copying it onto itself (`C95_closed_input_refuted`).
- On hosts whose `readdir` answers `DT_UNKNOWN` (some network and older filesystems) `recursive_traverse` does not go into subdirectories: changing the long-name suffix reports success and leaves the long names below the root unreachable (`C96_untold_suffix_refuted`), and the migration overlooks symbolic links (`C96_untold_link_refuted`).
- A change of the long-name suffix that is killed between a rename and the commit of the table leaves files that are found with neither suffix (`C97_one_or_the_other_refuted`), and giving the command again stops with ENOENT at the entry already renamed (`C97_again_refuted`): the code has no path that skips entries already changed. Nothing is lost: renaming the entries by hand repairs it (`C97_nothing_lost`).
- An error of the host (a full disk) while a directory is compacted in a flush loses entries for good: `rebuild` empties the file and then adds the entries one by one (`C98_any_flush_refuted`: all of 20 entries). An error while an addition splits a node loses entries that were there, 7 of 13 in the example, with the next flush making it permanent (`C98_failed_add_keeps_the_rest_refuted`), or reports an error although the name has been added (`C98_failed_add_adds_nothing_refuted`): `add_entry_impl` changes nodes before it asks for new pages. Likewise a removal that cannot read a sibling reports an error although the name is gone (`C98_failed_remove_removes_nothing_refuted`).
- `finish` (lite_long_name_lookup_table.cpp 101-118) logs and drops the error of a commit, so creating a long-named file may report success though the name is not recorded, and the file is then missing from listings (`C99_recorded_refuted`); a removed name may stay recorded (`C99_nothing_stale_refuted`). Paths are not affected (`C99_calls_as_before`), and opening with O_CREAT again repairs the table (`C99_opened_again_is_recorded`).
- `OSService::chmod` (unix.cpp 432-440), when the host answers ENOTSUP for a link itself, tries again following links. With plain names this follows the link on the host's side, so that a file outside the repository may be changed (`C100_plain_link_refuted`). It takes a client whose kernel hands a change of mode of a link over to FUSE; Linux refuses this itself since 6.6. With encrypted names the text of a link leads nowhere on the host (`C100_encrypted_link_not_followed`).
- `internal_mount` (internal_mount.cpp 302-318) removes the file named by SECUREFS_PID_FILE at the end even if it could not write it, so that someone else's file is lost (`C101_foreign_file_refuted`), and even if another mount has written its number there since (`C101_other_mount_refuted`). Two mounts that open the file before either writes leave the longer number with its first digits overwritten (`C101_mixed_refuted`). `raise_fd_limit` (unix.cpp 476-500) reports 1024 when it cannot ask for the limit (`C101_limit_reported_refuted`); the value is only logged.
