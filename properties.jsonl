{"id": "C01", "title": "Lite-format file content behaves as a byte array", "statement": "Reading, writing and resizing a lite-format encrypted file gives exactly the results a plain in-memory byte array would give: a read returns the bytes last written there (short at end of file), a write past the end fills the gap with zeros, truncation drops the tail and growing appends zeros; no operation within the size limit fails.", "quantifier": "every block size, IV size, padding, nonce sequence, sparse or non-sparse backing store, and every finite sequence of read/write/resize calls with any offsets and lengths up to the format's block limit", "why_tests_cant": "offset/length/block-boundary/partial-block combinations and histories are unbounded", "anchors": ["sources/streams.cpp:BlockBasedStream::read,write,unchecked_write,unchecked_resize", "sources/lite_stream.cpp:AESGCMCryptStream::read_multi_blocks,write_multi_blocks,adjust_logical_size,size"]}
{"id": "C02", "title": "Full-format file content behaves as a byte array", "statement": "Reading, writing and resizing a full-format encrypted file (data file plus authenticated metadata file) gives exactly the results of a plain byte array, and never disturbs the separately stored per-file header.", "quantifier": "every block/IV/header size, nonce sequence, sparse or not, every finite sequence of read/write/resize/write-header/flush calls", "why_tests_cant": "histories and boundary combinations are unbounded, two physical files must stay in step after every one", "anchors": ["sources/streams.cpp:internal::AESGCMCryptStream", "sources/streams.cpp:BlockBasedStream"]}
{"id": "C03", "title": "Reopening a file gives back what was stored", "statement": "After any history of writes and resizes (and, for full format, a flush), opening the same stored bytes again with the same keys succeeds and presents the same content, size and header.", "quantifier": "every history, every key, id, padding size and nonce sequence", "why_tests_cant": "the state space of histories is unbounded", "anchors": ["sources/lite_stream.cpp:AESGCMCryptStream::AESGCMCryptStream", "sources/streams.cpp:HMACStream::HMACStream,flush", "sources/streams.cpp:AESGCMCryptStream::read_header,write_header"]}
{"id": "C04", "title": "Size shown by stat equals readable size (lite)", "statement": "For a lite file the size computed from the length of the stored file alone equals the size of the decrypted stream, for any content, and distinct logical sizes give distinct stored sizes.", "quantifier": "every logical size, block size, IV size, padding", "why_tests_cant": "infinitely many sizes, boundaries at every block", "anchors": ["sources/lite_stream.cpp:AESGCMCryptStream::calculate_real_size,size", "sources/lite_format.h:StreamOpener::compute_virtual_size"]}
{"id": "C05", "title": "Tampered lite content is never silently accepted as different data", "statement": "With verification on and an unforgeable cipher, whatever bytes an attacker puts into a lite file's stored blocks, a successful read returns for each block either data which this file's owner once wrote at that very block position, or all zeros (a zeroed/hole block); moved, swapped or altered blocks make the read fail.", "quantifier": "every adversarial stored content, every read range, every history of earlier writes", "why_tests_cant": "adversarial inputs are unbounded", "anchors": ["sources/lite_stream.cpp:AESGCMCryptStream::read_multi_blocks"]}
{"id": "C06", "title": "Tampered full-format metadata is detected on open", "statement": "With verification on and an unforgeable MAC, a metadata file is accepted on opening only if it is empty or its whole body is one this file's owner once flushed; blocks read afterwards are data encrypted under this file's id with the nonce and tag recorded for that position, or zeros.", "quantifier": "every adversarial metadata and data file, every history of flushes", "why_tests_cant": "adversarial inputs are unbounded", "anchors": ["sources/streams.cpp:HMACStream", "sources/streams.cpp:internal::AESGCMCryptStream::read_multi_blocks"]}
{"id": "C07", "title": "Stream adaptors are transparent", "statement": "The authenticated-stream, padded-stream and write-cached-stream wrappers each behave as a byte array over what they wrap: reads see earlier writes, gaps are zeros, sizes exclude the wrapper's own prefix, and the prefix is never exposed or overwritten by user data.", "quantifier": "every operation sequence, padding size, cache size", "why_tests_cant": "operation sequences and offsets are unbounded", "anchors": ["sources/streams.cpp:HMACStream,PaddedStream,WriteCachedStream", "sources/streams.h:PaddedStream,WriteCachedStream"]}
{"id": "C08", "title": "Padding length is a fixed, bounded function of the file id", "statement": "The number of padding bytes of a file is between 0 and the configured maximum, is the same every time the file is opened, is 0 when padding is disabled, and every value in the range is attainable.", "quantifier": "every id, every maximum, every block cipher output", "why_tests_cant": "2^128 ids", "anchors": ["sources/lite_stream.cpp:default_compute_padding", "sources/lite_format.cpp:StreamOpener::compute_padding", "sources/files.cpp:FileBase::FileBase"]}
{"id": "C09", "title": "A write or truncation that is cut short only affects the blocks it touches", "statement": "If an operation on a file (write, truncate, header write, flush) is cut short by process death, power loss or a failing disk at any point of its physical I/O, every range of the previous content that lies in blocks the operation does not touch is still read back: in the lite format after opening the file anew, in the full format by an object that goes on using the files or opens them without verification. Other bytes of a touched block are not covered, nor is opening a full-format file with verification before its metadata has been flushed (both refuted).", "quantifier": "every history, every further operation, every subset and torn part of its physical writes in any order, every range in untouched blocks", "why_tests_cant": "crash points x histories unbounded", "anchors": ["sources/lite_stream.cpp:write_multi_blocks", "sources/lite_stream.cpp:adjust_logical_size", "sources/streams.cpp:internal::AESGCMCryptStream::write_multi_blocks", "sources/streams.cpp:internal::AESGCMCryptStream::adjust_logical_size", "sources/streams.cpp:BlockBasedStream"]}
{"id": "C10", "title": "Little-endian integer codec round-trips", "statement": "Decoding an encoded unsigned integer gives it back, encoding a decoded byte string of the right width gives it back, for 16, 32 and 64 bit widths.", "quantifier": "every unsigned value below 2^(8w) and every w-byte string", "why_tests_cant": "2^64 values", "anchors": ["sources/myutils.h:to_little_endian,from_little_endian"]}
{"id": "C11", "title": "Hex codec round-trips and rejects everything else", "statement": "Hex-encoding then parsing gives the bytes back for any byte string; parsing succeeds exactly on even-length strings of lowercase hex digits, and re-encoding a successfully parsed string yields the same string.", "quantifier": "every byte string and every character string", "why_tests_cant": "unbounded inputs", "anchors": ["sources/mystring.cpp:hexify,parse_hex"]}
{"id": "C12", "title": "Base32 file-name codec round-trips", "statement": "Decoding an encoded byte string gives it back, in any letter case; the encoded length is ceil(8n/5); the output consists only of the 32 file-system-safe characters; distinct byte strings have distinct encodings, even on a case-insensitive file system.", "quantifier": "every byte string", "why_tests_cant": "unbounded inputs", "anchors": ["sources/mystring.cpp:base32_encode,base32_decode"]}
{"id": "C13", "title": "File attribute header round-trips", "statement": "Storing the attributes of a full-format file (mode, owner, link count, directory bookkeeping, times) and loading them back gives the same attributes, with and without stored times.", "quantifier": "every 32-bit attribute value, every 64-bit seconds / 32-bit nanoseconds value", "why_tests_cant": "domain of 2^(7*32+4*96) states", "anchors": ["sources/files.cpp:FileBase::read_header,flush", "sources/files.h:FileBase"]}
{"id": "C14", "title": "Directory page codec round-trips", "statement": "Writing a directory node to its page and loading the page again gives the same children and entries, whatever the page held before; loading any other page either yields well-formed entries and child numbers that fit in the page or fails with a corruption error, never reading outside the page.", "quantifier": "every node within the format's limits, every 4096-byte page", "why_tests_cant": "unbounded node contents, 2^32768 pages", "anchors": ["sources/btree_dir.cpp:Node::from_buffer,to_buffer,read_node,write_node"]}
{"id": "C15", "title": "Synthetic-IV encryption round-trips, is deterministic and detects changes", "statement": "Decrypting what was encrypted under the same key and associated data gives the plaintext; equal inputs give equal outputs; decryption accepts an (IV, ciphertext) pair only if re-encrypting the result reproduces exactly that pair; so two plaintexts with different synthetic IVs are never confused.", "quantifier": "every plaintext and associated data, any underlying CMAC and CTR primitives", "why_tests_cant": "unbounded inputs", "anchors": ["sources/crypto.cpp:AES_SIV::s2v,encrypt_and_authenticate,decrypt_and_verify"]}
{"id": "C16", "title": "Key derivation follows RFC 5869 and is stable under the padding option", "statement": "The key derivation function computes HKDF-Expand of RFC 5869 (with the extract step only when a salt is supplied), refuses more than 255 hash lengths, and the first keys derived for a file do not depend on how many keys are requested, so turning padding on does not change the encryption keys.", "quantifier": "every key, salt, info and requested length", "why_tests_cant": "unbounded inputs", "anchors": ["sources/crypto.cpp:hkdf,hkdf_expand", "sources/files.cpp:FileBase::FileBase"]}
{"id": "C17", "title": "A full-format directory behaves as a finite map", "statement": "Looking up, adding and removing names in a directory gives exactly the results of a finite map from names to (id, type): add fails iff the name exists, remove and lookup succeed iff it does and return the stored value, other names are unaffected.", "quantifier": "every sequence of operations, every set of names, any total-order name comparison (including case-insensitive ones)", "why_tests_cant": "tree shapes and histories are unbounded", "anchors": ["sources/btree_dir.cpp:BtreeDirectory::get_entry_impl,add_entry_impl,remove_entry_impl,insert_and_balance,balance_up"]}
{"id": "C18", "title": "Directory tree stays balanced and shallow", "statement": "After any history every leaf of a directory tree is at the same depth, all non-root nodes hold between 6 and 13 entries, entries are in order, and the depth limit of 32 is never reached by a directory that fits in the 32-bit page space.", "quantifier": "every history of insertions and removals", "why_tests_cant": "histories and shapes unbounded", "anchors": ["sources/btree_dir.cpp:insert_and_balance,balance_up,merge,rotate,validate_node"]}
{"id": "C19", "title": "Directory pages are never shared or leaked", "statement": "At every moment the pages of a directory file are partitioned into those holding tree nodes and those on the free list; allocation never returns a page in use, deallocation never loses a page, the free count is exact.", "quantifier": "every history of operations", "why_tests_cant": "histories unbounded", "anchors": ["sources/btree_dir.cpp:allocate_page,deallocate_page,validate_free_list"]}
{"id": "C20", "title": "Directory survives flush, eviction and reload", "statement": "Flushing a directory and loading it again from its pages (any number of times, at any points of the history, including after the compaction that flush may trigger) leaves its contents unchanged.", "quantifier": "every history with flush/reload points interleaved anywhere", "why_tests_cant": "histories unbounded", "anchors": ["sources/btree_dir.cpp:flush_cache,subflush,rebuild,retrieve_node"]}
{"id": "C21", "title": "Listing a directory reports each entry exactly once", "statement": "Iterating over a directory reports every entry that is in it exactly once with its id and type, and nothing else.", "quantifier": "every directory reachable by any history", "why_tests_cant": "unbounded sizes", "anchors": ["sources/btree_dir.cpp:recursive_iterate,iterate_over_entries_impl"]}
{"id": "C22", "title": "Timestamps follow the POSIX rules", "statement": "With stored times enabled: writing or truncating sets mtime and ctime to now; reading updates atime only if it is older than mtime or ctime; changing mode or owner or adding a link sets ctime, and other operations leave it alone; setting explicit times stores exactly those; birth time never changes; with stored times disabled no stored time changes. (Two deviations from POSIX are refuted as theorems: removing one of several names changes the link count but not ctime, and setting times stores an uninitialised value as ctime, and as all times when none are given.)", "quantifier": "every operation sequence and clock reading", "why_tests_cant": "unbounded sequences", "anchors": ["sources/files.h:update_atime_helper,update_mtime_helper,update_ctime_helper", "sources/files.cpp:utimens,initialize_empty"]}
{"id": "C23", "title": "Hard-link count equals the number of names", "statement": "In a full-format repository the link count of every file equals the number of directory entries naming it (the root counts one more), a file is stored exactly as long as it has a name or is open, and every entry gives the type of the file it names, after any history of operations in which no directory is unlinked, removed or replaced while it has entries, no directory is hard-linked, and no name is made in a non-directory or longer than 255 bytes. Without the first and last condition it is false: files are left that nothing refers to (findings).", "quantifier": "every history of fewer than 2^32-1 create/mkdir/symlink/link/unlink/rmdir/rename/open/close/write/truncate/chmod operations, with cached objects dropped at any time", "why_tests_cant": "histories unbounded", "anchors": ["sources/full_format.cpp:vlink,vunlink,vrename,create", "sources/file_table_v2.cpp:close_internal"]}
{"id": "C24", "title": "At most one live object per file id, reference counts exact", "statement": "However opens, creations, reads, changes, flushes, drops and cleanups are interleaved, and whichever of them fail: two simultaneous users of the same file id get the same in-memory object and no object serves two files; what is read is what was changed last, even across a drop and a new open; an object in use is never destroyed and its reference count is the number of its users; a file is removed exactly when it has no links and no users and the closers are done; at most 50 idle objects are kept per shard; an action waits only for the cleanup of its shard; closing the table stores every file. (The closer itself reads the object after giving up its reference: refuted.)", "quantifier": "every interleaving of open/create/close/flush across threads", "why_tests_cant": "schedules unbounded", "anchors": ["sources/file_table_v2.cpp:open_as,create_as,close,close_internal"]}
{"id": "C25", "title": "Different file ids are stored in different places and do not affect each other", "statement": "In both storage layouts the data and metadata paths of two different file ids are different, a data path never equals a metadata path, and no path leaves the repository. Creating, rewriting, reading and removing files in any order, with the host stopping in the middle of any of them, behaves as two byte strings per id: other files and foreign entries of the directory are untouched.", "quantifier": "every pair of 32-byte ids; every history of operations with crashes; every host directory without two-digit names", "why_tests_cant": "2^512 pairs", "anchors": ["sources/file_table_v2.cpp:FileTableIOVersion1,FileTableIOVersion2"]}
{"id": "C26", "title": "Rename is atomic with respect to failures", "statement": "A full-format rename makes the new name refer to what the old name did and the old name to nothing, replacing any previous target, with every other name and all contents unchanged; or both names already refer to the same file and nothing changes; or it fails because the old name or a directory on the way does not exist, and nothing changes. The new name must be at most 255 bytes in a directory and must not refer to a directory with entries; otherwise the file can be lost (findings).", "quantifier": "every directory state and pair of names", "why_tests_cant": "unbounded states", "anchors": ["sources/full_format.cpp:FuseHighLevelOps::vrename"]}
{"id": "C27", "title": "rmdir refuses non-empty directories without side effects", "statement": "A full-format directory is removed only if it is empty, whatever the caller checked. That a refused removal leaves the directory in place is false: removing a non-empty directory fails with ENOTEMPTY but the directory has lost its name (finding).", "quantifier": "every directory state", "why_tests_cant": "unbounded states", "anchors": ["sources/full_format.cpp:FuseHighLevelOps::vrmdir"]}
{"id": "C28", "title": "Path resolution terminates and follows names", "statement": "Opening or asking about a path finds a file exactly if the path leads to it by the usual walk ('.' stays, '..' goes back along the way come, a symbolic link is walked from the directory holding it), fails with EPERM, ENAMETOOLONG or ELOOP exactly when a component is looked up in a non-directory, is longer than 255 bytes, or links are nested more than 16 deep, and with ENOENT when a component does not exist; it always terminates, and links leading to each other give ELOOP. Plain paths visit their components in order.", "quantifier": "every reachable repository state, every path, whatever objects the cache has dropped", "why_tests_cant": "unbounded graphs", "anchors": ["sources/full_format.cpp:generic_open,open_base,open_all"]}
{"id": "C29", "title": "Encrypted file names translate back", "statement": "For every file name, the name shown by listing the encrypted directory is the name that was used to create the file, both for names stored directly and for long names stored through the lookup table.", "quantifier": "every name (any bytes but '/' and NUL), every key, threshold and suffix", "why_tests_cant": "unbounded names", "anchors": ["sources/lite_format.cpp:NewStyleNameTranslator,LegacyNameTranslator"]}
{"id": "C30", "title": "Different paths never collide on disk", "statement": "Two different absolute virtual paths (within the supported component sizes, and unless two long names have the same digest) are mapped to physical paths that differ even if letter case is ignored, and the physical path has the same number of components.", "quantifier": "every pair of paths", "why_tests_cant": "unbounded paths", "anchors": ["sources/lite_format.cpp:encrypt_full_path"]}
{"id": "C31", "title": "Encrypted names never escape the repository", "statement": "No component of an encrypted path is '.', '..' or empty (unless the corresponding virtual component is empty) or contains '/' or NUL, whatever the virtual name, and the physical path is relative.", "quantifier": "every path", "why_tests_cant": "unbounded paths", "anchors": ["sources/lite_format.cpp:encrypt_full_path"]}
{"id": "C32", "title": "Symbolic link targets round-trip (lite)", "statement": "Reading back a lite symbolic link gives the target it was created with, in both the old and the new name encoding; a target changed by somebody without the key is reported as an error, as an empty target, or as a string that was itself encrypted with the repository's name key, never as anything else.", "quantifier": "every target string", "why_tests_cant": "unbounded targets", "anchors": ["sources/lite_format.cpp:encrypt_path_for_symlink,decrypt_path_from_symlink"]}
{"id": "C33", "title": "Advertised maximal name length is sound", "statement": "Any name no longer than the advertised maximal component length maps to a physical name that fits in the host's limit, and the advertised maximum is the largest such length for directly stored names.", "quantifier": "every physical limit and name length", "why_tests_cant": "unbounded", "anchors": ["sources/lite_format.cpp:max_virtual_path_component_size"]}
{"id": "C34", "title": "Listing a lite directory shows exactly the valid names", "statement": "Listing reports exactly one entry for each physical entry that was made through the file system, under its virtual name and in order, skips hidden entries and entries that are not encoded text, and reports no name that is not the content of an authentic encryption found in the directory.", "quantifier": "every physical directory content, including foreign files", "why_tests_cant": "adversarial contents unbounded", "anchors": ["sources/lite_format.cpp:DirectoryImpl::next"]}
{"id": "C35", "title": "Every long-named file keeps its recorded name", "statement": "After any history of create, mkdir, symlink, link, unlink, rmdir and rename calls, successful or refused by the host, every physical entry that stands for a long name has its full encrypted name recorded in its directory's lookup table, no table has a row for an absent entry, and listing a directory shows exactly the names that can be opened in it, each once. Excepted are three operations that lose a row and are recorded as findings: rmdir of a non-empty directory holding long names, rename between two hard links of one file, and a create whose header cannot be written.", "quantifier": "every history of operations, every directory tree, every entry, every name threshold and suffix, every answer of the host", "why_tests_cant": "histories unbounded", "anchors": ["sources/lite_format.cpp:process_possible_long_name,vrename", "sources/lite_long_name_lookup_table.cpp"]}
{"id": "C36", "title": "Extended attributes behave like plain ones", "statement": "Extended attributes set, replaced, read, listed and removed through a mount answer as the same attributes kept in plain text on the host would: same values, sizes, order and error codes. In the lite format this is for non-empty values and for reads with no buffer or one no larger than the value (a larger one makes the read fail, and setting an empty value does nothing); in the full format for every value and every buffer, as long as the host does not refuse the second half of a set or remove. In the full format a returned value was set on that very file under that very name, whatever was done to the stored attributes short of a forgery; in the lite format values can be exchanged between names and files unnoticed.", "quantifier": "every history of attribute calls, every name, value, flag, buffer size and host refusal; every tampered attribute set", "why_tests_cant": "unbounded", "anchors": ["sources/lite_format.cpp:vgetxattr,vsetxattr,XattrCryptor", "sources/files.cpp:getxattr,setxattr", "sources/xattr_name.cpp"]}
{"id": "C37", "title": "Listing extended attributes obeys the size protocol", "statement": "Listing with no buffer returns the exact size needed; with a large enough buffer it writes exactly that many bytes, the NUL-terminated decrypted names in order, and with too small a buffer it fails with ERANGE; it never writes past the buffer.", "quantifier": "every set of stored names and every buffer size", "why_tests_cant": "unbounded", "anchors": ["sources/xattr_name.cpp:wrapped_listxattr"]}
{"id": "C38", "title": "Configuration can be opened with the right secrets only", "statement": "A repository that was created is opened by the same password and key file with exactly the parameters it was created with. Conversely (with an unforgeable cipher, a complete MAC in the file and a long-name suffix that is text) whatever file opens at all opens only with secrets that derive a key under which somebody who knew it stored parameters, and with exactly those parameters.", "quantifier": "every parameter set, password, key file, KDF choice and every content of the configuration file", "why_tests_cant": "unbounded", "anchors": ["sources/params_io.cpp:encrypt,decrypt,compute_password_derived_key", "sources/commands.cpp:CreateCommand::execute", "protos/params.proto"]}
{"id": "C39", "title": "Changing the password preserves the repository and is crash-safe", "statement": "After a password change the new secrets open the same parameters as before. Wherever the process dies or a host operation fails during the change, the configuration is either the complete old one (opened by the old secrets) or the complete new one (opened by the new secrets), no other file is touched, and with wrong old secrets nothing is written. (Loss of power is excluded: the data are not flushed.)", "quantifier": "every configuration and every crash point", "why_tests_cant": "crash points", "anchors": ["sources/commands.cpp:ChangePasswordCommand::execute"]}
{"id": "C40", "title": "Switching a lite repository to long names keeps existing names valid", "statement": "The threshold chosen by the migration is such that every name already stored in the repository is still stored under the same physical name afterwards.", "quantifier": "every set of existing names", "why_tests_cant": "unbounded", "anchors": ["sources/commands.cpp:MigrateLongNameCommand"]}
{"id": "C41", "title": "Per-thread objects are never mixed up", "statement": "A per-thread object obtained from an owner was created by that very owner for that very thread, is created at most once per owner and thread, and two owners alive together never share a slot; the 257th simultaneous owner is refused.", "quantifier": "every history of owner creation/destruction and accesses from any threads", "why_tests_cant": "schedules unbounded", "anchors": ["sources/thread_local.h:ThreadLocal", "sources/thread_local.cpp:ThreadLocalRegistry"]}
{"id": "C42", "title": "Idle timer decides at most once and never early", "statement": "When the idle timer decides to call, the clock shows at least the most recently requested time and destruction has not begun; it decides at most once, the callback is called at most once after that and never after destruction has ended; and once the clock has reached every time that was requested, the callback is called as soon as the worker runs. (The call itself comes after the decision: a later request in between does not stop it.)", "quantifier": "every schedule of the worker and the callers, every sequence of requested times", "why_tests_cant": "schedules unbounded", "anchors": ["sources/resettable_timer.cpp", "sources/fuse_hook.cpp"]}
{"id": "C43", "title": "Only one writer mounts a full-format repository", "statement": "If processes take and give back the write lock of a repository one at a time, two processes never both hold it, whatever lock file is left over and wherever processes fail or die. (Overlapping attempts can both succeed.)", "quantifier": "every initial lock file, every history of any number of processes whose acquisitions and releases do not overlap, every failure and crash", "why_tests_cant": "schedules unbounded", "anchors": ["sources/full_format.cpp:RepoLocker"]}
{"id": "C44", "title": "Operations cannot deadlock, and use what a lock protects only with the lock", "statement": "Whatever operations any number of threads run, in the full or the lite format, and wherever they have got to, all of them can still finish; the steps they take are bounded by the work there is, except for attempts to take two file locks at once that are given up; and a thread that uses a file (or an open directory, a name table) holds its lock, which nobody else does then.", "quantifier": "every number of threads, every set of files and every schedule", "why_tests_cant": "schedules unbounded", "anchors": ["sources/files.h:DoubleFileLockGuard,FileLockGuard", "sources/full_format.cpp:open_base,open_all,vrename,vlink", "sources/file_table_v2.cpp", "sources/lite_format.h:File,Directory", "sources/lite_format.cpp:open"]}
{"id": "C45", "title": "Inode numbers are stable and non-zero for the root", "statement": "The inode number reported for a file is a fixed function of its id, is the all-ones value for the root, and differs for ids that differ in the first eight bytes.", "quantifier": "every id", "why_tests_cant": "2^256 ids", "anchors": ["sources/myutils.h:to_inode_number"]}
{"id": "C46", "title": "Legacy configuration: password and key-file fallbacks", "statement": "A legacy configuration is never mistaken for the present format, is opened if any of the documented combinations of password and key file derives the right key, and yields the documented defaults for absent fields. With a complete, unforged MAC what opens was wrapped under a key the secrets give, as version 4 if and only if the repository is opened in the lite format.", "quantifier": "every legacy configuration, password and key file", "why_tests_cant": "unbounded", "anchors": ["sources/params_io.cpp:decrypt (legacy),get_version_header,try_legacy", "protos/params.proto"]}
{"id": "C47", "title": "Long-name suffix change keeps all files reachable", "statement": "When changing the long-name suffix of a repository reports success, every path finds with the new suffix exactly what it found with the old one, every long name is recorded under the new suffix, and directories list what can be opened in them. The change reports success if the host refuses nothing and the directories are visited deepest long name first; in other orders it can stop half-way and lose files (finding).", "quantifier": "every directory tree made by the file system, every order of the directories, every path", "why_tests_cant": "unbounded trees", "anchors": ["sources/lite_format.cpp:change_long_name_suffix"]}
{"id": "C48", "title": "Symbolic-link, regular-file and directory ids are never confused", "statement": "Under every interleaving, an object is used as a regular file, directory or symbolic link only if it was made as one and the recorded type says so; if every file is only opened with its own type, using it as that type works and as another is refused. (One open with a wrong type makes the right type be refused while the object stays in memory: refuted.)", "quantifier": "every schedule, object and requested type", "why_tests_cant": "unbounded", "anchors": ["sources/files.h:FileBase::cast_as", "sources/file_table_v2.cpp:construct,open_as"]}
{"id": "C49", "title": "Every full-format operation has exactly its effect", "statement": "Create, mkdir, symlink, link, unlink, rmdir, rename, open, close, write, truncate, chmod, stat, readlink and readdir each change or report exactly the names, modes and contents they are documented to, leave everything else alone, fail only for their documented reasons and then change nothing, and never touch an object that no longer exists.", "quantifier": "every reachable repository state and every operation", "why_tests_cant": "states and histories unbounded", "anchors": ["sources/full_format.cpp:FuseHighLevelOps", "sources/file_table_v2.cpp:open_as,close_internal"]}
{"id": "C50", "title": "Creating a repository never overwrites anything", "statement": "Wherever the create command stops, no file that existed before is changed; if there is a file in the place of the new configuration the command fails and writes nothing.", "quantifier": "every directory, option set and crash point", "why_tests_cant": "crash points", "anchors": ["sources/commands.cpp:CreateCommand::execute"]}
{"id": "C51", "title": "Passwords on the command line mean the same to every command", "statement": "Changing the password takes the password options as mounting does, so that the options given to one open the repository with the other (unless a password option is given as the empty string).", "quantifier": "every combination of options and typed input", "why_tests_cant": "combinations unbounded", "anchors": ["sources/commands.cpp:SinglePasswordHolder::get_password", "sources/commands.cpp:ChangePasswordCommand::parse_cmdline"]}
{"id": "C52", "title": "Long-name migration replaces the configuration atomically", "statement": "Wherever the migration to long names dies or fails while it rewrites the configuration, the same secrets open either the old parameters or the old parameters with the new threshold and suffix, and no other file is changed by the rewriting.", "quantifier": "every configuration, threshold, suffix and crash point", "why_tests_cant": "crash points", "anchors": ["sources/commands.cpp:MigrateLongNameCommand::execute"]}
{"id": "C53", "title": "Handles and names of one file share one content", "statement": "In the lite format, whatever sequence of creating, opening, reading, writing, truncating (by path or handle), asking for sizes, linking, renaming, unlinking and closing is carried out, by any number of handles and names, each answer is the one given by plain byte arrays of which each is shared by all names and handles of its file; a handle keeps referring to its file after the name is removed or reused. Excepted are uses of a handle after the file was opened with O_TRUNC through another one. A file that has no byte on the host, as a crash right after its creation leaves it, has size 0 and can be opened and used as an empty file.", "quantifier": "every history, any number of files, names and handles, any sizes within the limit", "why_tests_cant": "unbounded histories of interleaved handles", "anchors": ["sources/lite_format.cpp:FuseHighLevelOps::open", "sources/lite_format.cpp:FuseHighLevelOps::vgetattr", "sources/lite_format.cpp:FuseHighLevelOps::vtruncate", "sources/lite_format.h:File", "sources/unix.cpp:OSService::open_file_stream"]}
{"id": "C54", "title": "Encrypted directories behave as a plain directory tree", "statement": "In the lite format, whatever sequence of creating, opening, linking, unlinking, renaming, making and removing directories and making symbolic links is carried out, every answer is the one the host would give for the same calls on a tree with the plain names, every path leads to what that tree has there, and every directory lists exactly the names it holds, each once. With names too long to be stored directly there are two exceptions that change nothing: a directory may refuse to be replaced by a rename although it is empty, and a missing parent directory is reported before another reason of the host.", "quantifier": "every history, any depth, any names (plain, old-style or new-style), any threshold and suffix", "why_tests_cant": "unbounded histories over unbounded trees and names", "anchors": ["sources/lite_format.cpp:FuseHighLevelOps::vrename", "sources/lite_format.cpp:FuseHighLevelOps::vrmdir", "sources/lite_format.cpp:FuseHighLevelOps::vmkdir", "sources/lite_format.cpp:FuseHighLevelOps::vlink", "sources/lite_format.cpp:FuseHighLevelOps::vunlink", "sources/lite_format.cpp:FuseHighLevelOps::process_possible_long_name", "sources/lite_long_name_lookup_table.cpp"]}
{"id": "C55", "title": "The layers between FUSE and the file system are transparent", "statement": "Every call FUSE makes reaches the file system exactly once with the same arguments, the caller gets exactly what the file system left in its memory, and the code returned is the one the file system returned, or the negated error number of its failure (EINVAL, EFBIG and EPERM for failures without one); a failure with a positive error number is never taken for success. The exceptions are the calls that query or end the mount, which never reach the file system, and an ioctl that the file system does not implement, which is answered as not supported. Calls are offered to FUSE exactly when the file system has them.", "quantifier": "every call with any arguments and memory, every file system, every mount option and log level", "why_tests_cant": "unbounded arguments and behaviours of the file system", "anchors": ["sources/fuse_tracer_v2.h:FuseTracer::traced_call", "sources/fuse_tracer_v2.cpp", "sources/fuse_high_level_ops_base.cpp", "sources/fuse_hook.cpp", "sources/internal_mount.cpp", "sources/exceptions.h"]}
{"id": "C56", "title": "Contents stay out of the log, failures do not", "statement": "Unless sensitive logging is allowed, the log never depends on the contents of files, on the values and lists of attributes or on the link targets read: two runs that differ only in these leave the same lines. Every failure that is not a plain answer of the file system, an existing target or a missing attribute is logged in exactly one error line with the function and its code; above the trace level nothing else is.", "quantifier": "every pair of calls and file systems that differ in contents only; every level", "why_tests_cant": "a relation between all pairs of runs", "anchors": ["sources/fuse_tracer_v2.h:FuseTracer::traced_call", "sources/fuse_tracer_v2.cpp", "sources/fuse_high_level_ops_base.cpp", "sources/logger.h"]}
{"id": "C57", "title": "Concurrent operations on open files are atomic and all return", "statement": "When threads read, write, truncate and ask for the size through open handles at the same time, also through different handles of one file, what they see is as if every operation had happened at one moment between its call and its return on a plain byte array per file; a file that nobody is working on holds the content of that array. No execution gets stuck: while a call is pending some thread can go on, and all calls return once no new ones come. (Not so in the lite format with --noflock, nor for the size asked by path.)", "quantifier": "every number of threads and handles, every interleaving of the steps of their operations, every history before", "why_tests_cant": "the interleavings of unboundedly many steps of unboundedly many threads", "anchors": ["sources/lite_format.h:File::lock, File::unlock", "sources/lite_format.cpp:FuseHighLevelOps::vread, vwrite, vftruncate, vfgetattr, vgetattr", "sources/unix.cpp:UnixFileStream::lock", "sources/lock_guard.h:LockGuard", "sources/full_format.cpp", "sources/files.h:FileLockGuard", "sources/streams.cpp:BlockBasedStream"]}
{"id": "C58", "title": "Mounting uses the options and keys where they belong, in the foreground and in the background", "statement": "A repository created with any options can be mounted with any options; every key, size and choice made at creation and every option of the mount then arrives at the part it is meant for. Mounting in the background gives exactly the file system, FUSE arguments, locks and logging of mounting in the foreground, or the same error. No mount option changes keys, sizes or layout, so whatever the options a later mount reads what an earlier one wrote. The command that mounts in the background reports success only after it has seen the mount and failure only after its child has ended. (Not so: --noflock is lost in the background; paths that are not UTF-8 cannot be mounted in the background; --use-ino auto does not recognise the full format; an unknown --normalization means none; owner overrides do nothing in the lite format.)", "quantifier": "every command line, every configuration, every answer of the host, every sequence of observations of the child", "why_tests_cant": "the combinations of options, configurations and texts are unbounded, and the message to the child is parsed and printed byte by byte", "anchors": ["sources/commands.cpp:MountCommand::build_internal_mount_data, should_use_ino, execute; ProtoMountCommand::execute", "sources/internal_mount.cpp:internal_mount", "protos/params.proto:InternalMountData, MountOptions", "sources/lock_enabled.cpp"]}
{"id": "C59", "title": "Verification turns results into failures and nothing else", "statement": "Mounting with --insecure changes nothing as long as no operation would report failed verification: every result and every stored byte is the same, also on damaged files. An operation that does report failed verification has left the stored file as it was, except that a write starting beyond the end may have lengthened the file up to there. In the lite format, without verification every byte of a file can be read whatever has become of the stored bytes.", "quantifier": "every stored bytes (damaged or not), every history of operations and reopenings, both formats, any cipher", "why_tests_cant": "the damage, the history and the offsets are unbounded", "anchors": ["sources/lite_stream.cpp:AESGCMCryptStream::read_multi_blocks", "sources/streams.cpp:AESGCMCryptStream::read_multi_blocks, HMACStream, BlockBasedStream", "sources/commands.cpp:--insecure"]}
{"id": "C60", "title": "The password entered last opens the repository", "statement": "The password a command works with is the one its options and its input stand for: the option, else a space if there is only a key file, else one line of at most 4000 bytes from standard input, entered twice when a new one is chosen at a terminal; the terminal is afterwards as before. Whatever commands are run one after the other on a directory, with whatever options, input and host, and wherever they are killed, the exit codes tell what happened and the secrets accepted last open the repository with the parameters it was created with. Piping one line to create and two lines to chpass succeeds when the host plays along. (Not so: with CR LF line ends or a missing second line chpass sets the empty password; after a line that is too long the terminal stays without echo.)", "quantifier": "every sequence of commands, every input, every option, every behaviour of the host, every point at which a command is killed", "why_tests_cant": "histories, inputs and crash points are unbounded", "anchors": ["sources/unix.cpp:OSService::read_password_no_confirmation, read_password_with_confirmation", "sources/commands.cpp:SinglePasswordHolder::get_password, ChangePasswordCommand::parse_cmdline", "sources/commands.cpp:CreateCommand, ChangePasswordCommand, MigrateLongNameCommand, InfoCommand, commands_main"]}
{"id": "C61", "title": "Showing the configuration does not show keys", "statement": "Without --unmask neither the output nor the exit code of the info command depends on the keys of the repository; apart from the keys everything is shown, with --unmask everything, and nothing is ever written.", "quantifier": "every configuration and its keys, every way of printing, every option and input", "why_tests_cant": "independence of the keys is a statement about all pairs of configurations", "anchors": ["sources/commands.cpp:InfoCommand::execute"]}
{"id": "C62", "title": "Command names and exit codes mean what they say", "statement": "The command that runs is the one whose name or one-letter name is given, and no other word runs any. Exit code 0 means that the secrets were accepted and the command did its work on an existing repository; with any other exit code the configuration of the repository is as it was. (Not so: the empty word reads beyond the end of the argument.)", "quantifier": "every word, every command, option, input and behaviour of the host", "why_tests_cant": "words and failures are unbounded", "anchors": ["sources/commands.cpp:commands_main"]}
{"id": "C63", "title": "Stopping a mount completes what was begun, and does stop", "statement": "A mount goes on serving with all its threads until there is a reason to stop: a signal, a request to unmount, or the kernel ending the session or reporting an error. Then, whatever the threads are doing and in whatever order they run, it stops without waiting for another request: it is never stuck, and after the threads have been told at most 5 n + 2 further steps of n threads remain. When the program returns, every request that was taken from the kernel has been completed, and its result is the error reported last, or 0. With the option for a single thread every request is completed before the next is taken. (Not so: where the number of processors is unknown there are no threads and the mount never answers.)", "quantifier": "every number of threads, every interleaving of their steps, every sequence of requests, errors and signals", "why_tests_cant": "schedules and the moment of the signal are unbounded", "anchors": ["sources/fuse2_workaround.cpp:worker_loop, my_fuse_main, self_pipe_signal_handler, clean_exit_fuse"]}
{"id": "C64", "title": "What fsync has made durable survives a loss of power", "statement": "Lite format: after an fsync that succeeds, the file can be opened after a loss of power at any later moment, whatever has reached the disk of the changes since, and every range of the content as of the fsync reads back unless a call since then has touched one of its blocks; if nothing was changed since, the whole file is as it was. Full format: the same for a file that was closed (flushed) before the fsync and not changed since, with its attributes; and for what was fsynced in any case if the file is opened without verification. (Not so: with verification, a full-format file that is written and fsynced but not closed cannot be opened after a loss of power, for fsync does not bring the stored MAC up to date.)", "quantifier": "every sequence of reads, writes, truncations, attribute changes, flushes and fsyncs; every subset and tearing of the physical operations since the last fsync; every range", "why_tests_cant": "crash states are exponentially many and the history is unbounded", "anchors": ["sources/lite_format.cpp:vfsync, File::fsync", "sources/full_format.cpp:vfsync", "sources/files.h:FileBase::fsync", "sources/files.cpp:FileBase::flush", "sources/unix.cpp:UnixFileStream::fsync"]}
{"id": "C65", "title": "No nonce is used twice", "statement": "Over the whole life of a file, with any writes, truncations and reopenings, every encrypted record that is stored (each block; in the full format also each header) carries a nonce from a draw of the random source made for it alone. If the random source does not repeat itself, no two encryptions under the file's key have the same nonce.", "quantifier": "every history of a file; every random source", "why_tests_cant": "a reuse shows only in a long history, and a test does not look at nonces", "anchors": ["sources/lite_stream.cpp:AESGCMCryptStream::write_multi_blocks", "sources/streams.cpp:AESGCMCryptStream::write_multi_blocks, unchecked_write_header", "sources/streams.cpp:BlockBasedStream"]}
{"id": "C66", "title": "What is stored tells sizes and places, not data", "statement": "Two histories of a file that write data of the same lengths to the same places (and, in the full format, headers of any length) cause the same operations on the stored files: at the same offsets, of the same lengths, in the same order. If the cipher is ideal, a pad of its own for every key and nonce, they cannot be told apart at all: one fixed change of the pads of this file's key turns all that the first stores into all that the second stores, byte for byte.", "quantifier": "every pair of such histories; every set of pads", "why_tests_cant": "a statement about pairs of histories and about all keys", "anchors": ["sources/lite_stream.cpp:AESGCMCryptStream", "sources/streams.cpp:AESGCMCryptStream, HMACStream, BlockBasedStream"]}
{"id": "C67", "title": "An error of the host is reported and does not spread", "statement": "If reads, writes or truncations of the stored files fail while a file is read, written or resized, the operation either gives the answer and has the effect it would have had without the fault, or it reports the error of the call that failed; then the stored files hold what the calls before it left (and at most a beginning of the failed write), the file can still be opened (full format: without verification) and all blocks the operation does not touch are read back. An operation whose first modification fails has no effect, and the history goes on as if it had not been asked for. A MAC that could not be written is completed by the next flush. (Not so: a host read that returns less than asked for in the middle of the file is taken for the end of the file, so a read is cut short or a write loses data without an error; in the full format a partial write of the metadata leaves a file that cannot be opened with verification, and an error while the MAC is written on destruction is dropped.)", "quantifier": "every history, every operation, every choice of the calls that fail and of the errors and counts they return", "why_tests_cant": "host errors do not occur in tests, and the failing call may be any of those of an operation", "anchors": ["sources/unix.cpp:UnixFileStream::read, write, resize", "sources/streams.cpp:BlockBasedStream, HMACStream", "sources/lite_stream.cpp:AESGCMCryptStream"]}
{"id": "C68", "title": "Names that differ only in case or normalization are one name, where asked for", "statement": "Full format: a repository created to ignore case, Unicode normalization or both distinguishes two names exactly if they differ after removing what it ignores. However a path is spelt, opening, asking about, changing, unlinking or linking it does exactly the same. A directory shows a new name as it was spelt, never shows two names that are alike, and no operation changes a spelling except one that spells the name; asking for the true path of an existing path gives the names as shown, if the buffer has room. Lite format mounted with normalization: the repository behaves as a plain tree asked for the normal forms of the paths, and two paths are stored in one place exactly if their normal forms are equal. (Not so: renaming one link of a file to another link of it changes the spelling of both; names made by a lite mount without normalization are shown by a mount with it but not found.)", "quantifier": "all names and paths, all four configurations, all reachable directory trees, all histories, every Unicode library with the stated properties", "why_tests_cant": "equivalence of names and the order of directory entries must hold for all pairs and triples of names, and the agreement of the spellings for all trees and paths", "anchors": ["sources/mystring.cpp:is_ascii, binary_compare, case_insensitive_compare, uni_norm_insensitive_compare, case_uni_norm_insensitve_compare", "sources/internal_mount.cpp:params_to_dir_name_comparison", "sources/full_format.cpp:FuseHighLevelOps::vgetpath", "sources/lite_format.cpp:PathNormalizingNameTranslator, make_name_translator"]}
{"id": "C69", "title": "Operations on names by several threads at once neither lose nor free a file", "statement": "Full format: however many threads create, link, unlink, rename, open, close and ask about paths at once, with the steps of their calls in any order and files evicted from memory at any time: at every moment every name leads to a stored file of the type it says, no file is deleted while it has a name or is open, and no call uses a file that is gone. When no call is running, and none has failed in a way that leaves something behind, link counts are exact, what is stored is what has a name or is open, and no reference has been lost. A call that nothing interrupts does exactly what the sequential description says. (Not so: a file made in a directory that another call removes meanwhile is left without a name; a path with \"..\" can lead elsewhere when a directory it has passed is evicted meanwhile.)", "quantifier": "any number of threads, all calls, all interleavings of their steps between locks, all moments of eviction, all histories", "why_tests_cant": "the interleavings of the steps of several calls cannot be enumerated, and the bad ones are rare", "anchors": ["sources/full_format.cpp:create, open_base, open_all, generic_open, vunlink, vrmdir, vlink, vrename", "sources/file_table_v2.cpp:open_as, create_as, close_internal", "sources/lock_guard.h:DoubleFileLockGuard"]}
{"id": "C70", "title": "Each of several overlapping calls on names takes effect at one moment", "statement": "Full format: however calls of several threads overlap, a call that creates, removes, renames or links a name does so in a single step between its start and its return, which does to the names what the call would do alone from the state at that step, and none of its other steps changes a name or a file's contents. What a call answers was so at one of its steps: a file it opened or described was found by looking up the components of its path one after the other at later and later moments; \"no such file\" and \"file exists\" mean that a name was missing, or was there, at one of its steps. A failed call changes nothing, except that removing a directory or renaming may already have taken the old name away. Nothing but these steps changes names. (Not so: a symbolic link gets its target only after its name; a hard link can give a name to a file that has lost its last one meanwhile.)", "quantifier": "any number of threads, all calls and paths, all interleavings of their steps between locks, all moments of eviction, all histories", "why_tests_cant": "whether every interleaving of several calls leaves each with one moment of effect cannot be sampled", "anchors": ["sources/full_format.cpp:create, open_base, open_all, generic_open, vunlink, vrmdir, vlink, vrename, vsymlink", "sources/file_table_v2.cpp:open_as, create_as", "sources/lock_guard.h:DoubleFileLockGuard"]}
{"id": "C71", "title": "A mounted lite repository is a plain file system", "statement": "Lite format, every cipher setting, padding, block size and way of storing names: any sequence of open, create, read, write, truncate, getattr, mkdir, rmdir, unlink, link, rename, symlink, readlink and close calls, with any number of unmounts in between, answers what a plain in-memory file system with the same names, contents and link texts would answer - data, sizes, inode identities and error numbers included. The only differences: a directory that once held a long name may not be replaced by a rename, a missing directory may be reported where the host had another reason to refuse, and a link text may be refused as too long when its stored form exceeds the host's limit. Without long names and with short link texts there is no difference at all, and every directory lists exactly the names it holds. (A handle opened before its file was opened anew with O_TRUNC must not be used; see C53.)", "quantifier": "all sequences of calls of any length, all paths, handles, offsets and data, all configurations, all ciphers and random sources", "why_tests_cant": "equivalence with a plain file system must hold for every sequence of calls and every configuration", "anchors": ["sources/lite_format.cpp:FuseHighLevelOps, process_possible_long_name, open", "sources/lite_stream.cpp:AESGCMCryptStream", "sources/lite_long_name_lookup_table.cpp"]}
{"id": "C72", "title": "A mounted full repository is a plain file system", "statement": "Full format, every block size, padding, IV size and key: a repository started in an empty directory answers every sequence of create, mkdir, symlink, link, unlink, rmdir, rename, open, opendir, release, truncate, chmod, getattr, readlink, read, write, ftruncate, fgetattr, readdir and flush calls, with evictions from its cache and any number of unmounts in between, as a plain map from ids to inodes does: data, sizes, modes, link counts, ids and error numbers included. Every remount succeeds and loses nothing, although whatever was not flushed into the encrypted streams is gone with the objects in memory. With several threads, every run of overlapping calls is a run of the same calls over the map, step for step, with the same answers. Not compared: the size reported for a directory and the order in which it is listed. Directories hold less than six million names, no file exceeds what the format can address, the kernel releases files with release and directories with releasedir.", "quantifier": "all sequences of calls of any length, all interleavings of the steps of any number of threads, all paths, ids, offsets and data, all evictions and remounts, all ciphers and random sources", "why_tests_cant": "equivalence with a plain file system must hold for every sequence of calls, every interleaving and every moment at which an object is evicted or the repository remounted", "anchors": ["sources/full_format.cpp:FuseHighLevelOps", "sources/file_table_v2.cpp:FileTable", "sources/files.cpp:FileBase", "sources/btree_dir.cpp:BtreeDirectory", "sources/streams.cpp"]}
{"id": "C73", "title": "Lite format: overlapping calls on names take effect at one moment", "statement": "Lite format, every choice of name encryption: when any number of threads create, make, link, rename and remove files, directories and symbolic links at the same time, every call takes effect at one moment between its beginning and its return, as on a plain tree with the plain names; at any time every path leads to what that tree has there, also when the process is killed at any moment and mounted again, any number of times. A call with a long name may fail without effect because the table of long names is busy or cannot be opened, and a directory that once held a long name may not be removed or replaced although it is empty. Without long names there are no such refusals. (Not so: that an empty directory is always removed while others try to create long names in it; that two renames in opposite directions between two directories both go on.)", "quantifier": "all interleavings of system calls and database calls of any number of threads, all sequences of calls per thread, all failures of database calls, all paths and tree states", "why_tests_cant": "the claim is about every interleaving of the steps of overlapping calls", "anchors": ["sources/lite_format.cpp:FuseHighLevelOps", "sources/lite_format.cpp:process_possible_long_name", "sources/lite_long_name_lookup_table.cpp:LongNameLookupTable", "sources/lite_long_name_lookup_table.cpp:DoubleLongNameLookupTable"]}
{"id": "C74", "title": "Lite format: tables of long names survive overlapping calls", "statement": "Lite format, long names enabled: whatever calls overlap, once all have returned, every long-named entry of every directory has its full name in the table of its directory, no table has a row too many, and a directory lists exactly the names that can be opened in it, provided that no directory is moved or removed, nor an attempt made to remove it, while a call with a long name is at work in it, that no commit fails, and that each single step is one that the tables survive when nothing overlaps (C35). (Not so without the proviso: a file created while its directory is renamed and another made in its place, or while someone tries to remove the directory, ends up without a recorded name; a commit that fails is not reported.)", "quantifier": "all interleavings of system calls and database calls of any number of threads that leave each call its table, all failed calls, all paths", "why_tests_cant": "the claim is about every interleaving of the steps of overlapping calls and their transactions", "anchors": ["sources/lite_format.cpp:process_possible_long_name", "sources/lite_format.cpp:FuseHighLevelOps::vrename", "sources/lite_format.cpp:FuseHighLevelOps::vrmdir", "sources/lite_long_name_lookup_table.cpp"]}
{"id": "C75", "title": "Lite format: a kill at any moment spoils at most the names of calls under way", "statement": "Lite format, long names enabled: if the process is killed at any moment, whatever calls overlap, every long-named entry on the disk other than those named by a call under way has its full name in the table of its directory, and every row of a table other than those belongs to an entry, provided that the tables had survived until then (the proviso of C74). (Not so for the names of calls under way: a file whose creation is cut short between the host call and the commit can be opened but is never listed.)", "quantifier": "all interleavings of system calls and database calls of any number of threads that leave each call its table, all moments of the kill, all paths", "why_tests_cant": "the claim is about a kill at every point of every interleaving", "anchors": ["sources/lite_format.cpp:process_possible_long_name", "sources/lite_long_name_lookup_table.cpp:LongNameLookupTable", "sources/lite_long_name_lookup_table.cpp:DoubleLongNameLookupTable"]}
{"id": "C76", "title": "Full format: what a kill of the mounted process leaves", "statement": "Full format: if the process that serves a repository is killed while no file is open and no call is under way, any number of times, it can be mounted again and everything is as after an orderly unmount. If it is killed at any other moment (between two steps of the calls under way), the stored files are those of the file system then; a file or directory that no call under way holds and nobody has open reads as it is; and of one that is held, one finds it as it was at some moment since it was last flushed, or an empty pair of stored files if it was created and never flushed, or bytes that are refused because their MAC is not theirs. A file that has just been flushed is on the host as it is. (Not so: the root of a new repository is only written when the first call ends, and one killed before cannot be mounted; while a directory is held, also by someone who merely lists it, names added to it are not flushed, so that a file that was written, flushed and closed can be lost with its name.)", "quantifier": "all histories of overlapping calls, uses of open files, evictions, unmounts and kills, and all moments between two steps", "why_tests_cant": "the moment of the kill is one of unboundedly many among all interleavings, and what is in memory only depends on the whole history", "anchors": ["sources/file_table_v2.cpp: FileTable::init, close, close_internal", "sources/files.cpp: FileBase::flush, Directory, RegularFile", "sources/btree_dir.cpp: BtreeDirectory::subflush, flush_cache", "sources/streams.cpp: HMACStream, CryptStream", "sources/full_format.cpp"]}
{"id": "C77", "title": "Lite files opened at the same time", "statement": "Lite format, with the host's locks: files that threads or processes create, open, read, write, resize and close at the same time behave as atomic files: every call takes effect at one moment between its start and its end. In particular, of several openings of a new file for writing one makes it an empty file, all succeed, and all handles see each other's content. A file nobody is working on has no bytes yet or can be opened and read. (Not so with --noflock: two openings of a new file can both succeed and then what one writes the other cannot read. Not so for a file being created: until its header is there, opening it for reading fails with EBADF; and a kill between the two writes of the header leaves a file that nobody can open.)", "quantifier": "all numbers of threads, processes, files and handles, all calls, all interleavings of the accesses to stored files, all moments at which a lock of the host fails", "why_tests_cant": "the header is written in a window of two system calls; tests would have to hit all interleavings", "anchors": ["sources/lite_format.h: File::File, lock, unlock", "sources/lite_stream.cpp: AESGCMCryptStream::AESGCMCryptStream", "sources/lite_format.cpp: FuseHighLevelOps::open, vcreate, vopen, vrelease", "sources/unix.cpp: UnixFileStream::lock, unlock"]}
{"id": "C78", "title": "Mode, owner, links and times in a mounted repository", "statement": "Full format: what stat reports of a file changes only by what is done to it. Permissions are those of the latest chmod, owner and group those of the latest chown (minus one leaves one alone), the type and the time of birth stay, links are counted by the calls that add and remove names, the times follow reads (as with relatime), writes, and changes of attributes; a cache that drops the file, an unmount and a remount change nothing. A chmod, chown or utimens that succeeds has changed a file as it asked since it was called, and alone the one stat finds by that path. (Not so: a file that loses one of several names keeps its time of change; utimens sets that time to an uninitialised value.)", "quantifier": "all histories of overlapping calls, uses of open files, evictions and remounts, all files, ids, modes and times, all readings of the clock", "why_tests_cant": "attributes live in a shared object, in the header of a stored file and in a cache; tests see a few orders of reads, flushes, evictions and overlapping calls", "anchors": ["sources/files.cpp: FileBase::FileBase, initialize_empty, flush, stat, utimens, update_atime_helper", "sources/files.h: FileBase setters", "sources/full_format.cpp: vchmod, vchown, vutimens, vgetattr, vlink, vunlink, vrename", "sources/file_table_v2.cpp: FileTable::open, close, remove"]}
{"id": "C79", "title": "Child processes get the arguments and the input they are given", "statement": "Mounting in the background starts the program again. On Windows, the command line made of the program's name and any list of arguments is taken apart by the started program into exactly these arguments, with blanks, quotes, backslashes and empty ones. On all systems, the parent goes on only when the child has been given all of its input and the end of it; if that fails the child is killed and the failure reported.", "quantifier": "all lists of arguments, all program names a file can have, all inputs, all ways in which the system takes part of the data, interrupts or fails", "why_tests_cant": "quoting rules interact (backslashes before quotes before ends) for strings of any length; partial writes depend on the system", "anchors": ["sources/win.cpp: OSService::win_quote_argv, execute_child_process_with_data", "sources/unix.cpp: OSService::execute_child_process_with_data"]}
{"id": "C80", "title": "Windows: times of files survive conversion", "statement": "On Windows, a time of the host is reported as the same instant and set again as the same; a time from 1970 on that is set is reported rounded down to 100 ns. (Not so: times before 1970 are reported with negative nanoseconds.)", "quantifier": "all host times, all times between 1970 and 30828", "why_tests_cant": "64-bit arithmetic split into 32-bit words: tests see a few instants", "anchors": ["sources/win.cpp: filetime_to_unix_time, unix_time_to_filetime, convert_dword_pair"]}
{"id": "C81", "title": "Windows: paths lead to one place inside the repository", "statement": "On Windows, a relative path is resolved against the directory of the repository component by component, whichever slashes and dots it is spelled with, into a form that Windows takes literally; without '..' it stays inside; paths with different components never lead to the same place. (Not so: '..' can remove the drive.)", "quantifier": "all base directories and relative paths, in all spellings", "why_tests_cant": "spellings are unbounded; a wrong join shows only for some combinations of prefix, separators and dots", "anchors": ["sources/win.cpp: OSService::is_absolute, OSService::concat_and_norm"]}
{"id": "C82", "title": "Windows: links, opening, reading and writing as elsewhere", "statement": "On Windows, a symbolic link reads as it was made and stat gives its length; opening creates, refuses and truncates as POSIX says; reads and writes of more bytes than one call takes give what one call would. (Not so: a backslash in a target comes back as a slash; a link made by other programs has a wrong length.)", "quantifier": "all targets without backslashes, all buffer sizes, all combinations of flags, all contents, offsets and lengths, all limits of one call", "why_tests_cant": "transfers of more than 4 GiB and all combinations of flags and states of a file", "anchors": ["sources/win.cpp: prepend_symlink_prefix, remove_symlink_prefix, OSService::symlink, readlink, stat_file_handle, WindowsFileStream"]}
{"id": "C83", "title": "ismount recognises what securefs serves, and unmount stops it", "statement": "For the mount point of any mount that can be opened, ismount succeeds and does nothing else to the mount, and unmount succeeds and makes the mounted process leave its loop. Elsewhere ismount fails unless the system itself gives the answer of a mount, and unmount fails with the system's error. (Not so: with FUSE-T unmount reports success for any directory; without it, directories inside a mount pass for mount points.)", "quantifier": "all mounted file systems, mount options and states, all other directories and whatever the system answers there", "why_tests_cant": "depends on what the mounted file system and other file systems answer; a test mounts one and asks once", "anchors": ["sources/fuse_high_level_ops_base.cpp: is_mounted_by_fuse, trigger_unmount_by_fuse, SpecialIoctlFuseHighLevelOps, SpecialFiledFuseHighLevelOps", "sources/unix.cpp: OSService::query_if_mounted_by_ioctl, OSService::trigger_unmount_by_ioctl", "sources/commands.cpp: IsMountCommand, UnmountCommand"]}
{"id": "C84", "title": "The log consists of whole lines", "statement": "However the threads of a mount interleave, the log file holds whole lines: for each thread exactly the lines of its calls of sufficient level, in order, each uninterrupted, and at most the beginning of one more; a call that has returned has its line in the file, not in a buffer; no thread waits for ever for the log. (Not so: times in the log can go back; raising the level while a thread logs makes it unlock a stream it has not locked.)", "quantifier": "all numbers of threads, sequences of log calls, ways the formatting writes in pieces or throws, interleavings and moments at which the C library writes its buffer", "why_tests_cant": "needs all interleavings of threads", "anchors": ["sources/logger.cpp: Logger::prelog, Logger::postlog, Logger::log_v2", "sources/logger.h: GENERIC_LOG", "sources/fuse_tracer_v2.cpp: FuseTracer::print_function_exception"]}
{"id": "C85", "title": "Listing a lite directory while it changes", "statement": "While other threads create, remove and rename, a listing of a lite directory shows only names of things that were in the directory at some moment between its beginning and its end, whatever SQLite answers; and what is there during the whole listing is shown exactly once, provided SQLite answers, the directory keeps its table of long names, no call on that name is under way and the other calls leave the tables in order. If nothing changes, the listing is the sequential one. (Not so: a file that is there all the time is silently left out if SQLite is busy when its name is looked up, or if the call that created it has not committed yet.)", "quantifier": "all histories of the repository, interleavings of the listing with any number of threads, kills and remounts, orders in which the host gives entries, failures of SQLite, directories, names and keys", "why_tests_cant": "needs all interleavings of threads and all orders in which the host reads a changing directory", "anchors": ["sources/lite_format.cpp: DirectoryImpl::next, DirectoryImpl::lazy_get_table, FuseHighLevelOps::vreaddir", "sources/lite_long_name_lookup_table.cpp: LongNameLookupTable::lookup"]}
{"id": "C86", "title": "Asking for the true spelling of a path reads only memory that is still there", "statement": "On a case-insensitive mount of the full format, asking how a path is spelled reads no memory that has been freed or changed, and gives the names as the directories have them, provided no other thread changes a directory meanwhile and the components of the path together with the files other threads close meanwhile are at most 42. (Not so: beyond that; a path of 43 components reads freed memory with no other thread at all, and a path of one component does when another thread removes the entry.)", "quantifier": "all histories of the table of open files, interleavings with any number of threads, directory contents, name comparisons and paths", "why_tests_cant": "the memory is usually still intact; needs every state of the caches and every interleaving", "anchors": ["sources/full_format.cpp: FuseHighLevelOps::vgetpath", "sources/file_table_v2.cpp: FileTable::open_as, FileTable::close_internal", "sources/btree_dir.cpp: BtreeDirectory::get_entry_impl"]}
{"id": "C87", "title": "A repository keeps its files through sessions and changes of the password", "statement": "After a repository was created with a password and key file, whoever mounts it with the secrets in force is served by one and the same plain file system, which goes on from session to session with the files as the last session left them; whoever mounts it with other secrets that were used gets an error and changes nothing. The secrets in force are those of the creation until somebody who has them changes them; such a change succeeds unless the host fails or argon2 cannot be computed; a change that fails or is made with other secrets leaves the old ones in force; one that is killed at any moment leaves either the old or the new ones in force; and no change of the secrets changes a file.", "quantifier": "all options of the creation (both formats), passwords, key files, keys, sequences of commands (mounts in the foreground or background with any usual options, changes of the password), calls in each session, failures of the host and moments of being killed", "why_tests_cant": "needs every sequence of commands and calls, every moment of a crash, and goes through every layer from the command line to the encrypted blocks", "anchors": ["sources/commands.cpp: CreateCommand::execute, MountCommand::execute, ChangePasswordCommand::execute", "sources/params_io.cpp: encrypt, decrypt", "sources/internal_mount.cpp: make_inner_fuse_high_level_ops", "sources/lite_format.cpp: FuseHighLevelOps", "sources/full_format.cpp: FuseHighLevelOps"]}
{"id": "C88", "title": "A lite file can be used as it was opened and as its mode says", "statement": "Whatever flags a lite file is opened with, reads and writes through the handle act on its content at the offsets they give, also if it was opened write-only or to append, and an opening, truncation or question for the size is refused with EACCES exactly if the mode of the file does not allow it. As long as the mode lets its owner read the file it behaves like an ordinary file with that mode. (Not so without that permission: such a file cannot be opened write-only or truncated, has no size if sizes are padded, and a file created without it has it nevertheless. A file opened read-only with O_TRUNC is emptied but not opened.)", "quantifier": "all flags and modes, umasks, owners and the superuser, sequences of create, open, read, write, truncate, chmod, stat and close through any handles, all parameters of the format", "why_tests_cant": "needs every combination of flags and modes in every sequence of calls", "anchors": ["sources/lite_format.cpp: FuseHighLevelOps::open, vcreate, vopen, vtruncate, vgetattr", "sources/unix.cpp: OSService::open_file_stream, UnixFileStream::read, write, resize"]}
{"id": "C89", "title": "Operations that reach past the largest size of a file", "statement": "A file has a largest size: 2^31 - 1 blocks in the lite format, 2^30 in the full format. Reads and writes that end beyond it fail with one error, as do resizes beyond it on a host without holes; every other operation succeeds, in every history. A failed call loses no stored byte: what follows is as if it had not been made, or, for a write that begins after the end of the file, as if the file had been extended with zeros up to there. (Not so: that a failed write leaves the file as it was; that a file never exceeds the limit, since on a host with holes a file below the limit can be resized to any size, and the part beyond cannot be read; that a read beyond the end of a small file is always an end of file.)", "quantifier": "all histories of reads, writes, resizes, size queries, reopenings and header operations with any offsets and lengths, with and without holes on the host, both formats, all block and IV sizes, with and without verification", "why_tests_cant": "needs files of terabytes and every offset and length around the limit after every history", "anchors": ["sources/streams.cpp: BlockBasedStream::read, write, unchecked_write, unchecked_resize, zero_fill", "sources/lite_stream.cpp: AESGCMCryptStream::read_multi_blocks, write_multi_blocks", "sources/streams.cpp: AESGCMCryptStream::read_multi_blocks, write_multi_blocks"]}
{"id": "C90", "title": "Extended attributes belong to the file (lite format)", "statement": "In a mounted lite repository, calls on files, names, links and extended attributes, in any order and with any unmounting in between, answer as a plain file system in which each file has its own attributes: an attribute set through one name is read, listed and removed through every other name of the file, follows it through renames and remounts, and is not found on a new file that takes over the name; attribute calls change nothing else and other calls change no attribute. (Not so: setting an empty value succeeds without being stored, even where there is no file.)", "quantifier": "all histories of calls on files, directories, links and attributes with any paths, names, values, flags, refusals of the host and remounts; all ciphers, keys and name translations; any attributes others have put on the stored files", "why_tests_cant": "histories that interleave attribute calls with linking, renaming, replacing, long names and remounting are unbounded", "anchors": ["sources/lite_format.cpp: vlistxattr, vgetxattr, vsetxattr, vremovexattr", "sources/xattr_name.cpp: wrapped_listxattr"]}
{"id": "C91", "title": "Extended attributes belong to the file (full format)", "statement": "In a mounted repository of the full format, every file, directory and symbolic link has its own extended attributes: calls on files, names and attributes, in any order, with evictions and remounts in between, answer as if each stored file carried a set of named values in plain text. An attribute is reached through every path that leads to the file (a symbolic link at the end of the path is not followed), goes with it through links, renames and remounts, ends with it, and is not found on a new file that takes over its name or even its id.", "quantifier": "all histories of calls with any paths, names, values, flags and buffer sizes, evictions from the cache and remounts (those of C72 and C36); all ciphers, keys and orders of names; any attributes others have put on the stored files", "why_tests_cant": "histories that interleave attribute calls with linking, renaming, removing, evicting and remounting are unbounded", "anchors": ["sources/full_format.cpp: vlistxattr, vgetxattr, vsetxattr, vremovexattr, open_all", "sources/files.cpp: FileBase::listxattr, getxattr, setxattr, removexattr"]}
{"id": "C92", "title": "A mount in the background is reported as what it is", "statement": "The command that mounts in the background reports success only after it has seen a securefs on the mount point, which is its child's if nobody else mounts one there; it reports failure only after its child has ended, with the exit code of the child or 128 and the signal, never with 0; it returns soon after the child has mounted or ended. (Not so: if another securefs is on the mount point already, success is reported even if the child fails; if the caller ignores SIGCHLD and the child fails, the command waits for ever.)", "quantifier": "all interleavings of the command's steps with the child's mounting, unmounting and ending and with others' mounts; all ways a process can end; all passing errors", "why_tests_cant": "needs all interleavings of the processes", "anchors": ["sources/commands.cpp: MountCommand::execute", "sources/unix.cpp: POSIXChildProcess::exit_code", "sources/fuse_high_level_ops_base.cpp: is_mounted_by_fuse"]}
{"id": "C93", "title": "On Unix, calls on a repository lead to one place below its directory", "statement": "Every call on a mounted repository, with encrypted or plain names, leads from the repository's directory down by exactly as many entries as the path has names, never above it or to the side; and the calls that go by the descriptor of the directory find the same as those that go by its name. (Not so: once the directory has been renamed while mounted, listings, attributes and tables of long names are looked for under the old name, even if another directory has it now; a suffix for long names that contains /../ leads outside.)", "quantifier": "all trees of directories on the host without symbolic links, all directories, all paths that FUSE can hand over, all name translations, all thresholds and suffixes", "why_tests_cant": "ranges over all paths, translations and trees of the host", "anchors": ["sources/unix.cpp: OSService::concat_and_norm, OSService::OSService", "sources/platform.h: OSService::norm_path", "sources/lite_format.cpp: FuseHighLevelOps::vopendir"]}
{"id": "C94", "title": "Keys that do not look random are reported", "statement": "When a file or repository is opened, a warning is logged for a key exactly if at most an eighth or at least seven eighths of its bits are ones; so a key that was never filled is always reported. (Not so where several keys are checked as one block: one unfilled key among four is not noticed.)", "quantifier": "all keys of all lengths", "why_tests_cant": "ranges over all keys; the bits are counted with a hand-written table", "anchors": ["sources/myutils.cpp: popcount, warn_if_key_not_random", "sources/files.cpp: FileBase::FileBase"]}
{"id": "C95", "title": "A child process gets its input and nothing else of the pipe, and starting it leaks nothing", "statement": "A child that is started on Unix has the pipe from its parent as standard input, holds no other end of the pipe, so that it sees the end of its input, and has the parent's other descriptors except those closed on exec. Whatever fails while starting or feeding it, the parent has the same descriptors open as before and has given back the other resources; success is reported exactly if the child was started and fed completely. (Not so: if the parent was started with standard input closed, the child has no standard input.)", "quantifier": "all tables of descriptors of the parent, all failures of the calls involved, all argument lists", "why_tests_cant": "ranges over all tables of descriptors and all points of failure", "anchors": ["sources/unix.cpp: OSService::execute_child_process_with_data"]}
{"id": "C96", "title": "The command that introduces long names or changes their suffix sees everything in the repository", "statement": "On a host that tells the types of directory entries, the walk over a repository calls back for every entry below the root, each once and with its right type, and follows no symbolic link; if a directory cannot be read it fails. So a change of the suffix that reports success has found every table, and every path leads to what it led to before; and a migration is refused if a symbolic link is anywhere in the repository and otherwise keeps the physical names of everything that is there. (Not so: on a host that does not tell the types the walk stays in the root and reports success; long names below are then no longer found after a change of the suffix, and links are overlooked.)", "quantifier": "all trees of directories, of any depth and width, all callbacks, all unreadable directories, all histories of the repository", "why_tests_cant": "ranges over all trees and over what hosts report", "anchors": ["sources/common_platform.cpp: OSService::recursive_traverse", "sources/unix.cpp: UnixDirectoryTraverser", "sources/lite_format.cpp: change_long_name_suffix", "sources/commands.cpp: MigrateLongNameCommand::execute"]}
{"id": "C97", "title": "A change of the long-name suffix that is killed loses nothing", "statement": "Wherever a change of the long-name suffix is killed or stops with an error, and in whatever order the host reports the directories, every directory and file is still there with its contents, some long-named ones under the physical name with the new suffix, and there is nothing else; every table of long names is as it was, or says of the new names what it said of the old ones. With either suffix a path leads to what it led to before or to nothing, and a path of short names to what it led to before. (Not so: that the repository then works with one of the suffixes, some files are found with neither; and that giving the command again finishes the work, it stops at the first entry that was already renamed.)", "quantifier": "all histories of the repository, all suffixes, all orders of the directories, all points at which the command is killed", "why_tests_cant": "ranges over all crash points and all repositories", "anchors": ["sources/lite_format.cpp: change_long_name_suffix", "sources/lite_long_name_lookup_table.cpp: begin, finish", "sources/commands.cpp: MigrateLongNameCommand::execute"]}
{"id": "C98", "title": "A directory gets over errors of the host", "statement": "When calls of the host fail while a full-format directory is looked up, listed, or flushed, with any errors at any points and with writes cut anywhere, the operation gives the right answer or reports one of those errors, and every other operation, before or after, answers as if nothing had gone wrong; what a failed flush has left half-written is made good by the next flush. An addition or removal that fails where a lookup of the name would fail reports the error and changes nothing. (Not so: for a flush that compacts the directory, which clears the file first, so that one error loses entries for good; nor for an addition that fails later, while a node is split, which can have added the name or have lost names that were there; nor for a removal that fails later, which can have removed the name.)", "quantifier": "all histories of directory operations, all name orders, all sequences of failing calls and cut writes during lookups, listings and flushes", "why_tests_cant": "ranges over all points at which the host can fail and over all directories", "anchors": ["sources/btree_dir.cpp: get_entry_impl, iterate_over_entries_impl, flush_cache, subflush, rebuild, add_entry_impl", "sources/files.h: Directory"]}
{"id": "C99", "title": "A table of long names that cannot be written costs only the name in the listing", "statement": "When the change of a directory's table of long names cannot be committed, the call that made it answers as if it had been, and so does every later call: the same calls succeed, with the same directories and files on the host, and every path leads to what it would lead to. No table ever says anything wrong about an entry, what it says of other entries stays, and opening the file for creation once more, with a commit that succeeds, records the name. (Not so: that a long name whose creation was reported as done is recorded, so the file may be missing from listings; and that a name whose removal was reported as done is no longer recorded.)", "quantifier": "all histories of calls, all choices of the commits that fail", "why_tests_cant": "ranges over all histories and all combinations of failing commits", "anchors": ["sources/lite_long_name_lookup_table.cpp: finish, update_mapping, remove_mapping", "sources/lite_format.cpp: process_possible_long_name, vrename"]}
{"id": "C100", "title": "Mode, owner and times are changed of what the path names, and of nothing else (lite format)", "statement": "In a mounted lite repository, any history of calls that read or change the mode, the owner or the times of files, directories and links answers as a tree in which each file has its own: what is set through one name is read through every other name of the file, nothing else changes, ids and times marked as unchanged stay, and a call that reports an error has changed nothing. With encrypted names a link on a host that cannot change a link's own mode is left alone, and so is what it leads to. (Not so with plain names on such a host: changing the mode of a link changes the file it leads to on the host, even outside the repository.)", "quantifier": "all histories of calls, all trees of the host with symbolic links, all paths that FUSE can hand over, all refusals of the host, all name translations, all hosts that can or cannot change the mode or the owner of a link", "why_tests_cant": "ranges over all trees of the host, with symbolic links, and all histories; the second attempt happens only on hosts that lack a call", "anchors": ["sources/unix.cpp: OSService::stat, chmod, chown, utimens", "sources/lite_format.cpp: vgetattr, vchmod, vchown, vutimens, encrypt_path_for_symlink"]}
{"id": "C101", "title": "A mount's number is in its PID file while it serves, and the limit of open files is never lowered", "statement": "When SECUREFS_PID_FILE names a file, a mount that can write it has its process number, in decimal, in that file while it serves, whatever was there before and whatever earlier mounts did or failed to do; when the mount ends, with an error or without, the file is gone. Not being able to write it never keeps the mount from serving, and without the variable no file is touched. If mounts that share the name overlap, and their numbers have the same length, the file is empty or has the number of one of them. The limit of open files is never lowered, never put above what the host allows, and as high as that if the host plays along; the limit reported is the one in force if the host can tell it. (Not so: that a mount which ends leaves the file of another one, or someone else's file that it could not write; that overlapping mounts with numbers of different length leave one of the two numbers; that the limit reported is in force when the host cannot tell it.)", "quantifier": "all process numbers, all earlier mounts and their failures, all interleavings of mounts that share the name, all lengths at which a write is cut, all limits", "why_tests_cant": "ranges over all interleavings of any number of processes and all failures of the host", "anchors": ["sources/internal_mount.cpp: internal_mount", "sources/unix.cpp: OSService::raise_fd_limit"]}
