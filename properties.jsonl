{"id": "C01", "title": "Variable-length integers survive storage", "statement": "Whatever non-negative integer is written to an archive with infinint::dump(), reading it back with the infinint(file) constructor gives exactly the same integer and leaves the read position exactly after its last byte, whatever bytes follow.", "quantifier": "every natural number (no size bound), every internal (possibly non-canonical) representation of it, every following byte string", "why_tests_cant": "the integer domain is unbounded and the length preamble changes shape at 2^256-like thresholds no test reaches", "anchors": ["src/libdar/real_infinint.cpp: infinint::dump, infinint::build_from_file, infinint::reduce"]}
{"id": "C02", "title": "A damaged or truncated integer field is reported, never misread as complete", "statement": "Reading an infinint from a byte string that ends before the announced length, or whose length preamble has not exactly one bit set, raises Erange; it never returns a value.", "quantifier": "every proper prefix of every encoding and every malformed preamble", "why_tests_cant": "truncation points and malformed bytes are unbounded in number", "anchors": ["src/libdar/real_infinint.cpp: infinint::build_from_file", "src/libdar/storage.cpp: storage::storage(proto_generic_file &, const infinint &)"]}
{"id": "C03", "title": "Unlimited integer arithmetic is exact", "statement": "infinint +=, -=, *=, /, %, <<=, >>=, &=, |=, ^= and the six comparisons give the mathematically exact result; subtracting a larger value raises Erange and dividing by zero raises Einfinint.", "quantifier": "every pair of naturals, whatever their byte width and leading zero bytes", "why_tests_cant": "carry/borrow chains of any length; unbounded operands", "anchors": ["src/libdar/real_infinint.cpp: operator +=, -=, *=, >>=, <<=, &=, |=, ^=, difference, euclide"]}
{"id": "C04", "title": "Conversion of big integers to machine integers loses nothing", "statement": "unstack(v) transfers value from the infinint to the machine integer: the sum is preserved, v never exceeds its maximum, the infinint becomes zero whenever the sum fits; repeated calls drain any infinint in finitely many steps.", "quantifier": "every infinint, every machine integer width and initial content", "why_tests_cant": "unbounded operands and iteration counts", "anchors": ["src/libdar/real_infinint.hpp: infinint_unstack_to", "src/libdar/limitint.hpp: limitint_unstack_to"]}
{"id": "C05", "title": "The bounded-integer build either is exact or reports overflow", "statement": "In a build using 32 or 64 bit integers, additions, subtractions, multiplications, powers, divisions, remainders and conversions from machine integers return the exact mathematical result or raise Elimitint (Erange for a negative difference, Einfinint for a division by zero); additions and conversions raise Elimitint only when the result does not fit, products and powers only when it reaches half of the range. Shifts by a machine amount are exact or raise Elimitint for amounts up to 2^w - 64; unstacking to a type not wider than the integer type transfers the value exactly; byte access is that of the unlimited build. What is written is what an unlimited build writes, and reading an integer stored by an unlimited build returns it or raises Elimitint. Outside of these conditions it fails (each is proved): left shift by amounts close to 2^32, right shift by a limited integer, unstacking to a wider type, truncated stored integers.", "quantifier": "every pair of values of the base type, every stored integer", "why_tests_cant": "2^128 operand pairs", "anchors": ["src/libdar/limitint.hpp"]}
{"id": "C06", "title": "Decimal conversion is exact", "statement": "deci(n).human() is the canonical decimal numeral of n (no leading zero), deci(s).computer() is the number denoted by digit string s, and the two are inverse; a string with a non digit is rejected.", "quantifier": "every natural number and every string", "why_tests_cant": "unbounded", "anchors": ["src/libdar/deci.cpp"]}
{"id": "C07", "title": "Checksum is independent of buffering", "statement": "The CRC of a byte stream does not depend on how the stream was cut into compute() calls, nor on buffer alignment (8/4/2/1 byte block paths), nor on whether the in-memory or infinint implementation is used; byte i of the CRC is the XOR of all data bytes at offsets congruent to i modulo the width.", "quantifier": "every data string, every partition into calls, every alignment, every width", "why_tests_cant": "exponentially many partitions", "anchors": ["src/libdar/crc.cpp: n_compute, B_compute_block, T_compute, crc_i::compute, crc_n::compute"]}
{"id": "C08", "title": "Checksum detects every burst not longer than its width", "statement": "If two data strings of the same length differ and all differing bytes lie in a window not longer than the CRC width, their CRCs differ; equal data always has equal CRCs; the CRC read back from a complete record equals the CRC written. (A truncated record is not reported: shown.)", "quantifier": "every pair of strings, every width", "why_tests_cant": "all pairs of inputs", "anchors": ["src/libdar/crc.cpp: T_compare, crc_n::dump, crc_i::dump, create_crc_from_file"]}
{"id": "C09", "title": "Elastic (random padding) buffers are self describing in both directions", "statement": "An elastic buffer of any legal size dumped with any random bytes occupies exactly that size; reading it in memory (below 4 GiB), or from a file when it is shorter than 2^31 bytes, forward from its first byte or backward from its last byte recovers the size whatever surrounds it, and leaves the file position just past the buffer in the reading direction. (From 2^31 + 6 bytes on the file is left at a wrong position: shown.)", "quantifier": "every size from 1 to 254^4-1, every outcome of the random generator, every surrounding data", "why_tests_cant": "the padding is random; sizes up to 4e9", "anchors": ["src/libdar/elastic.cpp", "src/libdar/elastic.hpp", "src/libdar/tools.hpp: tools_number_base_decomposition_in_big_endian"]}
{"id": "C10", "title": "Catalogue location terminator can always be found from the end of the archive", "statement": "After terminateur::dump() of any position at the end of a file, read_catalogue() on that file returns that position, whatever precedes it in the file.", "quantifier": "every position (any size), every preceding content", "why_tests_cant": "unbounded positions; preceding bytes could imitate the terminator", "anchors": ["src/libdar/terminateur.cpp"]}
{"id": "C11", "title": "Escape layer: data and marks are read back exactly as written, data is never mistaken for a mark", "statement": "For any sequence of data writes (cut in any way) and marks sent to an escape object, reading through an escape object gives back the same data runs separated by the same marks.", "quantifier": "every data content (including content equal to or overlapping escape sequences), every split into write calls, every mark sequence, every read request size", "why_tests_cant": "adversarial contents times all splittings", "anchors": ["src/libdar/escape.cpp: inherited_write, add_mark_at_current_position, flush_write, inherited_read, mini_read_buffer, trouve_amorce, remove_data_marks_and_stop_at_first_real_mark"]}
{"id": "C12", "title": "Searching a mark stops at the right place", "statement": "From any state a client may reach, skip_to_next_mark(t, jump) succeeds exactly when a mark of type t comes with no unjumpable mark (or, when jump is false, no other mark) before it, and then leaves the reader just after the first mark of type t; otherwise it fails, the blocking mark is still to be read and at most data standing before it. Asked for the next mark, the layer answers the mark if one is next to be read and none otherwise, except that it may raise an internal error on data starting with the escape sequence. (Both limits are shown by examples.)", "quantifier": "every written stream, every set of unjumpable marks", "why_tests_cant": "all streams", "anchors": ["src/libdar/escape.cpp: skip_to_next_mark, next_to_read_is_which_mark"]}
{"id": "C13", "title": "Scrambling is invertible at every position", "statement": "Data written through a scrambler with some non-empty password and read through a scrambler with the same password at the same position is unchanged, however writes and reads are cut and wherever reading starts.", "quantifier": "every key, data, position, split", "why_tests_cant": "all keys and splits", "anchors": ["src/libdar/scrambler.cpp"]}
{"id": "C14", "title": "Archive offset to slice mapping is a bijection consistent with slice sizes", "statement": "which_slice() maps every archive offset to the slice number and in-slice offset where that byte is stored: distinct offsets get distinct places, successive offsets are successive, every place lies in the payload area of its slice, and first/other slice sizes are respected.", "quantifier": "every layout accepted by the API and every offset", "why_tests_cant": "offsets unbounded", "anchors": ["src/libdar/slice_layout.cpp: which_slice"]}
{"id": "C15", "title": "Slice file names are unambiguous", "statement": "The slice number extracted from the name generated for slice n is n, for every base name, extension and number of digits; two different slice numbers never get the same name. A file is taken for slice n exactly when its name is the base name, one character, a decimal numeral of n with enough digits, one character and the extension (these characters need not be dots: shown, with its consequence on removals). Removing the slices above n removes exactly the files taken for such slices, and the highest slice number reported is the maximum.", "quantifier": "every base name, extension, digit padding and slice number", "why_tests_cant": "all names", "anchors": ["src/libdar/sar_tools.cpp: sar_tools_make_filename, sar_tools_extract_num, sar_tools_make_padded_number"]}
{"id": "C16", "title": "Integer ranges denote the union of what was added and are kept in canonical form", "statement": "After any sequence of += operations a range contains exactly the integers of the segments added; its displayed text lists its segments. An addition to a range in canonical form (sorted, disjoint, non adjacent segments) gives the canonical form exactly when the added segment touches at most two of its segments; in particular integers added one by one always give it.", "quantifier": "every sequence of additions", "why_tests_cant": "all histories", "anchors": ["src/libdar/range.cpp", "src/libdar/range.hpp"]}
{"id": "C17", "title": "Path normalisation and sub-directory test", "statement": "A path built from a string keeps the components in order without empty and '.' components and with '..' resolved; displaying and re-parsing is the identity except for a bare URL root (shown); p.is_subdir_of(q) holds exactly when the components of q are the first ones of p (up to letter case when case sensitivity is off), except that a relative q of a single character is recognised for itself only; adding, appending and removing components are the expected list operations.", "quantifier": "every string / every pair of paths", "why_tests_cant": "all strings", "anchors": ["src/libdar/path.cpp: path::path, path::reduce, path_split, path::is_subdir_of, path::display, path::pop, path::pop_front"]}
{"id": "C18", "title": "Masks are boolean combinations", "statement": "et_mask covers an entry iff all its members do, ou_mask iff one does, not_mask iff its operand does not, for every nesting; an empty list is rejected; simple_path_mask covers exactly the ancestors and descendants of its path; same_path_mask exactly its path. (exclude_dir_mask covers every path, whatever its directory: shown.)", "quantifier": "every tree of masks and every path", "why_tests_cant": "all mask trees", "anchors": ["src/libdar/mask.hpp", "src/libdar/mask.cpp"]}
{"id": "C19", "title": "Dates: exact order, exact arithmetic, exact storage", "statement": "datetime comparisons agree with comparing exact instants whatever units (s, us, ns) are used internally; + and - are exact; equality is equality of instants; dump/read restores the same date and unit.", "quantifier": "every pair of dates in every unit", "why_tests_cant": "unbounded values across three units", "anchors": ["src/libdar/datetime.cpp"]}
{"id": "C20", "title": "Reordering archives in a dar_manager database is a bijective move", "statement": "apply_permutation(src,dst) moves archive src to position dst, shifts the archives in between by one and leaves the others, in the list of archives and in every record of every file; no record is lost or duplicated; moving back restores the tree. (The whole operation of the database also finalises again the last archive moved, so that it is not neutral even when src = dst: shown.)", "quantifier": "every database content, every src,dst", "why_tests_cant": "all database contents", "anchors": ["src/libdar/data_tree.cpp: apply_permutation, data_tree_permutation, skip_out"]}
{"id": "C21", "title": "Database lookup returns the archives needed for the latest state at a date", "statement": "On records whose dates follow the archive order and where no 'unchanged' state directly follows a removal, get_data(date) ignores states later than date and returns exactly the chain made of the last full save and the following usable patches/inode-only change needed for the state at that date, and restoring these archives in order rebuilds the file as it was; it reports removed / not restorable / not found accordingly; with even_when_removed it is so for all chronological records, and removals are ignored. get_EA likewise; neither fails with an internal error. (The excluded case is answered wrongly: shown.)", "quantifier": "every history of states of a file over archives and dates", "why_tests_cant": "all histories", "anchors": ["src/libdar/data_tree.cpp: get_data, get_EA", "src/libdar/candidates.cpp"]}
{"id": "C22", "title": "Binary patches are flagged usable exactly when their base is available", "statement": "After any recording of a state or removal or renumbering of an archive, a delta patch of a file is marked usable iff the closest preceding saved/patched state not followed by a removal produces the checksum the patch is based on; nothing but these marks is changed by their update; right marks are left alone; the update succeeds when checksums are narrower than 10240 bytes and patches have a base. (Finalising an archive does not refresh the marks, wider checksums raise an internal error: shown.)", "quantifier": "every history", "why_tests_cant": "all histories", "anchors": ["src/libdar/data_tree.cpp: check_delta_validity"]}
{"id": "C23", "title": "Finalising or removing an archive of the database keeps other archives' records", "statement": "Removing an archive from the database, or finalising a newly added one, only changes the records of that archive, plus the propagated explicit removal to the following archive; finalising records as removed exactly the existing files the archive does not mention; an entry is dropped exactly when nothing is recorded any more; numbers follow their archives. (A file told absent only by the removed archive is present again: shown.)", "quantifier": "every database content", "why_tests_cant": "all histories", "anchors": ["src/libdar/data_tree.cpp: finalize, remove_all_from, skip_out"]}
{"id": "C24", "title": "Overwriting policies evaluate as documented", "statement": "Every criterium holds exactly when its description in the manual does, except for 'e' on hard linked inodes and R(date) on entries without date (both shown); criteria combine as boolean algebra, empty operators are rejected; a test selects by its criterium; a chain evaluates its expressions in order until both actions are defined, a defined action may be redefined but never reset to undefined; an empty chain is rejected; every policy of non empty chains decides. The confirmation of an overwriting changes nothing when accepted, and preserves data when refused for data (refusing for EA preserves the data instead: shown; an undefined result is an error when restoring: shown).", "quantifier": "every policy tree and every pair of entries", "why_tests_cant": "all policy trees", "anchors": ["src/libdar/crit_action.cpp: crit_chain::get_action", "src/libdar/criterium.cpp"]}
{"id": "C25", "title": "Sparse file layer restores exactly the original content", "statement": "Writing any content through sparse_file (any minimum hole size, any write split, then sync) stores data and holes standing for exactly that content, holes being only stored for runs of zeros at least as long as the minimum. Provided the stored data does not end by a start of the escape sequence, reading it in any sizes gives the original bytes and positions, skipping forward then reading gives what is there, and copying it whole to an empty file restores content and size, with the CRC of the content when holes are skipped. The conditions are needed: shown for the end of data, a hole at the end, CRC when zeros are written, copying after a read, skipping backward, no sync.", "quantifier": "every content, hole threshold, split", "why_tests_cant": "adversarial contents times splits", "anchors": ["src/libdar/sparse_file.cpp"]}
{"id": "C26", "title": "Read/write cache is transparent", "statement": "Any sequence of reads, writes, absolute skips, jumps to the end from within the file and position queries through a cache of any size and mode returns the same answers and leaves the same file content (after flush) as performed directly on the underlying file. Relative skips, flush in the middle, jumps to the end from beyond it and truncations are not transparent: shown by examples.", "quantifier": "every operation sequence, every buffer size", "why_tests_cant": "all operation histories", "anchors": ["src/libdar/cache.cpp"]}
{"id": "C27", "title": "Sub-range view of a file stays inside its window", "statement": "A tronc over [offset, offset+size) or [offset, end) never changes a byte outside the window: for any sequence of reads, writes and skips the client gets the answers of a file holding the bytes of the window; writing past the end writes what fits and fails; moving the window keeps the position on the same byte. Relative skips to the exact end of the window, backward relative skips before any other access and truncations are excluded: shown by examples.", "quantifier": "every window, every operation sequence", "why_tests_cant": "all histories", "anchors": ["src/libdar/tronc.cpp"]}
{"id": "C28", "title": "In-memory storage behaves as a byte array", "statement": "storage (list of memory chunks) is a growable byte array: read/write/insert/remove/truncate/seek/copy at any position give the byte-array result, whatever chunk layout the allocator produced; memory_file is that byte array for every sequence of operations while memory is available. Excluded, each shown by an example: operator [] at the first byte of a further chunk and out of range, allocation after a refused request, copy of an emptied storage, skip to the exact end, comparison operators.", "quantifier": "every operation sequence, every chunk layout", "why_tests_cant": "chunk layouts depend on allocation failures that tests cannot provoke", "anchors": ["src/libdar/storage.cpp", "src/libdar/storage.hpp", "src/libdar/memory_file.cpp"]}
{"id": "C29", "title": "Block encryption layer is position exact", "statement": "Data written through a tronconneuse in any cut produces exactly the encrypted blocks of the data, and reading at any offset, in any order of seeks and sizes, gives the original data, for any block size and any block cipher whose decryption inverts encryption with fixed block sizes, with or without trailing clear data located by the callback; symmetric ciphers qualify when the block size is a multiple of the algorithm block. Excluded, each shown by an example: unaligned block sizes, trailer reaching the next block, sync inside a block, a read-write file below, seeking 4 GiB past the end, flush_read at the end.", "quantifier": "every data, block size, seek pattern", "why_tests_cant": "all seek patterns", "anchors": ["src/libdar/tronconneuse.cpp"]}
{"id": "C30", "title": "Block compression framing", "statement": "A sequence of streams cut into compressed blocks is stored as the compressed blocks of each, and each non empty stream is read back exactly from its recorded position by reads of any sizes; a block header of unknown type or impossible size is refused; suspension is transparent. (A cut at a block boundary is not noticed, an empty stream reads as the next one, a skip drops pending data, the position inside a stream is an internal error: shown.)", "quantifier": "every data, block size, invertible block compressor", "why_tests_cant": "all streams", "anchors": ["src/libdar/block_compressor.cpp", "src/libdar/compress_block_header.cpp"]}
{"id": "C31", "title": "Slicing an archive and reading it back is transparent", "statement": "An archive (format 8 or more) created by sar in an empty directory, then written and truncated in any way and closed, leaves exactly the slices of its data: every slice starts with the header, ends with a byte telling whether others follow, all but the last have exactly the size asked for, the last is not larger, none but a single one is empty unless the archive was truncated. Opening these slices, any sequence of reads, absolute and relative skips, skips to the end and position queries gets the answers of a plain file holding the data, provided each slice has room for at least one byte of data, skips stay within the slices (in sequential mode: within the data, and no skip to the end). A missing slice or a slice of another archive is never read. These conditions are needed.", "quantifier": "every data, first and other slice sizes, sequence of writes and truncations, sequence of reads and seeks, direct and sequential mode", "why_tests_cant": "slice sizes, data sizes and seek patterns are unbounded; faults appear only at precise alignments of data and slice ends", "anchors": ["src/libdar/sar.cpp: sar::skip, skip_to_eof, skip_relative, get_position, inherited_read, inherited_write, inherited_truncate, open_readonly, open_writeonly, close_file", "src/libdar/slice_layout.cpp: which_slice", "src/libdar/slice_header.cpp"]}
{"id": "C32", "title": "Headers and typed lists survive storage", "statement": "Archive versions (format 8 on), typed lists, slice headers with their layout, labels, header flags and whole archive headers read back exactly as written, consuming exactly the bytes written; a truncated typed list, version or slice header is refused; a header accepted with only known flags carries the checksum of its bytes. (Exceptions shown: fix number before format 8, blank header, unknown flag hiding corruption, endless reading of a truncated salt, copy dropping the reference offset, slices without room accepted.)", "quantifier": "every value", "why_tests_cant": "unbounded contents", "anchors": ["src/libdar/archive_version.cpp", "src/libdar/tlv.cpp", "src/libdar/tlv_list.cpp", "src/libdar/slice_layout.cpp", "src/libdar/header_flags.cpp", "src/libdar/archive_num.cpp", "src/libdar/label.cpp"]}
{"id": "C33", "title": "Copies between files are faithful and bounded", "statement": "Copying a whole file transfers all of its remaining bytes, in order, with the right CRC; copying a bounded amount (below 2^31) transfers exactly min(requested size, what remains) bytes, in order; comparing two files reports a difference exactly when their contents differ, and the first differing byte when their sizes are equal. (From 2^31 on the behaviour is undefined, the offset is wrong for different sizes, short reads are taken for differences: shown.)", "quantifier": "every content, position and requested size", "why_tests_cant": "sizes beyond 2^31 are never exercised by unit tests", "anchors": ["src/libdar/generic_file.cpp: copy_to, diff"]}
{"id": "C34", "title": "A differential backup re-saves what changed", "statement": "A file is considered changed since the archive of reference exactly when its size differs, or a compared ownership or permission differs, or its modification date moved when dates are compared: with no allowed hour shift, when the dates rounded to the coarser of their precisions differ (so always when they differ by one second or more, or have the same precision), with an hour shift when they differ by other than a whole number of hours within the shift. An unchanged inode is never re-saved. (A sub-second change may be missed: shown.)", "quantifier": "every pair of inodes, hour shift and comparison policy", "why_tests_cant": "all dates in all precisions", "anchors": ["src/libdar/cat_inode.cpp: has_changed_since", "src/libdar/cat_file.cpp: has_changed_since", "src/libdar/tools.cpp: tools_is_equal_with_hourshift", "src/libdar/datetime.cpp: loose_equal, loose_diff"]}
{"id": "C35", "title": "A file listing selects exactly what it lists", "statement": "A mask built from a listing file (lines ended by LF or CR LF, absolute or relative to a prefix, read through buffers cut anywhere) covers an absolute path if and only if some line stands for that path or, when the mask is used for inclusion, for something below it; without case sensitivity the same holds up to letter case. Lines must be non-empty and made of plain names without '.' or '..' components, absolute lines in canonical form, and without case sensitivity the last line must be ended (each of these conditions is shown necessary).", "quantifier": "every listing, every cut of the file in buffers, every prefix, every path, both letter case modes, inclusion and exclusion", "why_tests_cant": "the line cutter is a state machine fed by arbitrary buffers, and the binary search over the modified order must be right for every list", "anchors": ["src/libdar/mask_list.cpp: mask_list::mask_list, mask_list::is_covered, modified_lexicalorder_a_lessthan_b", "src/libdar/eols.cpp: eols::eol_reached"]}
{"id": "C36", "title": "An overwriting policy means what the manual says", "statement": "Every overwriting policy of the manual made of chains of tests with constant actions, whose conjunctions do not end by a parenthesised disjunction, is accepted, blanks being ignored, and decides for every pair of entries as the manual says; any string whatsoever is accepted or refused with a range error. (I&(D|F) is read as I&D&F, nested conditionals and action 'd' of the manual are refused: shown.)", "quantifier": "every policy of the language, every string, every pair of entries", "why_tests_cant": "the language is infinite and nested", "anchors": ["src/dar_suite/crit_action_cmd_line.cpp: crit_action_create_from_string, criterium_create_from_string, crit_action_canonize_string", "src/dar_suite/line_tools.cpp: line_tools_find_first_char_out_of_parenth", "man/dar.1: option -/"]}
{"id": "C37", "title": "A catalogue read back shows the tree that was written", "statement": "Writing a catalogue (label, place, tree of files, directories, symbolic links, devices, pipes, sockets, doors, hard links, deleted and ignored entries, with EA, FSA, delta signatures, binary patches) succeeds, and reading the bytes, whatever follows them, gives the same label, the same place and a tree showing the same names, owners, permissions, dates, statuses, sizes, positions, checksums and signatures, hard links bound to one shared inode, ignored files left out; the same for each entry inlined for sequential reading, whatever entries came before. A catalogue cut anywhere is never accepted; what is accepted carries its own checksum; reading ends for every sequence of bytes. (The hard links already written must be reset before a second writing; damage may be reported as an internal error: shown.)", "quantifier": "every catalogue the program can build, every sequence of bytes following or replacing it", "why_tests_cant": "trees are unbounded and the combinations of statuses, flags and hard links are too many to try", "anchors": ["src/libdar/catalogue.cpp: catalogue::dump, catalogue::catalogue", "src/libdar/cat_entree.cpp: cat_entree::read, dump", "src/libdar/cat_inode.cpp: inherited_dump, cat_inode", "src/libdar/cat_file.cpp: inherited_dump, cat_file", "src/libdar/cat_directory.cpp, cat_mirage.cpp, cat_detruit.cpp, cat_lien.cpp, cat_device.cpp, cat_delta_signature.cpp, cat_signature.cpp, cat_ignored_dir.cpp"]}
{"id": "C38", "title": "A dar_manager database survives being saved and reopened", "statement": "Saving a database (archives with path, base name, date, cipher and pass, options, path of dar, history of each file) and opening the file gives the same archives in the same order, options, path and history, whatever cipher and compression. A database opened in partial mode shows the same list; whatever is changed there, what is then saved carries the history of files unchanged; opened partially for reading only it is never saved. An existing file is left as it is unless overwriting was allowed. The credentials of archives are never written to a database that is not ciphered. The content cut anywhere is never accepted, and opening ends for every file. (Saving a database of an earlier format makes it unreadable; a refused save has already destroyed the file; the 65534th archive is accepted but can never be saved: shown.)", "quantifier": "every database, cipher and compression, every file given to be opened", "why_tests_cant": "histories are unbounded, and the failures need an old format or 65533 archives", "anchors": ["src/libdar/i_database.cpp: build, dump, add_archive, file2storage", "src/libdar/database_header.cpp: read, write, database_header_create, database_header_open", "src/libdar/data_tree.cpp, data_dir.cpp: dump, constructors", "src/libdar/archive_num.cpp"]}
{"id": "C39", "title": "Multi-threaded encryption and compression write what the sequential ones write, in every schedule", "statement": "When an archive is written with several worker threads for encryption or compression, then for every number of workers, every sequence of writes and every interleaving of the threads: the data is cut in blocks of the configured size numbered from zero; at any time what was written below is the treated blocks in order, none missing, doubled or displaced; the session always ends (no schedule runs for ever, none stops with the work undone), also when writing below or treating a block fails; a segment is always available to the writing client and all are given back at the end; and when no exception comes out, the result is byte for byte that of the sequential encryption or compression, so it reads back. (Three exceptions are shown: a worker of the parallel encryption meeting an exception other than Erange, and a parallel compression unable to write its final mark, hang for ever; the parallel encryption reports success when the treatment of one of the last blocks failed with Erange.)", "quantifier": "every number of workers, list of writes, block size, cipher or compression algorithm, failures of treatments and writes, and every interleaving of the threads", "why_tests_cant": "tests run one schedule among unboundedly many; the hangs need a failure at a precise moment", "anchors": ["src/libdar/parallel_tronconneuse.cpp: inherited_write, inherited_sync_write, inherited_terminate, write_below, crypto_worker", "src/libdar/parallel_block_compressor.cpp: inherited_write, inherited_sync_write, stop_write_threads, zip_below_write, zip_worker"]}
{"id": "C40", "title": "Restoring a full backup then its differential backups, in order, gives the last saved state", "statement": "For every history of states of a directory tree, the first saved by a full backup and each next by a differential backup against the previous one, restoring the archives in order into an empty directory, with the default overwriting policy, ends without error and leaves, at every path the filters of the backup select, an inode of the type and data it had at the last backup, and nothing at any other path; owner, permissions, modification date and EA are those of the last backup too, if no path went from a directory to another type or from an inode with EA to one of another type without EA. The hypotheses on a history: a change of an inode is visible in owner, permissions, date or size (C34), and a change of EA moves ctime. Whatever the archive, policy, filters and filesystem, a restoration ends; under a preserving policy every inode in place keeps its type, data and EA, and if not a directory is left exactly as it was, even when the restoration aborts. What is excluded by the filters of a restoration is left exactly as it was, when no policy removes, the archive has only directories on the way to it and no directory recorded as unchanged. (Shown besides: without the last condition, an excluded file may be overwritten; a directory replaced by a file gets neither owner, permissions nor date; EA of the replaced inode leak into one of another type; the removing policy reports an error for each removal and spoils the date of the directory; the children of an unsaved directory are restored in the parent directory when a file is in its place, and the restoration then stops; the preserving policy changes the attributes of an existing directory.)", "quantifier": "every directory tree, history length, filter, policy, archive and filesystem", "why_tests_cant": "depends on histories of any length of trees of any shape, and on the interaction of each entry with whatever is in place", "anchors": ["src/libdar/filtre.cpp: filtre_sauvegarde, filtre_restore", "src/libdar/catalogue.cpp: compare, update_destroyed_with, read, skip_read_to_parent_dir", "src/libdar/filesystem_restore.cpp: write, action_over_remove, action_over_data, action_over_ea", "src/libdar/filesystem_tools.cpp: make_owner_perm, make_date, supprime", "src/libdar/filesystem_hard_link_write.cpp: make_file"]}
{"id": "C41", "title": "Hard links survive backup and restoration", "statement": "For every set of files with any links among them, a full backup restored over any filesystem whose inodes at those names have no EA puts at each selected name the inode that was saved there, makes two names share an inode exactly when they did, and leaves every other name and its inode as they were. For every history of such sets saved by a full backup then differential ones, restoring the archives in order from scratch ends without error and gives, at the selected names exactly, the inodes and links of the last backup, provided that changes are visible (C34, C40), that two names present in two successive backups are linked in both or in none, that a change of type does not drop EA, and that the EA of an inode with several names do not change together with its content or with a new name for it. (Shown besides, that the conditions are needed: after 'ln -f a b' of two files unchanged since the previous backup, the restored b is still the former file, with the former content; when content and EA of an inode with two names both change, the former EA are restored; EA in place under any name of the inode leak into it.)", "quantifier": "every set of names, inodes and links, filter, history length, and filesystem restored over", "why_tests_cant": "depends on which names share inodes, in what order they are met, which are selected, and on histories of any length", "anchors": ["src/libdar/filesystem_hard_link_read.cpp: make_read_entree", "src/libdar/filtre.cpp: filtre_sauvegarde", "src/libdar/cat_mirage.cpp: inherited_dump", "src/libdar/catalogue.cpp: compare, update_destroyed_with", "src/libdar/filesystem_restore.cpp: write, action_over_data, action_over_ea", "src/libdar/filesystem_hard_link_write.cpp: make_file, raw_set_ea, raw_clear_ea_set, write_hard_linked_target_if_not_set"]}
{"id": "C42", "title": "Merging archives does what the policy says, and decremental backups lead back in time", "statement": "Merging two archives under the policy 'Pp' ('Oo') gives exactly the selected entries of the first (second), as they are there, and those of the other at paths where the first (second) has nothing that stands in the way; an archive merged with itself under 'Ss' gives its isolated catalogue. For every policy that answers, two inodes found at the same path give an inode whose data, owner, permissions and dates are those the manual promises for the data action, and whose EA are those promised for the EA action. For every history of states, each replaced by the decremental backup made from its full backup and the next one: restoring the newest full backup then k decremental backups gives the types and data of the k-th state before the newest, and its owners, permissions, dates and EA if no inode with EA had none before and no directory was something else. A full backup merged with the differential backups that follow, in order, under a policy given, is one archive whose restoration alone gives the files of the last backup. (Shown besides, that the conditions are needed: decremental backups do not remove EA, 'Or' leaves the EA of the inode to add when the one in place has none, and dereferences a null pointer for a removed file.)", "quantifier": "every pair of archives, filter, policy, and history of any length", "why_tests_cant": "depends on all pairs of entries, trees of any depth, policies of any size and histories of any length", "anchors": ["src/libdar/filtre.cpp: filtre_merge, filtre_merge_step0, filtre_merge_step1, do_EFSA_transfert, merge_ea", "src/libdar/catalogue.cpp: add, re_add_in, re_add_in_replace, read_if_present", "man/dar.1: -/ option, -ad"]}
{"id": "C43", "title": "An interrupted archive gives back, read sequentially, everything that was saved before the interruption", "statement": "For every backup - directories, files saved in one or several copies because they changed meanwhile, files that could not be opened or read, hard links, EA, delta signatures - and every filter: reading the archive sequentially reports each entry selected, at its path, with its metadata and with what is restored of it (the last copy of its data, whether it is dirty, its EA, or the link to the inode met before), entries of a directory left out being left out, and ends with the removals recorded in the final catalogue. When the file stops anywhere, at any byte, all entries whose record is complete are reported exactly as they would be from the complete archive, in the same order; at most one more is reported, the one being saved at that time, as an error or with one of the copies made of it; and the end is always reported as an error, or in lax mode as the lack of a catalogue: a part of an archive never passes for the whole. (Shown besides, by counter-examples: a file stopped before its 'dirty' or 'changed' mark is restored as if it were good; stopped within an EA, reading never ends; stopped right after a mark of entry, lax mode does not help; stopped in a filtered out directory, an internal error is raised; a hard linked inode that could not be opened makes the rest unreadable; the second copy of a file of which size went through 1 GiB, or of which the first copy is damaged, is not used; a dirty file with EA cannot be restored.) Whatever the damage to the archive, data or EA that are reported as restored are found in it followed by the checksum recorded for them, and that checksum is theirs.", "quantifier": "every sequence of entries and directory ends, set of hard links, filter, number of copies, catalogue, and every point where the file stops", "why_tests_cant": "there are as many interruption points as bytes in every possible archive", "anchors": ["src/libdar/escape_catalogue.cpp: pre_add, pre_add_crc, pre_add_dirty, pre_add_ea, read, skip_read_to_parent_dir", "src/libdar/filtre.cpp: filtre_sauvegarde, save_inode, save_ea, filtre_restore", "src/libdar/cat_file.cpp: get_crc", "src/libdar/cat_inode.cpp: get_ea, ea_get_crc", "src/libdar/ea.cpp", "src/libdar/filesystem_restore.cpp: write"]}
{"id": "C44", "title": "Comparing an archive with a filesystem reports exactly what differs", "statement": "For every archive, filesystem, filter and set of options: the comparison (dar -d) ends and reports each entry that is selected, in the order of the archive, against what has the same path in the filesystem, going down in directories that are so on both sides; an entry is reported as different if, and only if, it differs in what the options ask to look at (type, owner, permission, date within the hour shift, target, device numbers, data, EA under the mask, FSA in scope); a file of a full archive reported as good has the very data of the archive, and the offset given for a difference is that of the first byte that differs, whatever the size of the buffer; the count of errors is zero exactly when everything agrees; comparing a full backup with the filesystem it was made of, unchanged, reports no difference. (Shown besides, by counter-examples: the hour shift and the request to ignore dates are not followed for plain files; an FSA missing after all the others makes the list be read past its end; a directory the system refuses to tell about derails the rest of the comparison; with an isolated catalogue different data can pass; of files of different lengths the offset may come after the first difference.)", "quantifier": "every tree of inodes, hard links and removed entries, every filesystem and answer of the system, every mask, option and buffer size", "why_tests_cant": "archives, filesystems, options and filters are unbounded and combine", "anchors": ["src/libdar/filtre.cpp: filtre_difference", "src/libdar/cat_inode.cpp: compare", "src/libdar/cat_file.cpp: sub_compare_internal", "src/libdar/generic_file.cpp: diff", "src/libdar/ea.cpp: diff", "src/libdar/filesystem_specific_attribute.cpp: is_included_in", "src/libdar/catalogue.cpp: read, skip_read_to_parent_dir", "src/libdar/defile.cpp: enfile", "src/libdar/filesystem_diff.cpp"]}
{"id": "C45", "title": "Parallel decompression gives what sequential reading gives, whatever the schedule", "statement": "For every number of worker threads, compressed file, sequence of reads and skips, and schedule of the threads: the data given by the reads since the last skip are those of the blocks found from there, in order, a read giving less than asked at the end mark only; an exception is thrown only if what follows is damaged; unless a block is damaged (headers may be, blocks may be cut) no schedule deadlocks nor goes on for ever, and the pool of segments is never exhausted; when nothing is damaged every call is answered exactly as the sequential block decompression would answer, in particular what any number of threads compressed is given back. (Shown besides, by counter-examples: after an error the worker concerned silently drops sound blocks; a file without end mark makes the reader loop for ever; a cut block is reported as an internal error; get_position() depends on the schedule; two damaged blocks read ahead when the client skips make the program hang.)", "quantifier": "every number of threads, file, sequence of calls and interleaving of the threads", "why_tests_cant": "interleavings, files and sequences of calls are unbounded", "anchors": ["src/libdar/parallel_block_compressor.cpp: inherited_read, skip, get_position, run_read_threads, stop_read_threads, purge_ratelier_up_to_non_data, zip_below_read, zip_worker", "src/libdar/compress_block_header.cpp: set_from", "src/libdar/block_compressor.cpp"]}
{"id": "C46", "title": "A cancellation request is thrown once, by the thread it is sent to, whatever the schedule", "statement": "For every number of threads and objects, every association between threads and every interleaving: a check point of a thread passes exactly when a request sent to it (or to a thread it is associated to) is under way, was not served yet, and is immediate or not blocked; it then throws, and, undisturbed, throws that request's values; a request sent before the thread has any object waits for the first one; nothing but another request, a clear or the end of all objects of the thread makes it lost; after a clear no check passes before another request; there are never more exceptions than requests; cancel_status and self_is_under_cancellation tell whether a request is under way. (Shown besides, by counter-examples: a request is lost when the thread has no object for a while; a request cleared during a check is thrown with void values; clear_pending_request answers for the last associated thread; propagation is not transitive, contrary to the documentation; two overlapping requests may throw the second one twice.)", "quantifier": "every history of calls by any number of threads, at the granularity of critical sections", "why_tests_cant": "interleavings and histories are unbounded", "anchors": ["src/libdar/thread_cancellation.cpp: all", "src/libdar/get_version.cpp: cancel_thread, cancel_status, cancel_clear"]}
{"id": "C47", "title": "Reading an archive through dar_slave gives what reading it directly gives", "statement": "For every archive and every sequence of calls of the client (reads of any size, absolute and relative moves, going to the end, position, status changes, slice information), the exchange of requests and answers through the pipes gives the client, call by call, what the bytes of the archive give without any exchange; every request is understood by the slave and every answer by the master, whatever follows in the pipe and however many requests there were (the counter is one byte); the status the slave has is the last one given; the slave stops when the client closes the archive, not before; the slice header the client gets is the one of the slave for archives of format 8 and more. (Shown besides: an answer cut by the death of the slave makes the master loop for ever; for older archives whose first slice has another size, the slice header received cannot be read.)", "quantifier": "every archive content, every sequence of calls, every number of requests", "why_tests_cant": "sequences of requests and archive sizes (reads are cut at 65535 bytes) are unbounded", "anchors": ["src/libdar/zapette.cpp: all", "src/libdar/slave_zapette.cpp: action", "src/libdar/zapette_protocol.cpp: all"]}
{"id": "C48", "title": "Restoring from a database of archives gives the files as they were", "statement": "For every database (any tree, any number of archives, full, differential and delta records) whose archives tell the truth: dar -x over the database gives every selected entry its last data and (when they are told) its last extended attributes, gives every selected file its data at the date asked, and leaves alone what is not selected, what the database does not know and the files that do not exist (at that date); dar_manager -r without date gives every entry at or below the names asked its last data, gives a file asked by name its data at the date asked or leaves it alone, asks dar for nothing unrelated to the names, and its exploration ends. (Shown besides: dar_manager -r of a directory gives files newer than the date asked and resurrects files removed since; it never asks for the archive that holds only the last extended attributes.)", "quantifier": "every tree, record history, date, filter and list of names", "why_tests_cant": "databases, histories and selections are unbounded", "anchors": ["src/libdar/i_database.cpp: i_database::restore (both)", "src/libdar/restore_tree.cpp: all", "src/libdar/mask_database.cpp: is_covered", "src/libdar/mask.cpp: simple_path_mask::is_covered"]}
{"id": "C49", "title": "A backup takes all that it has to take and nothing else, and tells removals right", "statement": "For every filesystem tree, every set of options (path, name, filesystem and EA filters, nodump, cache directory tagging, empty directories, reference date) and every archive of reference, the backup ends; the archive has, once each, every readable entry the filters want whose saving did not fail, compared with the entry of the same path and type of the reference, the directories left out as empty ones when asked so, and a removal mark for every entry of the reference that the backup did not find in a directory it saved, and nothing else. An entry it has seen is never recorded as removed, be it left out or in error. The counts of errors and of ignored entries are those of the paths concerned when the last entry of the root is readable. (Shown besides: files hidden by nodump, in a cache directory or in a directory that cannot be opened are recorded as removed in a differential backup; the errors met by the last call of read are not counted.)", "quantifier": "every tree, option, filter, failure and archive of reference", "why_tests_cant": "trees, references, filters and failures are unbounded", "anchors": ["src/libdar/filesystem_backup.cpp: read, skip_read_to_parent_dir", "src/libdar/etage.cpp: etage, cache_directory_tagging_check", "src/libdar/filtre.cpp: filtre_sauvegarde", "src/libdar/catalogue.cpp: add, compare, update_destroyed_with", "src/libdar/defile.cpp: enfile", "src/libdar/filesystem_ids.cpp: is_covered", "src/libdar/cat_directory.cpp: add_children, inherited_dump"]}
{"id": "C50", "title": "Backup hooks are run around the files they stand for", "statement": "For every backup in which no directory left out by the filters nor one whose saving fails late lies under a path selected by the hooks: every file to save is read once; every entry to save selected by the hooks and with no selected directory to save above it has its start command run once before, and its end command once after, all its files are read, with no other file read and no other command run in between; no other command is run. (Shown besides: without this hypothesis the end command is never run and no later hook is; in a differential backup the files of a selected directory whose own inode is unchanged are saved with no command run.)", "quantifier": "every tree, option, filter, failure, hook mask and archive of reference", "why_tests_cant": "trees, masks and references are unbounded", "anchors": ["src/libdar/semaphore.cpp: raise, lower", "src/libdar/filtre.cpp: filtre_sauvegarde, save_inode"]}
{"id": "C51", "title": "An enciphered archive read with several threads behaves as its clear data, and every call returns", "statement": "For every number of worker threads, block size, content and every sequence of read, skip, skip_relative, skip_to_eof, sync (flush) and read_ahead calls ended by the termination of the object, and for every pace of the reading thread: each read gives the bytes of the clear data at the current position, each position reported is right, no call fails, no call blocks for ever, and at the end the threads are gone; when the reading thread goes on moving, all calls return after a bounded number of accesses. Restricted to undamaged data, to skips that do not land past the end inside the last block, and to skip_to_eof and read_ahead not called just after a read that met the end. (Shown besides why: an internal error, a wrong position, unreadable data in the first three cases; and with a damaged block, a skip over it followed by a read silently returns the bytes of another position.)", "quantifier": "every content, block size, number of workers, script of calls and schedule", "why_tests_cant": "schedules and scripts are unbounded; the orders and acknowledgements cross the blocks under way in unboundedly many ways", "anchors": ["src/libdar/parallel_tronconneuse.cpp: skip, skip_to_eof, skip_relative, inherited_read, inherited_read_ahead, inherited_terminate, send_read_order, go_read, read_refill, purge_ratelier_from_next_order, purge_unack_stop_order, find_offset_in_lus_data, stop_threads, join_threads, read_below::inherited_run, read_below::work", "src/libdar/parallel_tronconneuse.hpp: tronco_flags, read_below::set_flag, set_pos"]}
{"id": "C52", "title": "A slice on disk holds what was written, its hash file matches it, and existing files are not overwritten without leave", "statement": "For every history of write requests, closings and answers of the system (short writes, interrupted calls, full disk, I/O errors, thread cancellation) and of the user: the slice holds the requests answered as done, in order, plus a prefix of each failed one, and nothing more once the user refused to make room; the hash file then holds the line digest-two spaces-name of exactly what the slice holds (md5sum -c accepts it), or its beginning if writing it failed, and stays empty after a refusal. A slice or hash file already there is left untouched unless overwriting is allowed and the user, if to be warned, agreed; a hashed slice always starts empty; a slice of the archive under construction is reopened with its contents. (Shown besides: after an I/O error or a cancellation the hash file is still written, for bytes the slice does not hold; after a refusal later writes are answered as done although dropped; a refused opening may leave an empty slice; a creation failure can be reported as an internal bug.)", "quantifier": "every history of requests, every sequence of answers of write(2), open(2), the cancellation check and the user, every digest function", "why_tests_cant": "the answers of the system and of the user are unbounded sequences, short writes may cut the data anywhere", "anchors": ["src/libdar/fichier_local.cpp: fichier_global_inherited_write, open", "src/libdar/fichier_global.cpp: inherited_write", "src/libdar/hash_fichier.cpp: fichier_global_inherited_write, inherited_terminate, write_hash_in_hexa, skip, ~hash_fichier", "src/libdar/tools.cpp: tools_unsigned_char_to_hexa, tools_string_to_hexa", "src/libdar/entrepot.cpp: open", "src/libdar/sar.cpp: open_writeonly"]}
{"id": "C53", "title": "Lists of filesystem specific attributes behave as maps, are stored faithfully and restored flag by flag", "statement": "For every attribute list libdar can hold (read from a filesystem, extended, merged, read back): it holds at most one attribute of each kind (family and nature); adding replaces the attribute of the same kind only; merging gives all of the second list and of the first what the second lacks; looking for a kind finds it exactly when present; storing and reading back gives the same list and stops at the same byte; whatever bytes are read, only the announced exceptions come out and the library never reports a bug in itself for the immutable flag. Comparing an archived list with that of a file having some attribute answers yes exactly when each archived attribute in the scope is there with the same value. Restoring: each recorded Linux flag gets its recorded value (the immutable flag in the last pass only), no other flag changes, the answer tells whether something changed, and under any failure or lack of capability each flag holds its old or its recorded value. (Shown besides: when an archived attribute comes after all those of the file the comparison reads beyond the end of the vector; a file without any attribute is said to differ even for attributes out of the scope; the announced storage size is short of one byte for each date in whole seconds.)", "quantifier": "every list, every scope, every byte string read, every initial flag word and every outcome of the ioctl calls and capability checks", "why_tests_cant": "attribute sets, flag words and failing calls combine without bound", "anchors": ["src/libdar/filesystem_specific_attribute.cpp: binary_search_in_sorted_list, add, priv_add, operator +, find, is_included_in, read, write, storage_size, has_linux_immutable_set, set_extX_FSA_to", "src/libdar/filesystem_specific_attribute.hpp: fsa_bool, fsa_time", "src/libdar/datetime.cpp: get_storage_size"]}
{"id": "C54", "title": "dar_split carries a stream over several media without losing, repeating or moving a byte", "statement": "For every input, block size and sequence of answers of the system (short reads and writes, interrupted calls, lack of space, other errors): at each moment of split_output the contents of the media put end to end, then the buffer, then what remains to be read is the input, and all of the input is on the media when the program ends at the end of its input; with media of a given capacity each one given back to the user is full to its last byte; at each moment of split_input what was sent followed by the buffer is the beginning of the media put end to end and exactly the announced number of media was sent when it ends; what split_output wrote, split_input gives back. The input buffer is not overrun with a block size up to 102400. (Shown besides: with a larger block size (-b) split_input writes beyond its buffer, which is always allocated with 102400 bytes.)", "quantifier": "every input, block size, number of media, and every sequence of answers of read(2) and write(2), stopped at any moment", "why_tests_cant": "the answers of the system are unbounded sequences and a medium may end at any byte of a buffer", "anchors": ["src/dar_suite/dar_split.c: normal_read_to_multiple_write, multi_read_to_normal_write, open_write, open_read"]}
{"id": "C55", "title": "dar_cp saves all that can be read outside damaged areas and reports whether something is missing", "statement": "For every source, every set of unreadable bytes and every system that either gives the bytes preceding an error or loses whole sectors of even size: dar_cp to a new file comes to its end, each byte of the source is at its place in the copy except bytes lying between two unreadable ones, which are zero or beyond the end of the copy; the exit code says that nothing is missing exactly when every byte was readable, and then the copy is the source. All bytes before the first and after the last unreadable byte are saved, so nothing readable is lost around a single damaged area. A source without unreadable byte is copied exactly whatever short writes happen, or the write error is reported. (Shown besides: readable bytes between two damaged areas may be lost, the search by halves not finding the next readable byte as the manual has it; when reads fail as a whole with a damage at an odd offset the copy is abandoned; a short write while saving the bytes before an error loses bytes uncounted; with -f former contents of the destination stay in place of the missing bytes and after the end.)", "quantifier": "every source, set of unreadable offsets, behaviour of read(2) allowed by the two kinds of systems, and sequence of short writes", "why_tests_cant": "damage patterns and partial reads combine without bound; the search by doubling then halving meets any of them", "anchors": ["src/dar_suite/dar_cp.cpp: copy_max, normal_copy, xfer_before_error, skip_to_next_readable, open_files"]}
{"id": "C56", "title": "A binary delta read or applied through librsync is the whole delta or the whole file, whatever the read sizes", "statement": "For every job of librsync that respects its contract (it takes no more input and gives no more output than allowed, gets on when given input and room, gives at each point the beginning of the result, and says it is done when the result is complete), every file and every sequence of read sizes: reading in delta mode comes to its end and gives, concatenated, exactly the first bytes of the delta of the whole file, and when more is asked than there is, the data CRC was fed with the whole file; reading in patch mode gives exactly the first bytes of the patched file, without error when the delta ends where librsync says it is done, and nothing after; reading in signature mode gives the file unchanged and stores, at the end, the signature of exactly what was read. So a file saved as a delta and restored is the original one when librsync's patch of librsync's delta is.", "quantifier": "every machine meeting the contract, file contents, sequence of non-null read sizes", "why_tests_cant": "how the buffer is filled, how much librsync takes and gives at each call and the sizes of reads combine without bound", "anchors": ["src/libdar/generic_rsync.cpp: generic_rsync::inherited_read, inherited_terminate, step_forward, send_eof"]}
{"id": "C57", "title": "The selection options take what the manual says, in the normal and in the ordered method", "statement": "For every command line made of the selection options and their modifiers, every root and every path: each mask is recorded with the case sensitivity and sort of expression in force where it stands. In the normal method an entry is walked to exactly when no -P or -] excludes it nor any directory it is in and, if there is a -g or -[, one of them takes it; a plain file is then taken exactly when no -X matches its name and, if there is a -I, one of them does. In the ordered method the last option that matches decides, an entry none matches being taken when the first option excludes; -P then excludes all that is below what it matches, and no directory hides an entry the options take (when no -] is used). The same rule holds for the names of Extended Attributes, for what is compressed, for what the backup hook is called on and for what gets a signature. A path without wildcard given to -P alone excludes exactly that path and what is below it; given to -g alone it takes exactly what is below it and what leads to it. A regular expression given to -P alone excludes exactly what has in its path relative to the root a matching text that ends the path or is followed by a slash, at its beginning when the expression starts with ^. Contrary to the manual, in the ordered method -] excludes only the entries listed and not what is below them.", "quantifier": "every list of options, root, path, name, and every answer of fnmatch, regexec and listing files respecting the stated laws", "why_tests_cant": "the combinations of options, orders and path depths are unbounded, and pruning makes the answer for an entry depend on all the directories it is in", "anchors": ["src/dar_suite/command_line.cpp: get_args_recursive, get_args, make_include_exclude_name, make_exclude_path_ordered, make_exclude_path_unordered, make_include_path, make_ordered_mask, make_unordered_mask", "src/libdar/tools.cpp: tools_build_regex_for_exclude_mask", "src/libdar/mask.hpp", "src/libdar/filtre.cpp: filtre_sauvegarde, filtre_restore"]}
{"id": "C58", "title": "Streamed compression is transparent", "statement": "For gzip, bzip2 and xz in streamed mode, any sequence of writes, flushes, suspensions and resumptions stores, in order, a compressed form of what was written between two flushes, and as is what was written while suspended; the position is then the size of the file. Data written after a flush and before another is what is read after having sought the place get_position() gave, through reads of any sizes, whatever comes before and after in the file and whatever was read before; the reads then give nothing more. If the file ends too early the reads end without error, having given a prefix of the data. Two limits: suspending the compression while reading discards what was read ahead (the comment in the code says the contrary), so a caller must seek before reading raw data; a flush with no data written stores nothing.", "quantifier": "every compression library respecting the stated contract, every sequence of writes, flushes, suspensions, seeks and reads of any sizes, every file around", "why_tests_cant": "the way the library cuts its input and output, the sizes of the reads and the place of the 100 kB buffer boundaries are unbounded", "anchors": ["src/libdar/compressor.cpp: inherited_read, inherited_write, inherited_sync_write, inherited_flush_read, suspend_compression, resume_compression", "src/libdar/compressor.hpp: skip, get_position", "src/libdar/wrapperlib.hpp"]}
{"id": "C59", "title": "Streamed zstd compression is transparent and a truncated stream is detected", "statement": "For zstd in streamed mode, any sequence of writes, flushes, suspensions and resumptions stores, in order, one frame holding what was written between two flushes (even if it was empty), and as is what was written while suspended. Data written after a flush and before another is what is read after having sought the place the flush left, through reads of any sizes, whatever comes before and after and whatever was read before; the reads then give nothing more. If the file ends before the end of the frame, either every read gives all that was asked of the true data or one fails: none is silently short, and asking for more than the data always fails. Two limits: suspending while reading discards what was read ahead, so a caller must seek before reading raw data; get_position() does not fail while data is waiting, it gives a place inside the frame.", "quantifier": "every libzstd respecting the stated contract, every sequence of writes, flushes, suspensions, seeks and reads of any sizes, every file around, every truncation", "why_tests_cant": "the way the library cuts its input and output, the sizes of the reads, its advised sizes and the place of the buffer boundaries are unbounded", "anchors": ["src/libdar/compressor_zstd.cpp: inherited_read, inherited_write, compr_flush_write, compr_flush_read, clean_read, suspend_compression, resume_compression", "src/libdar/compressor_zstd.hpp: skip, get_position"]}
{"id": "C60", "title": "A configuration file is read as the manual says", "statement": "The arguments taken from a configuration file (-B, ~/.darrc, a batch of dar_manager) are: the file without its lines of comments (and the empty lines around them), then the lines before the first condition and those after each condition (a line made of a word and a colon) naming the operation, \"all\" or a user target, then the words of these lines, where spaces, tabs and ends of line separate, single, double and back quotes group, possibly nested, and a backslash protects a character. If a quote stays open the file is refused with a range error; there is no other failure. Words written in double quotes with the special characters protected are read back as they were, whatever they are, and so is a file of such words in sections, but for words with an end of line. The texts with hidden parts behave as plain files of what they show, for byte after byte reads, skips and positions. Not so: a tab inside quotes is lost; a protected character between words is put before the next word; quotes inside a word are kept; comments and conditions are looked for inside quotes; a last condition without an end of line is an argument; a read of more than a byte over two parts moves too far.", "quantifier": "every file, every operation, every list of user targets, every sequence of skips, one byte reads and positions", "why_tests_cant": "the texts, their lines, the nesting of quotes and the places of comments and conditions are unbounded", "anchors": ["src/dar_suite/hide_file.cpp: inherited_read, skip, get_position", "src/dar_suite/no_comment.cpp: fill_morceau", "src/dar_suite/config_file.cpp: fill_morceau, find_next_target, is_a_target", "src/dar_suite/line_tools.hpp: line_tools_split_in_words", "src/dar_suite/command_line.cpp: make_args_from_file"]}
{"id": "C61", "title": "Sizes, permissions, command templates and formulas given by a user mean what the manual says", "statement": "A size is taken if and only if it is a decimal number alone or followed by one suffix among k, K, M, G, T, P, E, Z, Y, R, Q, that multiplies it by the matching power of 1000 or 1024, exactly (the empty text is zero). An octal permission is taken if and only if it is a zero and octal digits, with spaces around; what is displayed for a permission is read back as that permission. In a command template each %p %b %n %N %e %c %u and %% is replaced by its value, once, and all the rest is kept; any other %x or a last % is refused, and a text with its % doubled stays as it is. Any text put in an XML listing is read back as it was. The block length of a delta signature is the formula asked for (roots and logarithm up to a rounding by a known factor) kept between the two bounds, and never decreases when the file grows. A list with a separator is cut at each separator. Not so: an octal number too large for an integer is cut rather than refused; a last empty field is not seen; control characters are put as they are in XML.", "quantifier": "every text, base, value, file size and formula", "why_tests_cant": "texts and numbers are unbounded", "anchors": ["src/libdar/tools.cpp: tools_get_extended_size, tools_octal2int, tools_int2octal, tools_substitute, tools_hook_substitute, tools_output2xml, tools_upper_rounded_log2, tools_rounded_square_root, tools_rounded_cube_root", "src/libdar/delta_sig_block_size.cpp: check, calculate", "src/dar_suite/line_tools.hpp: line_tools_split"]}
{"id": "C62", "title": "Lists of extended attributes behave as maps and are stored faithfully", "statement": "However it was built (additions, sums, comparisons, clearings, copies, reading from an archive), a list of extended attributes is a map from names to values: adding sets one name and leaves the others, a + b has all of b and what a has besides, consulting changes nothing. Read from the beginning, the list gives each attribute once, in the order of the names; size and space used are those of what is given. Two lists are equal if and only if they have the same names and values, whatever the order they were made in, and then they are stored as the same bytes. diff reports a difference if and only if an attribute of the first list, covered by the filter, is missing from the second or has another value there. What is stored is read back identical, any number of attributes and any values, names without null byte, whatever follows in the archive; cut anywhere it never gives a list; the old format gives the names with their domain as prefix, the last of the same name winning. Not so: diff does not see what only the second list has; a cut inside a value makes the reader wait without end; a new list is not read before reset_read is called.", "quantifier": "every sequence of operations, names, values, filter, stored bytes and place of truncation", "why_tests_cant": "histories, numbers and lengths are unbounded", "anchors": ["src/libdar/ea.cpp: ea_attributs, dump, read, diff, find, space_used, operator +, read_pair_string, write_pair_key", "src/libdar/ea.hpp: ea_attributs", "src/libdar/tools.cpp: tools_read_string, tools_read_string_size"]}
{"id": "C63", "title": "The argument of -z means what the manual says", "statement": "An integer given by a user is taken if and only if it is written with decimal digits, possibly spaces around and a sign, and fits the integers of the system; any other text is refused. The argument of -z is a level, the name of an algorithm, or two or three fields separated by colons - algorithm, level, block size - a field left empty having the default value (gzip, 9); in the forms with colons the level is at least 1 and at most 9 unless the algorithm is zstd; a block size that does not fit the system is refused; anything else is refused with an error shown to the user, and no argument has two meanings. Not so: a level given alone is not checked, even negative (-z -3 is a level near 2^64); no upper level is checked for zstd; a last field left empty is not seen (gzip: is refused, gzip:: accepted).", "quantifier": "every text, width of integers and base of suffixes", "why_tests_cant": "texts are unbounded", "anchors": ["src/libdar/tools.cpp: tools_str2int, tools_my_atoi", "src/libdar/compression.cpp: string2compression", "src/dar_suite/line_tools.cpp: line_tools_split_compression_algo"]}
