# Formal model of Edrusb/DAR (libdar) in Coq 8.16

## Organisation

* `rocq/theories/Base.v` – bytes (`N` below 256), the exception/result type `res`, sequential readers.
* `XxxModel.v` – executable model of one component. Every definition cites file and lines in /repo and says what it
  leaves out.
* `XxxProof.v` – lemmas about that model. `XxxSpec.v` – specifications shared by several files (`ClientSpec.v`: an
  arbitrary client of a file doing reads, writes, skips; `EscapeSpec.v`: data and marks).
* `PropXxx.v` – the property theorems `Theorem Cnn_...`, their small specifications (what the English means, written
  without the helpers of the model), an `Example`/`instance` showing that the hypotheses are met by a concrete
  non-trivial case, and `Print Assumptions`.

C++ exceptions are constructors of `exn`; undefined behaviour (out of bounds access, oversized shift, uninitialised
memory, ...) is the distinct outcome `UB`; `Ebug` is libdar's SRC_BUG (internal error); running out of recursion fuel is
`Fuel`, excluded by the theorems (the fuel given is always computed from the inputs).

## How a property that is false of the code is treated

The model follows the code, bugs included. Where the property one would wish is false of the code, a theorem named
`Cnn_..._refuted` exhibits the counterexample (a bug or a documented limit), and the statement of the property in
`properties.jsonl` names the excluded case, so that what is claimed `proved` is exactly what the theorems say. A `partial`
status and the suffix `_partial` are kept for what is true (or not known to be false) but not proved.

## Property by property

| id | what is modelled | how it is proved | left out |
|----|------------------|------------------|----------|
| C01 C02 | infinint dump / build_from_file, byte by byte (real_infinint.cpp) | preamble arithmetic; prefix analysis | storage flattened to its bytes (C28) |
| C03 | each infinint operator as the byte loop of the source | loop invariants against `N` | – |
| C04 | unstack and the drain idiom | arithmetic, induction | – |
| C05 | limitint<32/64> with explicit wrap-around | case analysis; refutations | signed `get_storage_size`, display |
| C06 | nibble-packed decimals (deci.cpp) | invariants on digit lists | – |
| C07 C08 | crc_n/crc_i, block paths of 8/4/2/1 bytes, dump/read | column-XOR specification | address of buffers is an argument |
| C09 | elastic dump (random bytes as an argument), both readers | list search lemmas | old-format readers |
| C10 | terminateur dump and backward reader | arithmetic | formats <= 6 |
| C11 C12 | escape: write state machine, read buffers, search of marks | refinement to a list of items (data/mark) | read-write mode |
| C13 | scrambler | induction on operations | – |
| C14 | slice_layout::which_slice, (de)serialisation | Euclidean division | – |
| C15 | sar_tools names, removal, highest number | list lemmas, C06 | the entrepot is a list of names |
| C16 | range += and display | induction on segments | – |
| C17 | path construction, display, reduce, sub-directories, append, pop | list lemmas | locale (characters = bytes) |
| C18 | mask trees; fnmatch/regexec as arbitrary functions | structural induction | – |
| C19 | datetime order, arithmetic, storage | arithmetic | negative time_t |
| C20-C23 | data_tree, data_dir, candidates, database operations of dar_manager | induction on maps and trees | user interaction |
| C24 | criteria, actions, confirmation | structural induction | the entry's fields are given |
| C25 | sparse_file over escape: write, read, skip, copy | refinement to runs of data and holes | – |
| C26 | cache: read, write, skip, flush, truncate | representation invariant: view = file + pending bytes | I/O errors |
| C27 | tronc | invariant on window | – |
| C28 | storage cells, iterators, make_alloc, memory_file | cells concatenated; memory refusals are an oracle | – |
| C29 | tronconneuse over an abstract cipher; crypto_sym padding | block arithmetic, invariant | real ciphers, threads |
| C30 | block_compressor over an abstract compressor, headers, mem_block | block arithmetic, invariant | real compressors, threads |
| C31 | sar create/read over a directory of slices | refinement to a plain file | lax mode, hooks, formats < 8 |
| C32 | label, tlv, slice_header, archive_version, header_flags, header_version | parser/printer round trips | formats < 8 (versions apart) |
| C33 | copy_to, diff of generic_file with short reads | loop invariants | – |
| C34 | has_changed_since, more_recent | C19 | ctime and delta-signature checks |
| C35 | eols and mask_list over a cache cut anywhere | refinement to the list of lines | multi-byte upper casing |
| C36 | command line policy parser | scanner lemmas, grammar given by a printer | calendar dates (argument) |
| C37 | catalogue and entries: dump, read, hard link numbers, checksums (format 12) | nested recursion, invariant on the hard links written/read, framed readers | older formats, lax mode, statistics, the escape marks between inlined entries |
| C38 | header, list of archives, options, tree of files, partial and read-only modes (all formats for reading, 7 for writing) | induction on the tree, framed readers | the cipher and compression themselves (a transparent pair), allocation failures |
| C39 | main thread, workers, writing thread and the pool as a transition system over the elements under way; cutting into blocks | invariants over all interleavings, decreasing measure, progress | libthreadar is not in the repository: ratelier_scatter, ratelier_gather, heap by their documented behaviour; cancellation, the barrier at start, the parallel reading |
| C40 | backup of a tree against a reference catalogue, and the restoration as a machine over filesystem, stack of directories and catalogue reading | induction over trees and histories, invariants of the machine | hard links (C41), FSA, delta, dirty files, atime, sequential reading, dry-run, flat; root user |
| C41 | names and inodes of a filesystem, etiquettes and cat_etoile of a catalogue, corres_read and corres_write | invariants over the names saved and restored, induction over histories | directories (C40), other policies, filters of the restoration, FSA, atime, errors of the system calls |
| C42 | the walk of both archives over the resulting catalogue, the actions over two entries, the policy of the decremental mode | induction over trees and histories, with the relations of C40 between archives, states and restorations | hard links, FSA, delta patches, make_empty_dir, the copy of data (step 2), the answers of the user |
| C43 | the records laid between tape marks, the sequential reader and the restoration in an empty place | induction over the events with an invariant between the state of the reader and the directory the backup was in; framing of each reader for the record cut short; a lemma over the escape layer turns bytes into marks | compression, encryption, FSA, sparse files, overwriting, what a link does when its first name was not restored |
| C44 | the walk of the catalogue beside the filesystem (directory piles, path reported) and the comparison of inodes with data, EA and FSA | induction on the trees with an invariant between the catalogue stack, the path reported and the directory read; the specification is relational and independent of the order of tests | doors, restoring of access times, failures of reading data |
| C45 | the threads as a transition relation (client, main thread, reader, workers, rateliers, pool) over a byte file | invariants by induction on the schedule; safety from a path of blocks kept as a ghost, progress by cases, termination by a lexicographic measure | cancellation, suspended compression, read_ahead, exceptions of the file below |
| C46 | the static lists (objects, preborn, associations) and the phase of each thread as a labelled transition system; the specification is functions of the history alone | invariant by induction on the history | copies of objects, signals, the unlocked access of dead_thread |
| C47 | the bytes of both messages, one turn of the loop of the slave, make_transfert and every call of the client; the specification is the direct reading of a list of bytes | round trip of messages, invariant on both ends by induction on the calls | system errors on the pipes, the question asked on a wrong number |
| C48 | the loop of dar_manager -r and the -g filters it gives to dar, restore_tree and its filter; the extraction of one archive from one entry is that of C21 | induction on the tree and on the queue; an archive asked for others changes nothing (invariant of C21) | the execution of dar for each archive (C40), the answers of the user |
| C49 | the reading of the filesystem, the loop of filtre_sauvegarde with its stacks (etages, juillet, catalogue, comparison), update_destroyed_with and the dump | the loop follows a recursion on the tree (simulation), then induction on paths; specification by paths | hard links (C41), data written (C34, C43), user cancellation, changes of the filesystem during the backup other than vanishing entries |
| C50 | semaphore::raise and lower and all their callers during a backup, in the model of C49 | invariant on the counter by recursion on the tree, then induction on paths | a file saved again without compression or because it changed runs its hooks again (not modelled); the execution of the command |
| C51 | main thread (state monad, a schedule oracle) and read_below (atomic steps), orders, acknowledgements, barrier, ignored acknowledgements | invariant relating the blocks under way to the clear data, for every call; potential function for the end of all the loops | workers and rateliers are one FIFO (C39, C45); exceptions of the threads below; trailing clear data callback |
| C52 | file, hash object and disk as records, the system and the user as lists of answers | invariant over histories, induction on the answers | fadvise, permissions, pipes, libgcrypt itself (any function), debugging mode only_hash |
| C53 | sorted list, C++ binary search with indices, three step ioctl sequence with an oracle for failures | sortedness invariant over reachable lists, bitwise reasoning | HFS+ birthtime restoration, messages, fsa_infinint (unused) |
| C54 | both loops with the system as lists of answers, running out of answers being any moment of the run | induction on the answers, invariants on the request size | rate limitation, signals, terminal interaction |
| C55 | source as bytes with a set of unreadable offsets, read(2) as a function constrained by it, destination with offset and holes | invariant on the bytes copied so far, search invariants, termination by measure | lseek failures, cancellation, statistics printed |
| C56 | librsync's job as an abstract machine with a contract; the three loops function by function | invariant tying what the machine was given to the buffer and to what is below, termination by measure, contract shown met by two concrete machines | errors of librsync, short reads of the files below, signature loading, callback to the file to patch |
| C57 | recording of options, the mask constructors with their two-pointer state, the walk of a tree; fnmatch, regcomp and listing files abstract | invariant: the mask made so far answers what the manual's rule gives for the options read so far; then prefix-closure of includes and suffix-closure of ordered excludes for pruning; a concrete library meets every hypothesis | user-given end of line sequences, -w target options, conditional syntax of included files |
| C58 | the two loops calling the library with the shared 100 kB buffer, the flags that end the reading loop, flush, seek and suspension; the library is any machine meeting a contract (what it takes and gives, progress, the statuses) | invariants relating the library's state to what was taken and given; termination by a measure; a toy library meets the contract | failures of the layer below, memory errors, the library's own format |
| C59 | the write loop with the advised sizes, the endStream/flushStream loop, the read loop with its input buffer filled up at each turn and its two flags; libzstd is any machine meeting a contract | invariants relating the library's state to what was taken and given; termination by a measure; a toy library meets the contract | failures of the layer below, memory errors, errors of libzstd while writing, read-write mode |
| C60 | the three state machines, the pieces of a text with hidden parts and the way a read or a skip goes through them | a specification by lines and a grammar of words; equivalence of machine and grammar in both directions, by induction | skip_relative, skip_to_eof, the parser getopt and the inclusion of other files |
| C61 | each function, loop by loop | specifications by the written form (digits and suffix, tokens, XML reader, fields); equivalences by induction; arithmetic of powers of two | tools_str2int, dates given by a user |
| C62 | each function, the iterator included | specification by the relation of repeated reads, the order of names by first difference, the function find; invariants over all the objects a program obtains; framed readers for truncation | move operations, std::map itself (a sorted sequence) |
| C63 | each function | specification after the manual page: written forms, fields of C61; equivalence in both directions by cases and induction on texts | the stream library (C locale, libstdc++) |

Further properties are described at the end of this file as the model grows.

## Trusted base

* The Coq 8.16.1 kernel, including `vm_compute` (used for closed examples, instances and refutations).
* `Print Assumptions` under the theorems answers "Closed under the global context": no axiom is used by any of them, nor
  added by this development. (The libraries loaded – the Coq standard library, with `ssreflect` for the `under` tactic as
  a dependency of `Lia`/`zify` – declare the interface constants `Coq.ssr.ssrunder.*`; no theorem here depends on them.)
* The fidelity of the hand-written model to /repo, cited line by line; what is left out is in the table above and in
  the header comment of each model.
* C39: the objects of libthreadar (not in /repo): ratelier_scatter, ratelier_gather, heap, thread::join behave as documented.
* Not modelled anywhere: the operating system (I/O errors, signals, full disks), real cryptography and compression
  algorithms (abstract functions with the laws named in the theorems), threads and their schedules unless stated, memory
  exhaustion unless stated, C++ object lifetime (copies are values).

## Testing the theorems

`seeded/LOG.jsonl`: each line is one wrong program (an edit of the model as a realistic bug would make it), the theorems
that fail on it, and the theorems that had to be tightened when it survived.
