# Formal model of goirlib in Rocq (Coq 8.16.1)

## 1. How the development is organised

`rocq/theories/` (logical name `Verif`), built with `coq_makefile -f _CoqProject`.

* `Base*.v`            – Go basics (64/32-bit wrap-around, map iteration orders).
* `M_*.v`  (Model)     – executable Gallina definitions, one per Go function, each with a comment
                         citing file and lines and stating simplifications. No proofs.
* `S_*.v`  (Spec)      – small declarative vocabulary used by the theorem statements
                         (histories, counting, "last write", ...), independent of the model.
* `P_*.v`  (Proofs)    – lemmas.
* `T_*.v`  (Theorems)  – the property theorems, each closed by `exact lemma`, each followed by
                         `Print Assumptions`, and `Example`s showing the hypotheses are satisfiable.

General modelling decisions

* Go `string` = Coq `string` (a list of bytes). Go `map[string]T` = std++ `gmap string T`;
  nil and empty maps behave alike for reads, and the code never writes to a nil map.
* `range` over a map: the loop takes an explicit *order* argument, any permutation of the keys;
  theorems quantify over all orders. So Go's randomised iteration is covered.
* `int` is 64-bit: sums are wrapped explicitly (`wrap64`); `int32(x)` is `wrap32`.
* Goroutines/channels: explicit small-step state machines; theorems quantify over all schedules.
* Panics are explicit outcomes (`None`/`Panic`), never totalised away.
* External libraries are parameters (Section variables generalised in the theorem statement, so
  visible as `forall`): Unicode tables, `strings.ToLower`, `porter2.Stem`, the NFD/Mn/NFC transform,
  number formatting, `math.Log` in the float model, `sort.Slice` as any sorting permutation.
* File system: a map from paths to contents plus a set of directories; a file write is two steps
  (torn, complete), rename and remove are atomic. Crash = stop between any two steps.

## 2. Plan per property

| Id | Model | Proof |
|----|-------|-------|
| C01,C02 | `strings.FieldsFunc` over Go UTF-8 decoding, rune predicate abstract | induction on the byte string |
| C03 | slice = list in a small heap; in-place write | induction on index |
| C04 | filter loop, word tables transcribed | induction |
| C05 | one thread per token writing its cell; any schedule | invariant + measure |
| C06 | composition | from C01,C04,C05 |
| C07 | fold of `frequencyMap[term]++` | induction |
| C08,C09 | JSON value tree, recursion with per-level iteration orders | mutual induction; join injectivity |
| C10 | `%s` formatting of JSON values | case analysis |
| C11 | map of bools | induction over ops |
| C12–C14 | heap of elements + lookup map + order list | invariant, refinement to abstract LRU |
| C15,C16 | container/list at pointer level (ring with sentinel) | ring invariant; concrete bad schedule |
| C17,C18 | channel queue, buffer, published snapshot | invariant over interleavings |
| C19 | channel without writer; the writer loop separately | invariant |
| C20,C21 | CRC-32 bitwise, map of LocalMaps | arithmetic; refinement |
| C22–C28 | Memory storage, function by function | induction over histories |
| C29 | heap-level Memory (map references) | refinement to the value model; concrete witnesses |
| C30,C31 | fan-in machine (workers, semaphore, bounded channel, closer, collector), two phases | invariant, progress, decreasing measure |
| C32 | same machine for Standard.Search, then aggregation and sort | same |
| C33,C34 | generic numeric model instantiated with R | real analysis |
| C35,C36 | same generic model instantiated with Flocq binary64 | Flocq lemmas; vm_compute witness |
| C37,C38 | handlers | case analysis; composition |
| C39–C41 | SecureSaveFile as a system-call program; crash = prefix | case analysis over crash points |
| C42–C45 | table/slot-level flatbuffers | induction |
| C46,C47,C54 | disk storage machine (`M_Disk.v`): client micro-steps, LRU cache, channels, four writers, merger, file system, crash, reopen | invariants over all executions; simulation by the Memory model; concrete refutations |
| C48–C51 | same machine, index path: channel, fragment writer, merger | invariant "every saved posting is in flight or on disk"; crash analysis by program point |
| C52,C53 | same machine, statistics writers | invariant relating file, buffer and received updates |
| C55 | same machine, strong fairness over infinite executions | no-deadlock case analysis; lexicographic measure |
| C56 | interleaving machine over a heap of maps (`M_Concurrent.v`), any number of goroutines | invariants, and constructed schedules for the bounds that are attained |
| C57 | path strings: `filepath.Clean`/`Join` (`M_Path.v`) | induction; semantics of paths in `S_Path.v` |
| C58 | flatbuffers Builder at byte level | codec proof |
| C59 | infinite fair executions with tickers that fire again and again (`S_DiskDurable.v`) | liveness by ranking arguments on the writers; composition with C48, C53, C54 |
| C60 | any number of GetFields readers sharing the store with the background goroutines (`M_DiskSearch.v`); search models over the disk getters | invariant relating concurrent readers to sequential reachable states (never restarted) or to the document files (reopened); transfer of searches along equal answers; computed counterexample for rankings |
| C61 | the writers of `M_Concurrent.v` interleaved with `Index.Search` at the granularity of map accesses, fan-in with sending workers, Go's iteration rule (`M_SearchConc.v`) | trace semantics of the fan-in (every received message comes from a worker trace), ghost ownership of maps and sets, invariants that postings, documents and counts are kept; constructed executions for the races and for the torn snapshot; termination measure; an allocation invariant and a frame lemma per map for `C61_no_race` |
| C62 | `bm25` over `float_ops` (Flocq binary64, round to nearest even) against the same program over the reals; math.Log is any function with relative error at most 2^-51 on arguments at least 1 (the correctly rounded logarithm is shown to be one) | relative error analysis operation by operation in the normal range, absolute error for the logarithm and the sums, monotone rounding; combined with the schedule-independent characterisation of C32 |
| C63 | the handlers of `M_Server.v` on the disk machine of `M_Disk.v` (`M_DiskServer.v`): the calls of the handled POST requests are the history of the store; GET searches the view of the store of C60 | composition of C38 with the refinement C46/C60, of C60_restart_finds_same with C31, of C59_all_flushed; path lemmas of C57 and the folder invariant for ids with a slash |
| C64 | `M_DiskBusy.v`: the disk machine of `M_Disk.v` with UpdateFieldDocument split into its cache and map accesses, and any number of searches, each the fan-in machine of `M_SearchConc.v` over goroutines that read the index, the cache, the heap of maps and the files one access per step | invariants over all interleavings: every map reachable from cache, writer or search belongs to one document and holds fields saved for it; after a quiet first save, while the cache has room, the document's cache entry and map stay the same, so that every later access reaches them; a document not saved since the opening: its file and every copy of it stay what they were; statistics by tracing the moment of each read; termination by a measure; refutations by executing a schedule with a verified interpreter (`X_DiskBusy.v`) |
| C65 | `M_BusyServer.v`: the machine of `M_DiskBusy.v` with any number of calls of Standard.Search, each the fan-in machine of `M_FanIn.v` whose goroutines call the store's searches; the handler of POST requests is the client | projection on the store (C64 applies to it) and, per call, simulation by a fan-in of its own whose goroutines use searches that started later; the ranking from the fan-in's result as in C35; termination by a measure that ends each search in turn with `C64_can_return` |
| C66 | `M_DiskMulti.v`: the background goroutines, files and crashes of `M_Disk.v` with any number of callers of SaveOrUpdate, whose accesses to the four maps are the steps of `M_Concurrent.v` and whose accesses to the cache are those of `M_DiskBusy.v`, with the four channel sends between them, and any number of searches (their loads go through the same cache) | invariant over all executions: every posting written to memory or completed by a call is sent, about to be sent or was lost by the memory race only; the index writer's invariant of C50 (from the set of postings sent); documents by the ownership invariant of C64; counters by projection on C56; counters on disk by an estimate (every value in a map, in a goroutine, in the writer's buffer or in a file is at most the number of saves minus those whose increment is still to be stored); documents reach their file by an invariant on the maps of the cache (every map in the writer's buffer, on its way to it or in the file holds a field saved in the session); absence of deadlock by cases on what each caller waits for, termination by a lexicographic measure (calls left, writers' work, merger); under fairness and ticks: every writer is back at its select again and again, and a run in which no request can move any more contradicts that a goroutine that cannot move waits for one writer to be at its select; the failures by computed executions |
| C67 | `M_Import.v`: one document of main.go:237-263 as a relation (any iteration order of every map, any uuid), composed with `M_Field.v`, `M_Text.v`, `M_Disk.v` | the calls of an import characterised by the leaves of its objects; searches by C60/C31 through the memory storage; restart by C48 and C54_grouped (`P_DiskGroup.v`: a document stays in the cache while its fields are saved one after the other) |
| C68 | `M_DiskMulti.v`, whose state holds any number of searches besides the callers: GetLength, GetSize, one read of the frequency per term, the fan-in of the posting reads and the fan-in of the goroutines that fetch the documents through cache and files | invariants over all interleavings: every id collected by a search was saved, every field it holds is one saved for that id; what it read of counters and tables is bounded by the saves; the counters are those of a moment of the session by induction on the run; each search can be driven to its end by its own fan-in; a document listed at opening and not saved since is frozen on disk, in the maps and in the cache (P_DiskFrozen), so every search of the session finds it; a document that is listed and cached stays so while the cache has room, through all steps of savers and searches (P_DiskKept), and a lone save brings it there (P_DiskKept2), whence (g) |
| C69 | `M_MultiServer.v`: `M_DiskMulti.v` with, besides, any number of GET requests (the fan-in of `Standard.Search` over two queries, whose jobs are the searches of `M_DiskMulti.v`) and of POST handlers, each arriving at any time | a run of the service projects to a run of the store, so C66 and C68 apply; the invariant that links each worker's job to the search it started gives the ranking of C35; every saved field belongs to a posted body, so found documents were posted; each request is driven to its answer by its fan-in; the bounded rest of C66 gives (f); documents listed at opening are frozen (C68 (f)), and a quiet moment puts posted documents on the files (C66), whence (g), (h); a POST served alone makes its three saves one after the other, so C68 (g) applies to each: (i); an execution with two handlers at once: (j); a lexicographic rank (writers and handlers, fan-ins of the GET requests, phases of the searches, their fan-ins) decreases with every step of a goroutine that is there, and a state in which none can step has every fan-in done: (k); without its first component's background part the rank does not change with ticks and writers' steps: (l); C66 (l) on the store's projection of the run: (m) |

Where the code violates what a user would expect, the property text states what really holds and
a theorem with suffix `_refuted` exhibits the violation with a concrete witness.

## 3. Trusted base

1. **Coq 8.16.1's kernel** (and `coqc`/`coqchk`). No axiom, parameter or admitted proof is declared
   in this development; there are no functors, no module types and no plugins. Section variables
   are all generalised, so they appear as `forall` in the theorems.
2. **`Print Assumptions`** of every theorem of the manifest stands under the theorem in its `T_*.v`
   file and is printed by the build. All are "Closed under the global context" except those that
   mention the reals or Flocq's binary64 numbers:

   | Theorems | Standard-library axioms listed |
   |---|---|
   | C32_standard_search_exact, C33_idf, all C34_*, C35_two_queries_deterministic, C35_three_queries_refuted, C36_missing_statistics_give_nan, C37_ten_best, C60_restart_ranking_refuted, all C62_* | `ClassicalDedekindReals.sig_not_dec`, `ClassicalDedekindReals.sig_forall_dec`, `FunctionalExtensionality.functional_extensionality_dep`, `Classical_Prop.classic` |
   | C36_saved_store_is_well_defined | `ClassicalDedekindReals.sig_forall_dec`, `FunctionalExtensionality.functional_extensionality_dep` |

   These are the axioms of `Coq.Reals` (and Flocq, which is built on it). Nothing else is assumed.
3. **The reading of the Go code.** The code was not run. Each model definition cites the lines it
   models; the tie between the two is those citations.

## 4. What is modelled, and how faithfully

| Go code | Model | Simplifications |
|---|---|---|
| tokenizer/Standard.go, filter/*.go, metric/TF.go, language/*.go, main.go Preprocessing | M_Text.v, M_Language.v | `unicode.IsLetter/IsNumber`, `strings.ToLower`, `porter2.Stem` and the NFD/Mn/NFC transform are arbitrary functions. UTF-8 decoding is the published algorithm of Go's `utf8.DecodeRune` (invalid bytes become U+FFFD). The word tables are transcribed. |
| field/FieldProcess.go | M_Field.v | JSON values after `json.Unmarshal` (decoding itself is not modelled); `%s` of a number is an arbitrary function. |
| model/*.go | M_Field.v, M_Memory.v | – |
| cache/LRU.go (and container/list) | M_LRU.v | pointer level: ring with sentinel, heap of elements, as in the Go library. For C16 two Gets interleave statement by statement. |
| cache/RCU.go, Map.go, LocalMap.go, Shard.go | M_Cache.v | tickers may fire at any moment; CRC-32 bit by bit. Locks are correct (a critical section is one step). |
| storage/Memory.go | M_Memory.v (values), M_MemHeap.v (references), M_Concurrent.v (interleaved) | the three are connected: the heap model refines the value model (C29), sequential executions of the interleaved one are the value model (C56_serialised, C56_one_goroutine). Callers that store into maps returned by getters are covered by C29 only. |
| index/InvertedIndex.go, search/Standard.go, similarity/BM25.go, metric/IDF.go | M_Search.v, M_Standard.v, M_FanIn.v, M_Num.v (generic arithmetic), M_NumR.v (reals), M_NumF.v (binary64) | goroutines, semaphore, wait group and channels as steps; `sort.Slice` is any permutation sorted by the comparison (when it is a strict weak order). Go may fuse `x*y+z` on some platforms; the binary64 model rounds each operation (amd64). |
| file/File.go | M_File.v | a write is two steps (torn, complete); rename, remove and mkdir are atomic; the only I/O errors are missing directories and wrong kinds of entry. The process can stop anywhere; power loss (unflushed pages) is not modelled in C39–C41. |
| storage/Serialize.go, storage/buffers/*.go, google/flatbuffers builder and tables | M_Flat.v (bytes), M_Serialize.v | the library is modelled from its published source: strings, offset vectors, tables, vtable sharing, alignment; the builder panics above 2^31 bytes. |
| storage/DiskStorage.go, storage/DiskIO.go | M_Disk.v | one client goroutine; names are simple path components (C57 says what other names do); uuids are fresh; gzip is any pair of functions with `decompress (compress b) = Some b` (and failing on torn files); system calls are atomic. `log.Fatal`/panic end the process at that point or later. |
| storage/DiskStorage.go getters under index/InvertedIndex.go and search/Standard.go | M_DiskSearch.v | GetFields calls of one search run in parallel, statement by statement, with the background goroutines of the store; no SaveOrUpdate runs during the search. |
| index/InvertedIndex.go:35-121 and storage/Memory.go:50-94 under concurrent storage/Memory.go:15-119 | M_SearchConc.v | Every map access of the search is a step reading the shared state of that moment. An iteration over a set yields each entry present throughout exactly once and entries added meanwhile at most once. Single map accesses atomic, memory sequentially consistent; the Disk storage is not combined with concurrent writers here. |
| path/filepath Clean and Join (Unix) | M_Path.v | from the published Go source; symbolic links and case-insensitive file systems are not modelled. |
| main.go POST/GET /nir | M_Server.v, M_DiskServer.v | JSON binding is an arbitrary partial function; one request at a time. On memory storage (C37, C38) and on the disk storage main.go uses (C63). |
| index/InvertedIndex.go Search on storage/DiskStorage.go, concurrently with SaveOrUpdate | M_DiskBusy.v | one client saves; any number of searches; map accesses, cache calls and file reads are atomic steps, memory sequentially consistent; what the runtime does on a data race is not modelled (`map_race` states that one is reachable). |
| search/Standard.go Search and main.go:124-217 on the disk storage, concurrently | M_BusyServer.v | POST requests one at a time; a goroutine of Standard.Search computes its scores in one step once Index.Search has returned (it reads only that result). |
| storage/DiskStorage.go:141-227 called by several goroutines (main.go:118-155) | M_DiskMulti.v | one map access, cache call or channel operation per step; memory sequentially consistent. Searches (index/InvertedIndex.go:30-105 over storage/DiskStorage.go:88-139, 268-352) run concurrently with the callers, as the goroutines of `M_DiskBusy.v`; their map reads are single steps. |
| main.go:110-217, search/Standard.go:21-93 with any number of requests at the same time, on the disk storage | M_MultiServer.v | handlers as for C49, C52; the pure parts of a handler (binding, completeness check, analysis) take no step; sort of the merged scores as in C35; the storage as in M_DiskMulti.v |
| main.go:228-267 mainxcrt | M_Import.v | json.Unmarshal is an arbitrary partial function; the list of documents (a file) and progress messages are left out. |

Not modelled: `storage/IndexDisk.go`, `storage/disk/*.go`, `search/AsyncStandard.go` (entirely
commented out), `main.go`'s `maincc` and `testecolection/` (experiments), gin's HTTP
layer, log output and durations, hardware and memory limits (except flatbuffers' 2 GB bound), and the Go
memory model below sequential consistency (C56 shows where data races are reachable; what a racy
Go program does after that is not defined).

`X_DiskExec.v` is an executable scheduler used only to build the concrete executions of the
examples and refutations; each run it produces is proved to be an execution of the machine.

## 5. Findings

Theorems with the following names show that the code does something a user would not expect:

* `C09_order_independence_refuted` – two JSON paths with the same dotted name: which leaf wins depends on map order.
* `C16_*` – `LRUCache.Get` modifies the list under a read lock.
* `C19_*` – `SyncMap.Put` is never published: nothing reads its channel.
* `C35_three_queries_refuted` – with three fields the score depends on goroutine order.
* `C36_missing_statistics_give_nan` – a posting without statistics gives NaN scores.
* `C37_*` – GET /nir panics for one to nine results.
* `C40_gap_loses_file_refuted`, `C50_gap_crash_refuted` – a crash between the two renames loses the file; the next open deletes the copy.
* `C41_temp_and_old_destroyed_refuted`, `C54_alias_refuted` – ids ending in `_temp`/`_old` destroy other documents' files.
* `C46_bare_update_index_refuted` – Memory and Disk disagree on UpdateIndex.
* `C47_evicted_field_lost`, `C47_restart_field_lost` – saving a field of an evicted document erases its other fields.
* `C51_*` – a half-written fragment makes the folder impossible to open.
* `C52_untouched_term_lost` – document frequencies of untouched terms vanish from the file at the next flush.
* `C53_docs_field_refuted` – the metrics of a field called `docs` are not reloaded.
* `C56_posting_lost`, `C56_document_lost`, `C56_collide` – lost updates between concurrent requests.
* `C60_restart_ranking_refuted` – a restart can reverse a ranking: document frequencies of untouched terms are lost.
* `C61_read_race`, `C61_iteration_race` – a search that runs while any document is saved can meet a map that is being written: the Go runtime then may stop the process ("concurrent map read and map write", "concurrent map iteration and map write").
* `C61_torn` – a search reads the total length and the number of documents at different moments: with a writer running, the average length it uses can be smaller than every document of the store (1 document of length 3, two more saved meanwhile: 3/3 = 1).
* `C63_slash_id` – a POST with an id containing `/` is answered 201 and stops the server at the next tick of the document writer (log.Fatalf).
* `C69_posted_not_found` – two documents posted at the same time: both requests are answered 201, and a later GET request for a word of the first finds nothing, although nothing is in progress any more and the cache has room (the posting reached the disk and is found after a restart, `C66_lost_until_restart`).
* `C64_stale_overwrites` – a search that misses the cache reads the document's file and puts what it read into the cache later, over what was saved meanwhile: an acknowledged SaveOrUpdate disappears from searches and, at the next SaveOrUpdate of another field, from the disk. `C64_map_race` – client and search access the field map of a document at the same time. `C64_torn_average` – average length of no moment.
* `C66_lost_until_restart`, `C66_stale_metrics`, `C66_field_lost` – with two POST requests at once: a document whose request was answered with 201 is not found until the server is restarted; the counters on disk stay behind those in memory; one of two fields of a document is missing from its file.
* `C67_numbers_match` – main.go:250 formats values with %s: a number is indexed with the word float64, so that a search for float64 finds every document with a number in that field.
* `C57_*` – names with `/` or `..` alias other files or leave the folder.
