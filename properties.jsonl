{"id": "C01", "title": "Tokenize returns exactly the maximal runs of word characters", "statement": "Tokenize(text) returns, in text order, exactly the maximal runs of runes that are a Unicode letter, a Unicode number or an apostrophe: every token is non-empty and contains only such runes, concatenating the tokens gives the text with every other rune (including invalid UTF-8) deleted, and two adjacent tokens are always separated by at least one non-word rune.", "quantifier": "every byte string, valid UTF-8 or not, and every classification of runes into letters/numbers", "why_tests_cant": "the input space is all byte strings; tests only sample a few ASCII sentences", "anchors": ["tokenizer/Standard.go:Tokenize", "tokenizer/Standard.go:isNotAlnum"]}
{"id": "C02", "title": "Tokenize is compositional at separators", "statement": "Tokenizing two texts joined by any separator rune gives the tokens of the first followed by the tokens of the second, and re-joining the tokens with a separator and tokenizing again gives the same tokens; so field contents can be concatenated without creating or losing terms.", "quantifier": "every pair of texts and every separator", "why_tests_cant": "quantifies over all texts; a handful of joined strings cannot show that no pair merges or splits a token", "anchors": ["tokenizer/Standard.go:Tokenize"]}
{"id": "C03", "title": "Lowercase rewrites every token and writes through the caller's slice", "statement": "Lowercase.Process returns the pointwise lower-casing of its input, same length and order, and the caller's slice afterwards holds the lower-cased tokens (it is the same slice); the other filters never modify their input.", "quantifier": "every token list and every lower-casing function", "why_tests_cant": "aliasing effects are only visible if the caller still holds the slice, which no test does; must hold for all lists", "anchors": ["filter/Lowercase.go:Process", "filter/StopWords.go:Process", "filter/ASCII.go:Process", "filter/Stemmer.go:Process"]}
{"id": "C04", "title": "StopWords removes exactly the stop words", "statement": "StopWords.Process keeps precisely the tokens whose entry in the word table is not true, in the original order and multiplicity; running it twice is the same as once. GetWords returns the table of the requested language and panics for any other language.", "quantifier": "every word table (including entries mapped to false), token list and language value", "why_tests_cant": "all tables and all token lists; tests run one English table over a few words", "anchors": ["filter/StopWords.go:Process", "language/Language.go:GetWords", "language/StopEnglish.go", "language/StopPortuguese.go"]}
{"id": "C05", "title": "Parallel stemming equals sequential stemming under every schedule", "statement": "Stemmer.Process with the Snowball algorithm returns, for every interleaving of its goroutines, the list obtained by stemming each token in place: same length, same order, no lost, duplicated or misplaced token, and always terminates; with any other algorithm value it panics.", "quantifier": "every token list and every schedule of the per-token goroutines", "why_tests_cant": "schedules cannot be enumerated by tests; a lost or misplaced write would show only in rare interleavings", "anchors": ["filter/Stemmer.go:Process", "filter/stemmer/Algorithm.go"]}
{"id": "C06", "title": "Preprocessing is a deterministic function of the text", "statement": "Preprocessing(text) is, for every goroutine schedule, the stem-then-ascii image of the tokens of text that are not stop words after lower-casing, in order; so a query and a document containing the same words yield the same terms, and the number of terms never exceeds the number of tokens. Stop words are removed before stemming/ASCII folding, so the result may still contain a stop word.", "quantifier": "every text, every schedule of the stemmer goroutines", "why_tests_cant": "must hold for all texts and schedules; index-time and query-time runs are different schedules", "anchors": ["main.go:Preprocessing", "filter/StopWords.go:Process", "filter/Stemmer.go:Process", "filter/ASCII.go:Process"]}
{"id": "C07", "title": "TermFrequency counts occurrences exactly", "statement": "TermFrequency(terms) maps each term to its number of occurrences and nothing else: a term has an entry iff it occurs, every entry is at least 1, the entries sum to len(terms), and reordering the terms does not change the result.", "quantifier": "every list of terms", "why_tests_cant": "a counting law over all lists", "anchors": ["metric/TF.go:TermFrequency"]}
{"id": "C08", "title": "Flatten maps every leaf to its dotted path, independent of map iteration order", "statement": "For a nested JSON object whose top-level keys are non-empty and whose keys contain no '.', Flatten returns exactly one entry per non-object leaf, keyed by the dot-joined path to it, whatever order Go iterates the maps in; objects themselves (including empty ones) contribute no entry of their own.", "quantifier": "every nested object of any depth and width with such keys, and every map iteration order at every level", "why_tests_cant": "iteration order is randomised by the runtime and depth is unbounded", "anchors": ["field/FieldProcess.go:Flatten", "field/FieldProcess.go:recFlatten"]}
{"id": "C09", "title": "Flatten always yields some leaf for each path, but colliding paths are resolved by map iteration order", "statement": "For every object, every key Flatten returns is the joined path of some leaf whose value it carries, and every leaf's joined path has an entry; but when two leaves join to the same path ('.' in a key, or an empty top-level key) the surviving value depends on the iteration order, so the same document can be indexed in two different ways.", "quantifier": "every nested object with arbitrary keys and every iteration order", "why_tests_cant": "needs both a universal claim over all objects and the existence of two iteration orders with different outcomes", "anchors": ["field/FieldProcess.go:recFlatten"]}
{"id": "C10", "title": "GetID returns the document's string Id, '' when there is none", "statement": "GetID returns the value stored under the exact key \"Id\" when it is a JSON string and \"\" when the key is absent, independently of iteration order; for a non-string value it returns a %!s(...) diagnostic rather than the value, and such values, when indexed by formatting them with %s, contribute diagnostic text to the terms.", "quantifier": "every flattened document and every iteration order", "why_tests_cant": "all documents and value kinds; the tests only use string Ids", "anchors": ["field/FieldProcess.go:GetID", "main.go:mainxcrt"]}
{"id": "C11", "title": "Set behaves as a mathematical set", "statement": "After any sequence of Add and Remove, Contains(x) is true iff the last operation on x was Add(x), and Size is the number of such x.", "quantifier": "every sequence of operations on any elements", "why_tests_cant": "unbounded operation histories", "anchors": ["model/Set.go"]}
{"id": "C12", "title": "LRU cache holds at most capacity entries, one per key, with list and map in agreement", "statement": "After any sequence of Get and Put on a cache of positive capacity, it holds at most capacity keys, never two entries for one key, the recency list and the lookup table describe the same keys, and Get of a key never changes which keys or values are held.", "quantifier": "every capacity > 0 and every sequence of operations", "why_tests_cant": "unbounded histories; the invariant can break only after particular eviction/update mixes", "anchors": ["cache/LRU.go:Get", "cache/LRU.go:Put"]}
{"id": "C13", "title": "LRU cache evicts exactly the least recently used key and returns the last value put", "statement": "After any history, Get(k) succeeds iff k was put and fewer than capacity other distinct keys have been used (put, or got successfully) since k was last used; on success it returns the value of the most recent Put(k). A Put to an existing key is visible through pointers returned by earlier Gets of that entry.", "quantifier": "every capacity > 0, every history, every key", "why_tests_cant": "declarative LRU law over all histories", "anchors": ["cache/LRU.go:Get", "cache/LRU.go:Put"]}
{"id": "C14", "title": "LRU Put panics iff the capacity is not positive", "statement": "With capacity > 0 no sequence of Get/Put panics; with capacity <= 0 (allowed by NewLRUCache and NewDiskStore) the first Put of the cache's life panics, while Gets just miss.", "quantifier": "every integer capacity and every history", "why_tests_cant": "requires the absence of panics over all histories", "anchors": ["cache/LRU.go:Put", "cache/LRU.go:NewLRUCache", "storage/DiskStorage.go:NewDiskStore"]}
{"id": "C15", "title": "The recency list's pointer operations implement move-to-front, push-front and remove", "statement": "Under any sequence of sequential MoveToFront, PushFront and Remove(Back) the doubly linked ring stays well formed (forward and backward traversals are reverses of each other and visit exactly the live elements) and its order is that of the abstract list operations.", "quantifier": "every sequence of list operations as issued by the LRU cache", "why_tests_cant": "pointer-structure invariant over unbounded histories", "anchors": ["cache/LRU.go:Get", "cache/LRU.go:Put"]}
{"id": "C16", "title": "Concurrent Gets of the LRU cache can corrupt the recency list", "statement": "Get reorders the recency list while holding only the read lock, so two concurrent Gets may interleave their pointer updates: there is a schedule of two Gets on a well-formed cache after which the recency list is no longer well formed (forward and backward traversals disagree). Concurrency of the cache is therefore safe only when Gets do not overlap.", "quantifier": "schedules of two concurrent Get calls at the granularity of pointer writes", "why_tests_cant": "a race visible only in particular interleavings", "anchors": ["cache/LRU.go:Get", "index/InvertedIndex.go:Search", "storage/DiskStorage.go:GetFields"]}
{"id": "C17", "title": "RCU cache reads are values previously put, and publication is monotone", "statement": "Under every interleaving of Puts, Gets, the writer loop and its ticker: a successful Get(k) returns a value that some earlier Put stored under k; once Get(k) succeeds it never fails again; a Get never observes part of a flush; and the values seen for one key never go back to an older Put.", "quantifier": "every interleaving of any number of Put/Get callers with the writer goroutine", "why_tests_cant": "quantifies over all interleavings", "anchors": ["cache/RCU.go:Get", "cache/RCU.go:Put", "cache/RCU.go:writer"]}
{"id": "C18", "title": "RCU cache publishes every accepted Put at the next flush after it is received", "statement": "When the writer has drained the channel and then handled a tick, Get(k) returns exactly the most recently sent Put for k, and fails iff k was never put; Put blocks only while 1000 puts are undelivered, and the writer can always unblock it.", "quantifier": "every interleaving, every history", "why_tests_cant": "needs all interleavings; the existing test sleeps five seconds once", "anchors": ["cache/RCU.go:writer", "cache/RCU.go:Put", "cache/RCU.go:NewCacheRCU"]}
{"id": "C19", "title": "SyncMap never publishes a Put", "statement": "No value put into a SyncMap is ever returned by Get, because its writer is never started; after 1000 Puts every further Put blocks forever. If the writer loop did run, a key already published would keep its first published value for ever.", "quantifier": "every history of Puts and Gets from any number of goroutines", "why_tests_cant": "a 'never' property over all histories", "anchors": ["cache/Map.go:NewSyncMap", "cache/Map.go:Put", "cache/Map.go:Get", "cache/Map.go:writer"]}
{"id": "C20", "title": "Shard routing is total and stable for a positive fragment count", "statement": "For fragments > 0, Get(key) always returns one of the fragments maps, the same one for the same key for ever (namely CRC-32(key) mod fragments), and never panics; for fragments <= 0 every Get panics.", "quantifier": "every key (byte string) and every fragment count", "why_tests_cant": "all keys; relies on CRC-32 staying within range for every input", "anchors": ["cache/Shard.go:getShardId", "cache/Shard.go:Get", "cache/Shard.go:NewShardMap"]}
{"id": "C21", "title": "Two-level Set/Get on a shard map behaves as a map keyed by (shard, key)", "statement": "Setting k2 in the map returned by Get(k1) is observed by a later Get(k2) in the map of k1' iff k1 and k1' route to the same fragment: last write wins inside a fragment, other fragments are untouched, so distinct first-level keys are isolated only if they do not collide. A pointer returned by LocalMap.Get keeps the value it had when returned.", "quantifier": "every history of Set/Get through any first-level keys, any number of fragments", "why_tests_cant": "histories and collisions over all keys", "anchors": ["cache/Shard.go:Get", "cache/LocalMap.go:Set", "cache/LocalMap.go:Get"]}
{"id": "C22", "title": "Memory postings are exact", "statement": "After any history of SaveOrUpdate/UpdateIndex calls, GetDocuments(f,t) reports found iff some call indexed a field named f whose TF contains t, and the returned set is exactly the set of documents of those calls; GetIndex(f) agrees with GetDocuments for every term.", "quantifier": "every history, field, term and document, every map iteration order", "why_tests_cant": "unbounded histories", "anchors": ["storage/Memory.go:UpdateIndex", "storage/Memory.go:GetDocuments", "storage/Memory.go:GetIndex", "storage/Memory.go:SaveOrUpdate"]}
{"id": "C23", "title": "Memory GetFields returns the last saved field of each requested document", "statement": "After any history, GetFields(ids,f) has an entry for id iff id is requested and SaveOrUpdate(id, field named f) was called, and the entry is the field of the latest such call; duplicates in ids are harmless.", "quantifier": "every history and every list of ids", "why_tests_cant": "read-your-writes over all histories", "anchors": ["storage/Memory.go:GetFields", "storage/Memory.go:createFieldDocument"]}
{"id": "C24", "title": "Memory counters count calls, not documents", "statement": "GetFieldSize(f) equals (mod 2^64) the number of SaveOrUpdate/UpdateIndex calls for f and GetFieldLength(f) the sum of their lengths; it equals the number of indexed documents iff no document was indexed twice for f, so re-saving a document inflates it.", "quantifier": "every history", "why_tests_cant": "an exact law over histories with repeated documents, including 64-bit wrap-around", "anchors": ["storage/Memory.go:UpdateIndex", "storage/Memory.go:GetFieldSize", "storage/Memory.go:GetFieldLength"]}
{"id": "C25", "title": "Memory document frequencies", "statement": "GetNumberFieldTerm(f,terms) has exactly the requested terms as keys; each value is the number of SaveOrUpdate calls for f whose TF contains the term. It never exceeds GetFieldSize(f), is never less than the size of the term's posting set for histories without bare UpdateIndex calls, and equals it when no document was saved twice for f.", "quantifier": "every history and every list of terms", "why_tests_cant": "inequalities that must hold after every history (BM25 relies on them)", "anchors": ["storage/Memory.go:SaveOrUpdate", "storage/Memory.go:GetNumberFieldTerm"]}
{"id": "C26", "title": "Memory operations on one field or document leave the others untouched", "statement": "SaveOrUpdate(d,field) and UpdateIndex(d,field) change no getter's answer for any other field name, and no GetFields answer for any other document, from any state.", "quantifier": "every state, call and other field/document", "why_tests_cant": "frame property over all states", "anchors": ["storage/Memory.go:SaveOrUpdate", "storage/Memory.go:UpdateIndex"]}
{"id": "C27", "title": "Indexing order does not matter for distinct (document, field) pairs", "statement": "Two histories that are permutations of each other and save each (document, field) pair at most once lead to the same answers for every getter, whatever the map iteration orders; with repeated pairs only the stored field of that pair depends on order.", "quantifier": "every history, every permutation of it, every map iteration order", "why_tests_cant": "all permutations of all histories", "anchors": ["storage/Memory.go:SaveOrUpdate"]}
{"id": "C28", "title": "Re-saving a document never removes its old terms", "statement": "Postings only grow: if d is in GetDocuments(f,t) at some point it stays there after any further calls, even when the latest saved field of d no longer contains t; such a document is still returned by searches for t (with frequency 0 for t).", "quantifier": "every history and extension", "why_tests_cant": "monotonicity over all histories", "anchors": ["storage/Memory.go:UpdateIndex", "storage/DiskStorage.go:UpdateIndex"]}
{"id": "C29", "title": "Values returned by Memory share state with the store", "statement": "The set returned by GetDocuments and the map returned by GetIndex are live views: later saves show through them, and a caller adding to the returned set changes what later searches see; the TF map passed to SaveOrUpdate is stored by reference, so mutating it later changes GetFields but not the postings. Without such client mutation the store behaves exactly as its value semantics.", "quantifier": "every history of calls interleaved with client mutations of returned or passed maps", "why_tests_cant": "aliasing over arbitrary client behaviour", "anchors": ["storage/Memory.go:GetDocuments", "storage/Memory.go:GetIndex", "storage/Memory.go:createFieldDocument", "model/Set.go:GetData"]}
{"id": "C30", "title": "Index search terminates, never deadlocks and is schedule-independent", "statement": "For a storage that is not being written, Search(terms, field) terminates under every schedule of its worker, closer and collector goroutines, for every number of terms and CPUs, channel capacities and semaphore size included; every schedule returns the same result.", "quantifier": "every storage content, term list, number of CPUs >= 1, map iteration order and goroutine schedule", "why_tests_cant": "all interleavings of an unbounded number of goroutines over bounded channels", "anchors": ["index/InvertedIndex.go:Search"]}
{"id": "C31", "title": "Index search returns exactly the matching documents and field statistics", "statement": "Search(terms,f).FieldDocuments has an entry for d iff d is in the posting set of some term of the query in field f and a field f is stored for d, and the entry is that stored field; NumFieldsWithTerm, TotalDocuments and AvgDocLength are the storage's document frequencies, field size and length/size. Each document is looked up exactly once (batches partition the candidate ids).", "quantifier": "every storage content and query, duplicates in the query included", "why_tests_cant": "all contents and queries", "anchors": ["index/InvertedIndex.go:Search"]}
{"id": "C32", "title": "Multi-field search returns each matching document once, with the sum of its field scores, best first", "statement": "Standard.Search(queries) terminates under every schedule; each document matching at least one query appears exactly once, no other document appears, its score is the sum over the queries of its BM25 score in that query's field, and the list is sorted by non-increasing score. With no queries the result is empty.", "quantifier": "every index content, query list, schedule, map iteration order and sort behaviour on ties", "why_tests_cant": "all schedules and contents; ties and iteration order are randomised by the runtime", "anchors": ["search/Standard.go:Search"]}
{"id": "C33", "title": "IDF is positive and decreasing in document frequency", "statement": "For 0 <= n <= N, IdfBM25(N,n) > 0 and it strictly decreases as n grows and strictly increases with N; it becomes negative exactly when n > N + 1/2.", "quantifier": "all real N, n in range", "why_tests_cant": "inequalities over a continuum", "anchors": ["metric/IDF.go:IdfBM25"]}
{"id": "C34", "title": "BM25 is non-negative, zero exactly without matches, monotone and bounded", "statement": "With the parameters used by search, document frequencies not exceeding the total, positive boost, non-negative lengths and frequencies and positive average: the score is >= 0, is 0 iff no query term occurs in the field, grows with any term frequency, shrinks as the field gets longer, is at most boost*2.2*sum of idf, scales with the boost (0 meaning 1), and does not depend on the order of the query terms; repeated terms count repeatedly.", "quantifier": "all queries, fields and statistics, over the real numbers", "why_tests_cant": "continuum of inputs", "anchors": ["similarity/BM25.go:BM25", "search/Standard.go:Search"]}
{"id": "C35", "title": "Combined scores are schedule-independent for at most two queries, not for three", "statement": "In IEEE double arithmetic the score a document gets from up to two field queries does not depend on goroutine schedule, but for three or more the addition order, hence the returned score and possibly the ranking, can differ between two runs of the same search.", "quantifier": "every score value (binary64, NaN-free) and every arrival order", "why_tests_cant": "floating-point non-associativity under schedules", "anchors": ["search/Standard.go:Search"]}
{"id": "C36", "title": "Search over a store built only through SaveOrUpdate yields well-defined scores", "statement": "If the store was filled by SaveOrUpdate with lengths at least the number of terms and a matching document exists, then total documents > 0, average length > 0 and every document frequency is at most the total, so the hypotheses of the BM25 laws hold; if the statistics are missing (size 0) the average is 0/0 = NaN and every score is NaN.", "quantifier": "every such history and query", "why_tests_cant": "links storage histories to numeric preconditions for all histories", "anchors": ["index/InvertedIndex.go:Search", "similarity/BM25.go:BM25", "storage/Memory.go:SaveOrUpdate"]}
{"id": "C37", "title": "GET /nir answers only when there are no results or at least ten", "statement": "The search handler returns an empty result list with total 0 when nothing matches, the ten best results with total 10 when at least ten match, and panics (no response) when between one and nine documents match; the reported total is never the real number of matches when more than ten match.", "quantifier": "every search result length and content", "why_tests_cant": "boundary over all result sizes", "anchors": ["main.go:main"]}
{"id": "C38", "title": "A posted document is found by every later query sharing a term with its title or text", "statement": "After POST /nir of a document with a non-empty id, and any further POSTs, a search for any text sharing a preprocessed term with the document's title or text returns that id; a document with an empty id is rejected and changes nothing.", "quantifier": "every sequence of posts, every query text", "why_tests_cant": "end-to-end over all histories and texts", "anchors": ["main.go:main", "index/InvertedIndex.go:IndexDocument", "search/Standard.go:Search"]}
{"id": "C39", "title": "SecureSaveFile replaces the file and leaves nothing else behind", "statement": "When SecureSaveFile returns success, the named file holds exactly the new bytes, neither the _temp nor the _old sibling exists, and every other file is unchanged, whatever files existed before.", "quantifier": "every file system content, file name and buffer", "why_tests_cant": "all initial states, including leftovers of earlier crashes", "anchors": ["file/File.go:SecureSaveFile"]}
{"id": "C40", "title": "A crash inside SecureSaveFile always leaves the old or the new bytes on disk, but not always under the file's name", "statement": "At every crash point the old bytes are intact under the name or under the _old sibling, or the new bytes are intact under the name; a reader of the name never sees torn bytes. There is a crash point at which the name does not exist at all, and the next SecureSaveFile of that name then deletes the only copy of the old bytes.", "quantifier": "every crash point, initial state and buffer", "why_tests_cant": "crash points between system calls cannot be exercised by unit tests", "anchors": ["file/File.go:SecureSaveFile"]}
{"id": "C41", "title": "Saving one document's file never disturbs another's, except for ids ending in _temp or _old", "statement": "Saving the file for id a leaves the file for id b intact at every crash point whenever b is not a_temp or a_old; saving a does destroy the stored fields of documents named a_temp or a_old.", "quantifier": "every pair of ids and every crash point", "why_tests_cant": "all pairs of names and crash points", "anchors": ["file/File.go:SecureSaveFile", "storage/DiskIO.go:SaveDocumentFieldOnDisk"]}
{"id": "C42", "title": "Field metrics survive serialization up to 32 bits", "statement": "Deserializing a serialized (name,size,length) returns the same name and the same numbers, for all strings and all 32-bit values; a Go int outside the 32-bit range comes back reduced modulo 2^32 to the signed range.", "quantifier": "every byte string and integer", "why_tests_cant": "all values, including the zero values flatbuffers omits", "anchors": ["storage/Serialize.go:SerializeFieldSizeLength", "storage/Serialize.go:DeserializeFieldSizeLength", "storage/buffers/FieldMetrics.go"]}
{"id": "C43", "title": "Document-frequency tables survive serialization", "statement": "Deserializing a serialized term->count table returns the same table, for every map iteration order, with counts reduced to 32 bits.", "quantifier": "every table and iteration order", "why_tests_cant": "all maps", "anchors": ["storage/Serialize.go:SerializeNumberFieldTerm", "storage/Serialize.go:DeserializeNumberFieldTerm", "storage/buffers/FieldTerm.go", "storage/buffers/TermSize.go"]}
{"id": "C44", "title": "Document field maps survive serialization", "statement": "Deserializing a serialized field map returns the same map of fields (name, length, TF), for every iteration order, with integers reduced to 32 bits, although the writer uses the FieldEntry table and the reader the FieldMap table.", "quantifier": "every field map and iteration order", "why_tests_cant": "all nested maps", "anchors": ["storage/Serialize.go:SerializeFieldMap", "storage/Serialize.go:DeserializeFieldMap", "storage/buffers/FieldEntry.go", "storage/buffers/FieldMap.go", "storage/buffers/Field.go"]}
{"id": "C45", "title": "Index fragments survive serialization", "statement": "Deserializing a serialized term->documents table returns the same terms and the same document sets, for every iteration order, including terms with no documents.", "quantifier": "every table and iteration order", "why_tests_cant": "all nested maps", "anchors": ["storage/Serialize.go:SerializeIndex", "storage/Serialize.go:DeserializeIndex", "storage/buffers/Index.go", "storage/buffers/Term.go", "storage/buffers/Document.go"]}
{"id": "C46", "title": "Disk storage answers like Memory storage while it runs", "statement": "Started on an empty folder and used only through SaveOrUpdate, disk storage gives the same GetDocuments, GetIndex, GetFieldSize, GetFieldLength and GetNumberFieldTerm answers as memory storage for the same calls, whatever the background writers do. A bare UpdateIndex differs: memory counts it in the field size and length, disk does not.", "quantifier": "every history and every schedule of the background writers", "why_tests_cant": "refinement over all histories", "anchors": ["storage/DiskStorage.go:SaveOrUpdate", "storage/Memory.go:SaveOrUpdate"]}
{"id": "C47", "title": "Disk GetFields returns the last saved field while the cache can hold all documents", "statement": "As long as no more than cacheSize distinct documents are used since opening an empty folder, GetFields returns exactly the latest saved field for each requested document. Beyond that it can miss a document that was saved, and saving one field of a document that has been evicted (or was saved before a restart) erases the document's other fields, in memory and on disk.", "quantifier": "every history, cache size and flush schedule", "why_tests_cant": "eviction/flush interleavings over all histories", "anchors": ["storage/DiskStorage.go:GetFields", "storage/DiskStorage.go:UpdateFieldDocument"]}
{"id": "C48", "title": "No indexed posting is lost between SaveOrUpdate and the index file", "statement": "At every point of every crash-free execution each posting added by SaveOrUpdate is about to be sent, in the channel, in the writer's buffer, in a fragment file or in the index file (or, while the merger is between the two renames of the index file, in index_temp); once the writers are quiet and a merge has completed it is in the index file, and reopening the folder yields exactly the index that was in memory.", "quantifier": "every interleaving of saves, channel receives, fragment flushes and merge steps", "why_tests_cant": "interleavings of three goroutines and file operations", "anchors": ["storage/DiskStorage.go:UpdateIndex", "storage/DiskIO.go:SaveIndexOnDisk", "storage/DiskIO.go:LoadIndexOnHD"]}
{"id": "C49", "title": "Merging fragments is idempotent and a crash during the clean-up is harmless", "statement": "Loading the index merges fragments into the index file; loading again changes nothing, and a crash at any point after the new index file is in place and before all fragments are deleted leaves a folder that loads to the same index.", "quantifier": "every folder content and crash point in the clean-up", "why_tests_cant": "crash points and folder contents are unbounded", "anchors": ["storage/DiskIO.go:LoadIndexOnHD"]}
{"id": "C50", "title": "Crash safety of the index: what reopening can and cannot lose", "statement": "After a crash at any point, the reopened index contains only postings that were really saved; it contains every posting that had reached a complete fragment file or the index file, except when the crash hits between the two renames of the index file, in which case the whole merged index of that field disappears and the next open deletes the remaining copy.", "quantifier": "every crash point of every execution", "why_tests_cant": "crash points cannot be enumerated", "anchors": ["storage/DiskIO.go:LoadIndexOnHD", "storage/DiskIO.go:SaveIndexOnDisk", "file/File.go:SecureSaveFile"]}
{"id": "C51", "title": "A half-written fragment makes the store impossible to open", "statement": "Fragment files are written in place: if a crash (or a concurrent merge) meets a partially written fragment, decompression panics; after such a crash every attempt to open the folder panics until the file is removed.", "quantifier": "every folder containing a torn fragment", "why_tests_cant": "requires a crash inside a file write", "anchors": ["storage/DiskIO.go:SaveIndexOnDisk", "storage/DiskIO.go:LoadIndexOnHD", "file/File.go:DecompressData"]}
{"id": "C52", "title": "Document frequencies on disk hold only the terms of the last flush", "statement": "After the document-frequency writer flushes, the file of a field holds exactly the terms updated since the previous flush of that field, with their current counts; so a term untouched since the previous flush has frequency 0 after reopening although it is still indexed, and reopening reproduces the in-memory table only if every term was updated after the previous flush.", "quantifier": "every history and flush schedule", "why_tests_cant": "depends on flush timing relative to every save", "anchors": ["storage/DiskIO.go:SaveNumberFieldTermOnDisk", "storage/DiskIO.go:LoadNumberFieldTermOnHD", "storage/DiskStorage.go:UpdateNumberFieldTerm"]}
{"id": "C53", "title": "Field size and length survive a flush and reopen", "statement": "Once the metrics writer has received every update and flushed, reopening gives the in-memory field sizes and lengths reduced to 32 bits, for every history and flush schedule; fields named docs are the exception because the loader skips that directory.", "quantifier": "every history and flush schedule", "why_tests_cant": "all histories and flush timings", "anchors": ["storage/DiskIO.go:SaveFieldSizeLengthOnDisc", "storage/DiskIO.go:LoadFieldSizeLengthOnHD", "file/File.go:ListDirectories"]}
{"id": "C54", "title": "Stored document fields on disk are the last flushed version", "statement": "Once the document writer has received every update and flushed, the file of each document saved in this session holds the field map last built for it (integers reduced to 32 bits), and no other document's file is changed.", "quantifier": "every history and flush schedule", "why_tests_cant": "all histories and flush timings", "anchors": ["storage/DiskIO.go:SaveDocumentFieldOnDisk", "storage/DiskIO.go:LoadFieldDocumentOnHD"]}
{"id": "C55", "title": "SaveOrUpdate never deadlocks against the background writers", "statement": "In every reachable state in which a SaveOrUpdate call is in progress, some step is enabled, and every fair execution completes the call: the writers' channels (unbuffered and of capacity 100) always become ready.", "quantifier": "every interleaving", "why_tests_cant": "deadlock freedom over all interleavings", "anchors": ["storage/DiskStorage.go:SaveOrUpdate", "storage/DiskIO.go"]}
{"id": "C56", "title": "What interleaved calls on one storage can and cannot lose", "statement": "Disk and Memory storages take no lock, so concurrent SaveOrUpdate and UpdateIndex calls (one goroutine per HTTP request) interleave their map reads and writes. For every number of goroutines, every program and every interleaving: the number of documents of a field grows by at least one and at most the number of calls, the total length by the lengths of some of the calls, and each value in between is reached by some interleaving; no document is listed under a term no call stored it under; once a term is listed and no call is in progress, later calls lose no posting of it, but two first calls for a field can erase all postings of one of them; the Memory storage loses no document saved by one goroutine only, but can lose a field of a document saved by two; every execution can be completed; calls that do not overlap behave like the sequential storage; two calls on any fields can come to write the same map at once.", "quantifier": "all programs of any number of goroutines, all interleavings of map accesses, all intermediate states", "why_tests_cant": "a race visible only in particular interleavings", "anchors": ["storage/DiskStorage.go:UpdateFieldSizeLength", "storage/DiskStorage.go:UpdateIndex", "storage/DiskStorage.go:UpdateNumberFieldTerm", "storage/Memory.go:UpdateIndex", "storage/Memory.go:SaveOrUpdate", "main.go:main"]}
{"id": "C57", "title": "Field names and document ids lead to distinct files inside the root folder when they are simple names", "statement": "For names that are non-empty, contain no '/' and are not '.' or '..': every path the storage builds is inside the root folder; distinct fields, files of a field, documents and posting files are distinct paths (also the _temp and _old paths used while saving, except that a document id ending in _temp or _old is the temporary path of another document); what is written is what is read. Any name has an alias (with a trailing slash); names starting with ../ leave the folder (field ../x and document ../../../x become neighbours of the root folder); a field called docs has the folder of the documents as its metrics file. filepath.Clean returns the shortest path to the same target.", "quantifier": "all strings as root folder, field names, document ids and uuids", "why_tests_cant": "all strings", "anchors": ["storage/DiskIO.go", "file/File.go:SecureSaveFile", "file/File.go:ListDirectories"]}
{"id": "C58", "title": "Flatbuffers bytes decode to what was encoded", "statement": "The byte layout produced by the builder calls of the Serialize functions is read back by the generated accessors to the same values, at the byte level (offsets, vtables, padding, little-endian integers).", "quantifier": "every table tree produced by the Serialize functions", "why_tests_cant": "a codec round-trip over all values", "anchors": ["storage/Serialize.go", "storage/buffers"]}
{"id": "C59", "title": "What was saved reaches the disk without an explicit flush", "statement": "With the background goroutines scheduled fairly and their tickers running: every posting in memory at some moment is in the index files from some later moment on, for ever; if no more calls to SaveOrUpdate or UpdateIndex are made, then from some moment on all buffers are empty, and the process may end at any later point (for the index: not between the two renames that replace the index file) and reopening the folder gives the index in memory, the sizes and lengths reduced to 32 bits, and, in a session whose documents fit the cache, the latest fields of every document.", "quantifier": "every infinite fair execution with running tickers", "why_tests_cant": "a liveness property: no finite test can refute or establish it", "anchors": ["storage/DiskIO.go:SaveFieldSizeLengthOnDisc", "storage/DiskIO.go:SaveIndexOnDisk", "storage/DiskIO.go:SaveDocumentFieldOnDisk", "storage/DiskStorage.go:NewDiskStore"]}
{"id": "C60", "title": "Searching over the disk storage", "statement": "Any number of goroutines (the batches of Index.Search and of concurrent searches) may call GetFields at once on a disk store nobody is saving to. On a store that was never restarted and whose cache can hold every saved document, each call returns, for every requested id, the field last saved for it, whatever the interleaving of the calls with each other, with the four writers and with the merger; no call panics, each can finish, and GetDocuments, the sizes, lengths and document frequencies do not change meanwhile. On a store just reopened and only read since, the same holds with the contents of the document files, for any cache size, evictions included. Consequently Index.Search and Standard.Search over a never restarted disk store that received only SaveOrUpdate calls return exactly the results of the same searches over a memory store with the same history. After everything has been flushed and the folder has been reopened (the process not ended between the merger's two renames), every Index.Search finds the same documents, with their fields as the files keep them (32-bit numbers). But the ranking of Standard.Search is not preserved by a restart: with everything flushed, the document frequencies of terms not touched since the previous flush are lost, and two documents change places.", "quantifier": "All reachable stores, all sets of readers and requests, all interleavings of the readers with the writers and the merger, all searches.", "why_tests_cant": "Depends on the interleaving of several readers with five background goroutines and on the restart history; a test sees one schedule.", "anchors": ["storage/DiskStorage.go: Disk.GetFields", "index/InvertedIndex.go: Index.Search", "search/Standard.go: Standard.Search", "storage/DiskIO.go: DiskIO.SaveNumberFieldTermOnDisk"]}
{"id": "C61", "title": "Searching the memory store while other goroutines save", "statement": "While other goroutines call SaveOrUpdate and UpdateIndex on the same Memory storage without a lock, a Search that returns (a) contains every document that was stored and listed under one of the terms at an earlier moment at which no call on that document or field was in progress, with the field it had then or one saved since; (b) contains no document with a field that was not saved for it, and none that no call listed under one of the terms; (c) uses a document count and a total length that the store had at moments during the search (possibly two different moments, so that the average can be one that the store had at no moment), and for each term a frequency between the one before and the number of saves counting it; (d) never panics on its channels and can always finish without the writers. But the Go runtime may stop the process: search and writer can access one map at the same time. That is the only way they affect each other: where no goroutine of the search accesses a map that a writer is about to write to, a step of a writer leaves exactly the same next steps to the search.", "quantifier": "every program of every number of writer goroutines, every set of terms, every interleaving of the map accesses of the writers and of the goroutines of the search", "why_tests_cant": "needs every interleaving of three kinds of goroutines at the granularity of map accesses; the race detector sees only schedules that occur", "anchors": ["index/InvertedIndex.go:Search", "storage/Memory.go:GetDocuments", "storage/Memory.go:GetFields", "storage/Memory.go:GetNumberFieldTerm", "storage/Memory.go:SaveOrUpdate"]}
{"id": "C62", "title": "Scores computed in binary64 are the exact scores up to a stated error", "statement": "With every number of documents, total length, document frequency, term frequency and field length below 2^53, boosts 0 or between 2^-500 and 2^500, and a math.Log that is accurate to 2^-51 on arguments at least 1: every score that Search returns is a finite non-negative number (no NaN, no infinity) that differs from the exact BM25 score by at most B*m*n*(m+n+8)/2^43, where m is the number of queries, n the largest number of terms and B the largest boost; the returned list is ordered by the exact scores up to twice that error, whatever the schedule, so that a document that clearly wins is returned first. The literals 0.5 and 0.75 and integers below 2^53 are exact, and 1.2 is the nearest double.", "quantifier": "every view of a storage, every list of queries, every schedule of the search goroutines, every accurate logarithm, every history of saves of the memory index", "why_tests_cant": "rounding errors must be bounded for all inputs; a test compares a few scores with decimals computed by the same formula", "anchors": ["similarity/BM25.go:BM25", "metric/IDF.go:IdfBM25", "search/Standard.go:Search"]}
{"id": "C63", "title": "The HTTP service on the disk storage finds what was posted, before and after a restart", "statement": "The server of main.go (disk storage, started on an empty folder, POST requests handled one after the other, background goroutines at any pace): GET /nir finds exactly the documents of the POST requests answered with 201 that share a term with the query in the title or the text; with none the answer is 200 with an empty list, with one to nine the handler panics, with ten or more it returns ten different ones; status codes are 201 for a bound document with a non-empty id and 400 otherwise. If all buffers are flushed (which happens eventually when no more POST requests arrive, the goroutines are scheduled fairly and the tickers run) the process may end at any point other than between the two renames of an index file, and after a restart with any cache size GET finds exactly the same documents, provided the ids are single path components that do not end in _temp or _old and do not outnumber the cache. An id with a slash stops the server at the next tick of the document writer although the POST was answered with 201.", "quantifier": "every sequence of request bodies, every JSON binding and text pipeline, every schedule of the writers, the merger and the search, every number of CPUs, every later cache size", "why_tests_cant": "refinement of two stores and of the service over all histories and schedules, with crash points", "anchors": ["main.go:main", "storage/DiskStorage.go", "storage/DiskIO.go", "index/InvertedIndex.go:Search", "search/Standard.go:Search"]}
{"id": "C64", "title": "Searching the disk store while the client saves", "statement": "While one goroutine calls SaveOrUpdate on a Disk store and any number of others call Search, with the background writers and the merger at any pace: (a) if the cache has room for every document, a search that starts after a SaveOrUpdate has returned finds the document under each of its terms, with the field saved or one saved later, provided nobody was searching during the first SaveOrUpdate of this document since the store was opened; (b) whatever the cache size, a search never returns a document that was not saved or indexed under one of its terms, nor a field that was not saved for that document under that name (after a reload with 32-bit numbers); (c) the total length, the number of documents and each term count in the answer are those of the store at moments during the search, possibly different ones: those of a moment before the search at which the client was idle, with some of the calls made since, in their order, added; (d) no search panics, and each can always finish by its own steps alone. (h) Whatever the cache size, a document of an earlier session that is not saved in this one is found by every search for a term the index listed it under when the store was opened, with the field of its file. But (e) a search in progress that has read the file of a document puts it into the cache after a SaveOrUpdate of the document has returned: later searches miss that SaveOrUpdate, and the next SaveOrUpdate of the document erases it from disk, with no crash; (f) the average can be that of no moment; (g) search and client can access one map at the same time, where the Go runtime may stop the process.", "quantifier": "every sequence of calls of the client, every number of searches with every terms and field, every cache size and number of CPUs, every interleaving of the map, cache and file accesses of searches, client, writers and merger, every history of crashes and restarts before", "why_tests_cant": "needs every interleaving of several searches, each with its own goroutines, with the client and five background goroutines; the cache race needs one particular interleaving", "anchors": ["index/InvertedIndex.go:Search", "storage/DiskStorage.go:GetFields", "storage/DiskStorage.go:UpdateFieldDocument", "storage/DiskStorage.go:GetDocuments", "storage/DiskStorage.go:GetNumberFieldTerm", "cache/LRU.go"]}
{"id": "C65", "title": "GET requests while documents are posted", "statement": "While the handler of POST requests stores documents in a Disk store and any number of GET requests are handled at once: (a) the answer of Standard.Search is the ranking made from one answer of Index.Search per query, each called after the request arrived: every document found by a query once, with the sum of its scores, highest first; (b) if the cache has room for every document, a GET request that arrives after a POST request was answered with 201 finds that document whenever its title or text shares a term with the query, provided no search was in progress while the document was first posted; posting it again may overlap with searches; (c) a document stored by an earlier run of the server, listed in the index and not posted since, is found by every GET request, whatever the cache size; (d) a GET request finds only documents that some POST request carried and that share a term with it, across restarts; its response is empty if none does, a dropped connection (panic) if between one and nine documents match and one is found, and ten results if ten are found; (e) no goroutine of a GET request panics on the way and each request can always be finished by the steps of GET requests alone, whatever the handler of POST requests and the writers do.", "quantifier": "every sequence of POST and GET requests with every content, every interleaving of any number of GET requests with the handler of POST requests, the writers and the merger, every cache size and number of CPUs, every history of crashes and restarts before", "why_tests_cant": "needs every interleaving of several requests, each with a goroutine per query, each of those with its own searching goroutines, with the storing handler and five background goroutines", "anchors": ["main.go:main", "search/Standard.go:Search", "index/InvertedIndex.go:Search", "storage/DiskStorage.go:SaveOrUpdate", "storage/DiskStorage.go:GetFields", "cache/LRU.go"]}
{"id": "C66", "title": "Several POST requests at once on the disk store", "statement": "When any number of goroutines call SaveOrUpdate on one Disk store at once (gin serves every POST request in a goroutine of its own and the store has no lock), with the background writers and the merger at any pace and crashes at any point: (a) every posting (field, term, document) of a call of this session that has returned, and every posting the open store shows, is on its way to the index folder (about to be sent, in the channel, in the writer's buffer) or in its files; once it is in the files it stays there through later calls, crashes and restarts, except for a crash in the gap of the merge (C52); (b) nothing is shown, sent or on disk that was not saved under that field, term and document; (c) when all requests have been served and the index writer has nothing left (and no merge is in its gap), the reopened store lists at least every posting saved in the session and shown in memory, and only saved ones; (d) the number of documents of a field grows by at least one and at most the number of saves, the total length by the lengths of some of the saves; (e) the file of a document is readable and each of its fields was saved for that document under that name, likewise the cached copy; (i) without further requests and ticks the goroutines come to rest after finitely many steps in whatever order they take them, and then every request is served, unless the process is about to end with an error; (j) after any history the number of documents, the total length and the document frequency of a term never exceed what was saved, neither in the open store nor in a reopened one (lengths not negative, totals below 2^31, which is what the files keep), the files of the counters can always be read, and a field saved in the session counts at least one document on disk once the writer has nothing left to write for it; (k) when all requests are served and the document writer has nothing left to write for a document saved in the session, the document's file can be read and holds a field of it saved in the session, the field itself if only one was saved; (l) with the tickers running for ever, searches being called and the merger at work, when no POST request arrives any more and the writers and the goroutines of the requests are scheduled fairly (each moves again unless it can never move from some time on), every request is served at some moment, provided the process is never about to end. But (f) two first saves of a field at once can leave the first document unfindable until the next restart, after both calls have returned; (g) the counters on disk can stay behind those in memory with nothing left to write; (h) two saves of different fields of one document at once can lose one of the fields on disk.", "quantifier": "every number of goroutines with every sequence of calls, every interleaving of their map, cache and channel operations with the writers and the merger, every cache size, every history of crashes and restarts", "why_tests_cant": "needs every interleaving of any number of callers with five background goroutines and every crash point", "anchors": ["main.go:main", "storage/DiskStorage.go:SaveOrUpdate", "storage/DiskStorage.go:UpdateIndex", "storage/DiskStorage.go:UpdateFieldDocument", "storage/DiskIO.go"]}
{"id": "C67", "title": "JSON documents are found, from decoding to restart", "statement": "After the importer has decoded, flattened, preprocessed and indexed JSON documents on the disk storage: (a) a search finds exactly the documents that have, at the dotted path named by some query's field, a leaf sharing a term with the query (values that are not strings take part through their %s formatting), for objects whose keys have no dots; for any keys nothing else is found; (b) a document's id is its top-level Id, a generated one only if that is absent or empty; (c) the number of documents and the total number of terms of a field, from which scores are computed, are those of the documents that have the field; (d) if the ids are distinct and nothing is read during the import then, once flushed, a process that ends at any moment (outside the two renames of an index file) and is started again finds exactly the same documents, however small the document cache; with fair scheduling this holds from some moment on. Consequence: a search for the word float64 finds every document with a number in that field.", "quantifier": "every sequence of JSON documents, every iteration order of every map, every query list, every interleaving with the background goroutines, every cache size, every crash point", "why_tests_cant": "needs every JSON shape, map iteration order, background schedule and crash point at once", "anchors": ["main.go:mainxcrt", "main.go:Preprocessing", "field/FieldProcess.go:Flatten", "field/FieldProcess.go:GetID", "index/Index.go:IndexDocument", "storage/DiskStorage.go:NewDiskStore", "search/Standard.go:Search"]}
{"id": "C68", "title": "Searches and several POST requests at once on the disk store", "statement": "While any number of goroutines save and any number of goroutines search on one Disk store, with the background writers at any pace, after any crashes and reopenings, for every cache size: (a) a search finds only documents that were saved under one of its terms in the field searched, and the field returned with a document is one that was saved for it under that name (its length as the file format keeps it); (b) the total length and the number of documents that a search uses were those of the store at some moment between its start and its end, though perhaps not the same moment; (c) they and the document frequencies never exceed what was saved, with one frequency for each term of the query; (d) no search sends on a closed channel or stops the process; (e) a search in progress can always run to its end by its own steps alone, whatever requests, writers and other searches are doing; (f) a document of an earlier run that the index lists under a term when the store is opened, that has its file, and that no call of this run saves, is found, with the field of its file, by every search for that term, whatever the cache size and whatever else is saved and searched meanwhile; (g) while the cache has room for every document, a document that is listed and cached at a moment when nothing is in progress, in particular one saved while nothing else was in progress, is found by every search for its terms that starts later in the run, with that field or one saved for it since, whatever else is saved and searched meanwhile.", "quantifier": "every number of goroutines that save and that search, every content of their calls, every interleaving of all their map, cache, channel and file accesses with the five background goroutines, every cache size, every history of crashes and restarts", "why_tests_cant": "needs every interleaving of several searches, each with goroutines of its own, with several requests and the background goroutines", "anchors": ["main.go:main", "index/InvertedIndex.go:Search", "storage/DiskStorage.go:GetFields", "storage/DiskStorage.go:SaveOrUpdate", "storage/DiskStorage.go:GetLength", "storage/DiskStorage.go:GetNumberFieldTerm", "cache/LRU.go"]}
{"id": "C69", "title": "The whole HTTP service with any number of requests at once", "statement": "While any number of GET and POST requests are handled at the same time on the disk storage, with the background writers at any pace and across crashes and restarts: (a) the answer to a GET request is the ranking of what its searches found: each document once, with the sum of its scores over the queries that found it, in descending order; each search was started after the request arrived; (b) it contains only documents that were posted, at any time since the folder was created, and that share a term with the request; (c) if none does, the response is status 200 with no results; if one is found but at most nine posted documents match, the handler panics; if ten are found, the response is status 200 with ten different posted documents that match; (d) a GET request in progress can always be answered by its own goroutines' steps, whatever POST handlers and writers do; (e) no goroutine of a GET request panics or stops the process; (f) without further POST requests the handlers and the writers come to rest, and then every POST request has been served unless the process is about to end; (g) a document of an earlier run that the index lists under a term of the request when the store is opened, whose file has that field, and that is not posted in this run, is found; (h) a document whose POST request was answered before a quiet moment is still found by the GET requests that share a term with it after the process ends there and is restarted, if its file has the field, until it is posted again; (i) a complete document posted while no other POST request and no search of the store was in progress is found by every GET request that arrives later in the same run and shares a term with its title or text, whatever is handled at the same time, as long as the cache has room for every document. But (j) a document posted (and answered 201) while another POST request was handled may not be found by a later GET request that shares a term with it, even if nothing else is in progress by then and the cache has room. (k) When no request arrives, all the goroutines there are - of requests, of their searches and of the storage - come to rest after finitely many steps, in whatever order they take them; then every GET request has its results, and every POST request has been served unless the process is about to end. (l) With the tickers running for ever, at any pace, the goroutines of the requests still take only finitely many steps when no more requests arrive; as long as a GET request is not answered some goroutine of a GET request can take a step; and if they then do take one at some time, at some moment all GET requests are answered, whatever the POST handlers and the writers do or do not do. (m) When no POST request arrives any more, however many GET requests do, the tickers run for ever, and each writer and the POST handlers move again unless they can never move from some time on, then from every moment on there is a moment at which all POST requests have been served.", "quantifier": "every number of GET and POST requests, every content, every interleaving of all the goroutines' accesses to maps, cache, channels and files, every cache size, number of CPUs, history of crashes and restarts, number type of the scores", "why_tests_cant": "needs every interleaving of any number of requests, each with several goroutines, with the background writers, and every crash point", "anchors": ["main.go:main", "search/Standard.go:Search", "index/InvertedIndex.go:Search", "storage/DiskStorage.go:SaveOrUpdate", "storage/DiskStorage.go:GetFields", "cache/LRU.go"]}
