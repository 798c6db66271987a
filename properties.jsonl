{"id": "C01", "title": "FNV hashes are streaming and every entry point agrees with the published definition", "statement": "For FNV-1 and FNV-1a, feeding data to a fresh hash in any number of pieces, through any mix of Write, WriteString, WriteByte and WriteUint64 (big-endian), gives the same Sum64 as the one-shot functions Sum64/String64 (Sum64a/String64a) on the concatenation, and that value is the published recurrence (multiply by 1099511628211 modulo 2^64 and xor the byte, in the order the variant prescribes, starting from 14695981039346656037).", "quantifier": "every sequence of write calls and every byte content, both variants", "why_tests_cant": "the space of byte strings and of ways to cut them into calls is infinite", "anchors": ["internal/hash/fnv/fnv.go:Fnv64.Write", "internal/hash/fnv/fnv.go:Fnv64.WriteByte", "internal/hash/fnv/fnv.go:Fnv64.WriteString", "internal/hash/fnv/fnv.go:Fnv64.WriteUint64", "internal/hash/fnv/fnv.go:Fnv64a.Write", "internal/hash/fnv/fnv.go:Sum64", "internal/hash/fnv/fnv.go:Sum64a", "internal/hash/fnv/fnv.go:String64", "internal/hash/fnv/fnv.go:String64a"]}
{"id": "C02", "title": "FNV never collides on inputs that differ in exactly one byte", "statement": "Two inputs of equal length that differ in exactly one byte position never have the same Sum64 (nor Sum64a); more generally appending the same suffix to two different hash states keeps them different.", "quantifier": "all inputs, all positions, all byte pairs, both variants", "why_tests_cant": "a statement about all pairs of inputs of unbounded length", "anchors": ["internal/hash/fnv/fnv.go:Sum64", "internal/hash/fnv/fnv.go:Sum64a"]}
{"id": "C03", "title": "Sum appends the 8 big-endian bytes of the hash", "statement": "Sum(buf) returns buf unchanged as a prefix followed by exactly 8 bytes whose big-endian value is Sum64, and calling it does not alter the hash state.", "quantifier": "all hash states and all buffers", "why_tests_cant": "universally quantified over states reached by any input", "anchors": ["internal/hash/fnv/fnv.go:sum", "internal/hash/fnv/fnv.go:Fnv64.Sum", "internal/hash/fnv/fnv.go:Fnv64a.Sum"]}
{"id": "C04", "title": "Bit bucket: a read returns the last value written, capped, and no other bucket changes", "statement": "After Set(i,v) on a bucket collection of any size and any width 1..8, Get(i) is min(v, 2^w-1), and Get(j) is unchanged for every other in-range j.", "quantifier": "all sizes n, widths 1..8, stored contents, indices i,j<n and values v", "why_tests_cant": "packed fields straddle byte boundaries in 8x8 alignments over unbounded sizes and arbitrary contents", "anchors": ["internal/bitbucket/bitbucket.go:Get", "internal/bitbucket/bitbucket.go:Set", "internal/bitbucket/bitbucket.go:extract"]}
{"id": "C05", "title": "Bit bucket increment saturates", "statement": "After IncN(i,v), Get(i) is min(old + v, 2^w-1) - it never wraps - and no other bucket changes.", "quantifier": "all sizes, widths, contents, indices, increments", "why_tests_cant": "same as C04, plus saturation at every width", "anchors": ["internal/bitbucket/bitbucket.go:IncN", "internal/bitbucket/bitbucket.go:incn"]}
{"id": "C06", "title": "Bit bucket refines an array of small counters", "statement": "Starting from New(n,w), any sequence of Set, IncN and Reset leaves Get/CountN/Count/Max/Width/Len answering exactly as an array of n saturating counters of maximum 2^w-1 would, and never panics for in-range indices.", "quantifier": "all operation sequences, sizes and widths", "why_tests_cant": "unbounded operation histories", "anchors": ["internal/bitbucket/bitbucket.go:New", "internal/bitbucket/bitbucket.go:Set", "internal/bitbucket/bitbucket.go:IncN", "internal/bitbucket/bitbucket.go:Reset", "internal/bitbucket/bitbucket.go:CountN", "internal/bitbucket/bitbucket.go:Max", "internal/bitbucket/bitbucket.go:Len"]}
{"id": "C07", "title": "Bit bucket serialisation round-trips", "statement": "WriteTo emits exactly Len bytes and reports that count; ReadFrom on those bytes, delivered in any fragmentation, and WithBytes on them restore an equal bucket collection (same n, w and every value).", "quantifier": "all bucket collections, all reader fragmentations", "why_tests_cant": "infinitely many contents and fragmentations", "anchors": ["internal/bitbucket/bitbucket.go:WriteTo", "internal/bitbucket/bitbucket.go:ReadFrom", "internal/bitbucket/bitbucket.go:WithBytes", "internal/bitbucket/bitbucket.go:Len"]}
{"id": "C08", "title": "Bit bucket deserialisation accepts only well-formed input", "statement": "ReadFrom/WithBytes succeed only on input with the right version, a supported width and enough bytes (ReadFrom: no trailing bytes), and a success yields a collection whose in-range Get never panics; otherwise an error is returned and nothing panics.", "quantifier": "all byte strings and reader behaviours", "why_tests_cant": "adversarial headers (huge n, width 0 or >8, readers that return data together with EOF) are outside any finite test set", "anchors": ["internal/bitbucket/bitbucket.go:ReadFrom", "internal/bitbucket/bitbucket.go:WithBytes", "internal/bitbucket/bitbucket.go:length"]}
{"id": "C09", "title": "A bucket collection opened on a buffer writes through to it", "statement": "After WithBytes(buf), a Set/IncN on the collection changes buf into exactly the serialisation of the changed collection and leaves every byte outside the record (and the header) untouched.", "quantifier": "all buffers, including longer-than-needed ones, and all writes", "why_tests_cant": "aliasing over all buffer contents and offsets", "anchors": ["internal/bitbucket/bitbucket.go:WithBytes", "internal/bitbucket/bitbucket.go:Set"]}
{"id": "C10", "title": "Bloom filter has no false negatives", "statement": "After any sequence of Add calls, Has returns true for every added value, whatever else was added before or after.", "quantifier": "all sizes m>=1, all k, all add sequences, all values", "why_tests_cant": "hash positions and interleavings of adds are unbounded", "anchors": ["internal/summary/bloom/bloom.go:Add", "internal/summary/bloom/bloom.go:Has", "internal/summary/bloom/bloom.go:newHasher", "internal/summary/bloom/bloom.go:next"]}
{"id": "C11", "title": "Bloom filter membership answers survive serialisation", "statement": "WriteTo then ReadFrom (or WithBytes) yields a filter that answers Has identically for every value, and Len is the number of bytes written.", "quantifier": "all filters, all values, all reader fragmentations", "why_tests_cant": "all filters and all values", "anchors": ["internal/summary/bloom/bloom.go:WriteTo", "internal/summary/bloom/bloom.go:ReadFrom", "internal/summary/bloom/bloom.go:WithBytes", "internal/summary/bloom/bloom.go:Len"]}
{"id": "C12", "title": "An empty or reset Bloom filter contains nothing, and membership only grows", "statement": "A new filter, or any filter after Reset, with k>=1 answers false for every value; once Has(v) is true it stays true under further Adds.", "quantifier": "all values, all histories", "why_tests_cant": "quantifies over all values and histories", "anchors": ["internal/summary/bloom/bloom.go:NewBits", "internal/summary/bloom/bloom.go:Reset", "internal/summary/bloom/bloom.go:Has", "internal/summary/bloom/bloom.go:Add"]}
{"id": "C13", "title": "HyperLogLog state depends only on the set of items added", "statement": "Two counters of equal precision to which the same set of items was added, in any order and with any repetition, are in identical states (so Count and the serialised bytes agree); re-adding a seen item changes nothing.", "quantifier": "all precisions 4..18, all item sequences", "why_tests_cant": "orders and multiplicities are unbounded", "anchors": ["internal/summary/hll/hll.go:Add", "internal/summary/hll/hll.go:Count"]}
{"id": "C14", "title": "HyperLogLog registers hold the published statistic", "statement": "Register j of a counter equals the maximum, over the added items whose hash has j as its top p bits, of one plus the number of leading zeros in the remaining 64-p hash bits (0 if there is none); it never exceeds 65-p, so it always fits its 6 bits.", "quantifier": "all precisions, all item sequences, all registers", "why_tests_cant": "unbounded histories and 64-bit hashes", "anchors": ["internal/summary/hll/hll.go:Add", "internal/summary/hll/hll.go:New", "internal/summary/hll/hll.go:initParams"]}
{"id": "C15", "title": "HyperLogLog operations never panic at supported precisions", "statement": "For p in [4,18], New, Add, the register histogram used by Count, and WithBytes on a serialised counter never index out of range; New panics for every other p.", "quantifier": "all precisions, all histories", "why_tests_cant": "index safety over all histories", "anchors": ["internal/summary/hll/hll.go:New", "internal/summary/hll/hll.go:Add", "internal/summary/hll/hll.go:poisson"]}
{"id": "C16", "title": "HyperLogLog serialisation round-trips", "statement": "WriteTo emits exactly Len(p) bytes; ReadFrom (any fragmentation) and WithBytes on them restore an identical counter; an Add through WithBytes leaves in the buffer exactly the serialisation of the updated counter.", "quantifier": "all counters and items, all fragmentations", "why_tests_cant": "all counter states", "anchors": ["internal/summary/hll/hll.go:WriteTo", "internal/summary/hll/hll.go:ReadFrom", "internal/summary/hll/hll.go:WithBytes", "internal/summary/hll/hll.go:Len"]}
{"id": "C17", "title": "HyperLogLog count of zero and one distinct items", "statement": "Count of an empty counter is 0; count of a counter that saw exactly one distinct item (any number of times) is 1.", "quantifier": "all precisions, all items", "why_tests_cant": "all items and repetitions", "anchors": ["internal/summary/hll/hll.go:Count"]}
{"id": "C18", "title": "HyperLogLog distinguishes values that differ only in their last byte", "statement": "Adding values that share a prefix and differ in their last byte should be counted as distinct values, i.e. should be able to occupy different registers.", "quantifier": "all prefixes, all precisions", "why_tests_cant": "a systematic hash weakness across all prefixes cannot be settled by sampling random data", "anchors": ["internal/summary/hll/hll.go:Add", "internal/hash/fnv/fnv.go:Sum64"]}
{"id": "C19", "title": "Statistical summary records exactly the running fold of the observations", "statement": "After any sequence of Update/UpdateMulti calls on a zeroed summary, Count is the number of observations (mod 2^64), Sum is the left-to-right float64 sum, Mean and the squared-deviation accumulator are the Welford recurrences, however the observations were batched; Variance is NaN below two observations and accumulator/(count-1) otherwise; Reset restores the zero summary; bytes past the 32-byte record are never touched.", "quantifier": "all observation sequences and batchings, including NaN and infinities", "why_tests_cant": "unbounded sequences of arbitrary float64s", "anchors": ["internal/summary/stat64/stats.go:Update", "internal/summary/stat64/stats.go:UpdateMulti", "internal/summary/stat64/stats.go:Count", "internal/summary/stat64/stats.go:Sum", "internal/summary/stat64/stats.go:Mean", "internal/summary/stat64/stats.go:Variance", "internal/summary/stat64/stats.go:Reset"]}
{"id": "C20", "title": "In exact arithmetic the summary's mean and variance are the true mean and sample variance", "statement": "The update recurrence, evaluated without rounding, yields after n observations mean = (sum x)/n and accumulator = sum (x-mean)^2, hence the textbook sample variance.", "quantifier": "all real sequences of length n", "why_tests_cant": "an algebraic identity over all sequences", "anchors": ["internal/summary/stat64/stats.go:Update", "internal/summary/stat64/stats.go:Variance"]}
{"id": "C21", "title": "Sums of integers are exact below 2^53", "statement": "If every observation is an integer and no running total exceeds 2^53 in magnitude, Sum is exactly the integer total, in every order of arrival.", "quantifier": "all integer sequences within the bound", "why_tests_cant": "infinitely many sequences and orders", "anchors": ["internal/summary/stat64/stats.go:Update", "internal/summary/stat64/stats.go:Sum"]}
{"id": "C22", "title": "Variance is never negative", "statement": "For finite observations, the reported variance is never negative.", "quantifier": "all sequences of finite float64 observations", "why_tests_cant": "rounding could break it for some sequence that no test hits", "anchors": ["internal/summary/stat64/stats.go:Update", "internal/summary/stat64/stats.go:Variance"]}
{"id": "C23", "title": "Rows and queries with the same key fields address the same record, irrespective of field order and of other fields", "statement": "The record key derived from a row depends only on the values of the schema's key fields: reordering fields (unique names) or adding/removing non-key fields does not change it, and a query whose criteria name the same key values derives the same key; derivation fails exactly when a key field is missing.", "quantifier": "all rows, queries, key lists", "why_tests_cant": "all permutations and all extra fields", "anchors": ["internal/collation/schema.go:FVList.KeyValue", "internal/collation/schema.go:Row.KeyValue", "internal/collation/schema.go:Query.KeyValue"]}
{"id": "C24", "title": "Each unique set of key values has its own record", "statement": "Rows whose key fields differ in value are aggregated in different records.", "quantifier": "all pairs of rows", "why_tests_cant": "a collision is a property of pairs of inputs", "anchors": ["internal/collation/schema.go:FVList.KeyValue", "internal/storage/storage.go:Store.Write"]}
{"id": "C25", "title": "Compiled layout is sound", "statement": "For every schema, the buffer ranges the compiled collator gives to its writers lie within Size and are pairwise disjoint, every reader reads exactly the range one writer for the same field maintains, with a compatible measure, and every readable (field, measure) pair is exactly one the schema declares.", "quantifier": "all schemas", "why_tests_cant": "all lists of measures over all fields, including repeated fields and measures", "anchors": ["internal/collation/compile.go:Schema.Compile"]}
{"id": "C26", "title": "count(*) counts rows", "statement": "After any successful sequence of rows applied to a record, count(*) reads the number of rows applied (as a float64).", "quantifier": "all schemas with a row count, all row sequences", "why_tests_cant": "unbounded histories and schemas", "anchors": ["internal/collation/measure.go:Count", "internal/collation/schema.go:Collator.Update", "internal/collation/schema.go:Collator.Read"]}
{"id": "C27", "title": "sum, mean and var of a field summarise exactly that field's values", "statement": "After any successful sequence of rows applied to a record, sum(f), mean(f) and var(f) are the summary statistics of exactly the values of field f in those rows, in order, unaffected by other fields, other measures and by which of the three share storage.", "quantifier": "all schemas, all row sequences", "why_tests_cant": "unbounded histories and schemas; interference between measures depends on layout", "anchors": ["internal/collation/measure.go:Sum", "internal/collation/measure.go:Mean", "internal/collation/measure.go:Variance", "internal/collation/compile.go:Schema.Compile", "internal/collation/schema.go:Collator.Update"]}
{"id": "C28", "title": "max and min are the extremes of the field's values", "statement": "After any successful sequence of rows, max(f) (min(f)) is a value of f that occurred and is >= (<=) every value of f that occurred.", "quantifier": "all schemas, all row sequences", "why_tests_cant": "depends on which rows carry the field and on NaNs; unbounded", "anchors": ["internal/collation/measure.go:Max", "internal/collation/measure.go:Min", "internal/collation/schema.go:Collator.Update"]}
{"id": "C29", "title": "uniquecount is the HyperLogLog estimate of exactly the field's values", "statement": "After any successful sequence of rows, uniquecount(f) equals the estimate of a fresh HyperLogLog counter of the configured precision to which exactly the values of f were added.", "quantifier": "all schemas, all row sequences", "why_tests_cant": "unbounded histories", "anchors": ["internal/collation/measure.go:Cardinality", "internal/collation/schema.go:Collator.Update"]}
{"id": "C30", "title": "A row that lacks a measured field is harmless", "statement": "Rows may omit measured fields: the omitted field's statistics are unaffected and later rows that carry the field are accepted and counted normally.", "quantifier": "all schemas, all row sequences with arbitrary missing fields", "why_tests_cant": "depends on arrival order of partial rows", "anchors": ["internal/collation/schema.go:Collator.Update", "internal/collation/measure.go:Max", "internal/collation/measure.go:Min", "internal/collation/measure.go:Cardinality"]}
{"id": "C31", "title": "A rejected row leaves no trace", "statement": "If applying a row returns an error, no statistic changes.", "quantifier": "all schemas, rows and errors", "why_tests_cant": "all ways a row can be half-valid", "anchors": ["internal/collation/schema.go:Collator.Update", "internal/bufmap/bufmap.go:Update", "internal/server/server.go:recvObservation"]}
{"id": "C32", "title": "A query returns exactly the requested measures that exist, in the order asked", "statement": "Reading a list of (field, measures) returns, in order, one value for each requested measure the schema declares for that field and nothing else; unknown fields and measures are skipped without error.", "quantifier": "all schemas and requests", "why_tests_cant": "all requests over all schemas", "anchors": ["internal/collation/schema.go:Collator.Read"]}
{"id": "C33", "title": "Reading a record returns what was last stored", "statement": "In a sequential history, Get(k) after a successful Update(k,fn) fills the caller's buffer with the bytes fn left.", "quantifier": "all map sizes, strides, keys and histories", "why_tests_cant": "depends on the slot index the key hashes to, for all sizes", "anchors": ["internal/bufmap/bufmap.go:Get", "internal/bufmap/bufmap.go:Update", "internal/bufmap/bufmap.go:pos"]}
{"id": "C34", "title": "Get on the record map never panics", "statement": "Get(k,buf) with a buffer of the record size never panics, for any key present or absent.", "quantifier": "all map sizes, strides, keys, histories", "why_tests_cant": "only certain slots are affected", "anchors": ["internal/bufmap/bufmap.go:Get"]}
{"id": "C35", "title": "A key once stored is found ever after, in one place, and full regions refuse new keys cleanly", "statement": "A key accepted by Update is found by every later Get and every later Update reaches the same record; ErrOutOfSlots is returned exactly when the key is absent and all the slots of its probe sequence belong to other keys, it leaves the map unchanged, and it is permanent for that key.", "quantifier": "all map sizes and sequential histories of updates", "why_tests_cant": "collision patterns are unbounded", "anchors": ["internal/bufmap/bufmap.go:Update", "internal/bufmap/bufmap.go:Get", "internal/bufmap/bufmap.go:pos"]}
{"id": "C36", "title": "Records of different keys do not interfere", "statement": "Update(k,fn) changes no byte of any other key's record.", "quantifier": "all histories, keys and update functions", "why_tests_cant": "all pairs of keys over all probe patterns", "anchors": ["internal/bufmap/bufmap.go:Update"]}
{"id": "C37", "title": "The init flag is raised exactly for the first update of a key", "statement": "Update passes init=true to fn exactly when this is the first update applied to the key's record.", "quantifier": "all histories and collision patterns", "why_tests_cant": "only displaced keys or races expose it", "anchors": ["internal/bufmap/bufmap.go:Update"]}
{"id": "C38", "title": "Key zero is treated as absent", "statement": "Update(0,_) is refused with ErrInvalidKey and Get(0,_) reports not found; likewise Inc(0,_) is refused and incmap Get(0) reports not found.", "quantifier": "all map states", "why_tests_cant": "requires all map states", "anchors": ["internal/bufmap/bufmap.go:Update", "internal/bufmap/bufmap.go:Get", "internal/incmap/incmap.go:Inc", "internal/incmap/incmap.go:Get"]}
{"id": "C39", "title": "No update is lost under concurrent writers", "statement": "In every interleaving of any number of concurrent Update and Get calls, the record of each key at quiescence is the result of applying the update functions of all completed updates of that key one after another (in lock order), starting from zero bytes.", "quantifier": "all numbers of threads, programs, schedules", "why_tests_cant": "interleavings", "anchors": ["internal/bufmap/bufmap.go:Update"]}
{"id": "C40", "title": "Concurrent reads are never torn", "statement": "In every interleaving, a Get that returns data returns bytes that were the complete record at one moment during the call, never a mix of an update in progress.", "quantifier": "all threads, programs, schedules", "why_tests_cant": "interleavings at byte granularity; counter wrap-around", "anchors": ["internal/bufmap/bufmap.go:Get", "internal/seqlock/seqlock.go:Get"]}
{"id": "C41", "title": "A key occupies at most one slot under concurrency", "statement": "In every interleaving of concurrent first updates, a key is never installed in two slots of its probe sequence, so no update is split between two records (both maps).", "quantifier": "all threads, programs, schedules", "why_tests_cant": "interleavings of CAS races", "anchors": ["internal/bufmap/bufmap.go:Update", "internal/incmap/incmap.go:Inc"]}
{"id": "C42", "title": "The first concurrent update initialises the record", "statement": "When several goroutines race to create the same key, the update function that runs first sees init=true and no later one does.", "quantifier": "all schedules", "why_tests_cant": "a race window of a few instructions", "anchors": ["internal/bufmap/bufmap.go:Update"]}
{"id": "C43", "title": "A failing update function does not block the record", "statement": "After an update function panics (e.g. an unsupported precision), the record can still be read and updated.", "quantifier": "all histories", "why_tests_cant": "requires reasoning about every later step", "anchors": ["internal/bufmap/bufmap.go:Update", "internal/seqlock/seqlock.go:Update"]}
{"id": "C44", "title": "Concurrent counters never lose an increment", "statement": "In every interleaving of Inc and Get calls, at quiescence Get(k) returns the sum modulo 2^64 of the amounts of all Inc(k,_) calls that returned true, and found is true if there was one.", "quantifier": "all threads, programs, schedules, map sizes", "why_tests_cant": "interleavings", "anchors": ["internal/incmap/incmap.go:Inc", "internal/incmap/incmap.go:Get"]}
{"id": "C45", "title": "A refused increment is refused for a reason, has no effect and stays refused", "statement": "Inc(k,_) with k non-zero returns false only if all the slots of k's probe sequence hold other keys; a false Inc changes nothing; every later Inc(k,_) is also refused and Get(k) reports not found.", "quantifier": "all schedules and map sizes", "why_tests_cant": "interleavings, collision patterns", "anchors": ["internal/incmap/incmap.go:Inc", "internal/incmap/incmap.go:Get"]}
{"id": "C46", "title": "Counters only grow", "statement": "Between increments without overflow, successive Gets of the same key by any observers never decrease, and a found key stays found.", "quantifier": "all schedules", "why_tests_cant": "interleavings", "anchors": ["internal/incmap/incmap.go:Get"]}
{"id": "C47", "title": "Seqlock: reads return a complete stored value", "statement": "In every interleaving of Get, Put and Update (fewer than 2^31 writes during one Get), Get returns a block that was completely stored at one moment during the call.", "quantifier": "all threads, programs, schedules", "why_tests_cant": "interleavings at byte granularity", "anchors": ["internal/seqlock/seqlock.go:Get", "internal/seqlock/seqlock.go:Put", "internal/seqlock/seqlock.go:Update"]}
{"id": "C48", "title": "Seqlock: updates are atomic and aborted updates have no effect", "statement": "In every interleaving the stored block is the result of applying all completed Puts and successful Updates one at a time; an Update whose function returns an error leaves it unchanged.", "quantifier": "all threads, programs, schedules", "why_tests_cant": "interleavings", "anchors": ["internal/seqlock/seqlock.go:Update", "internal/seqlock/seqlock.go:Put"]}
{"id": "C49", "title": "Seqlock version counter wrap-around", "statement": "The snapshot guarantee of Get holds regardless of how many writes happen during it.", "quantifier": "schedules with 2^31 or more writes during one read", "why_tests_cant": "needs 2^31 writes inside one read", "anchors": ["internal/seqlock/seqlock.go:Get"]}
{"id": "C50", "title": "Observation lines parse back to what was written", "statement": "A line made of a decimal microsecond timestamp of up to 18 digits, a delimiter byte and field=value pairs (delimiter not a digit, not occurring in names or values; '=' not occurring in names) parses to exactly that timestamp and those pairs in order.", "quantifier": "all timestamps, delimiters, field lists", "why_tests_cant": "all byte contents", "anchors": ["internal/server/server.go:parseRow", "internal/server/server.go:parseFV"]}
{"id": "C51", "title": "Observation parsing is total and rejects exactly the lines without a valid leading timestamp", "statement": "parseRow never panics; it fails exactly when the line does not start with a digit or the leading digits (at most 20) do not fit in a 64-bit int.", "quantifier": "all byte strings", "why_tests_cant": "all inputs", "anchors": ["internal/server/server.go:parseRow"]}
{"id": "C52", "title": "A posted batch is applied line by line up to the first failure", "statement": "A POST of lines applies each line, in order, to every store in order, stopping at the first line that fails to parse or store; the response is 200 exactly if every line was applied.", "quantifier": "all bodies, all store lists, all states", "why_tests_cant": "all batches", "anchors": ["internal/server/server.go:recvObservation", "internal/storage/storage.go:Store.Write"]}
{"id": "C53", "title": "A row reaches a store exactly when it carries all of the store's key fields", "statement": "Writing a row that lacks one of a collation's key fields changes nothing in that collation and is not an error; otherwise exactly the record of its key values changes.", "quantifier": "all rows and schemas", "why_tests_cant": "all rows and schemas", "anchors": ["internal/storage/storage.go:Store.Write"]}
{"id": "C54", "title": "HTTP status codes reflect the request", "statement": "/obs answers 405 to non-POST, 415 to unknown media types, 400 to a missing form value or malformed content type; /collation/{name} answers 404 to unknown or nested names, 405 to methods other than GET/POST, 400 to unparsable queries; none of these changes any statistic.", "quantifier": "all requests and states", "why_tests_cant": "all requests", "anchors": ["internal/server/server.go:registerHandlers", "internal/server/server.go:recvObservation", "internal/server/server.go:queryCollation"]}
{"id": "C55", "title": "Queries have no side effects", "statement": "A query never changes any statistic: the same later queries and observations behave as if it had not been made.", "quantifier": "all queries and states", "why_tests_cant": "all states", "anchors": ["internal/server/server.go:queryCollation", "internal/storage/storage.go:Store.Read"]}
{"id": "C56", "title": "End to end: a queried count equals the number of observations posted for that key", "statement": "For every sequence of accepted observation posts, the query `select count(*) where key='v'` on a collation answers the number of observations whose key fields had those values.", "quantifier": "all sequences of posts, schemas, keys", "why_tests_cant": "composition of all components over unbounded histories", "anchors": ["internal/server/server.go:recvObservation", "internal/server/server.go:queryCollation", "internal/storage/storage.go:Store.Read", "internal/bufmap/bufmap.go:Get"]}
{"id": "C57", "title": "A well-formed query is parsed into exactly the measures and criteria it lists", "statement": "A query `select m1(f1), ... where k1='v1' and ...` with ordinary names and values parses into, for each field, its measures in the order listed, and the criteria in order; keywords are case-insensitive.", "quantifier": "all names, values and list lengths", "why_tests_cant": "all names and lengths; regular-expression backtracking", "anchors": ["internal/query/rough.go:RoughParse"]}
{"id": "C58", "title": "Query parsing rejects text without select ... where", "statement": "RoughParse fails exactly when the text is not of the form select <something> where <something> (whitespace-separated, case-insensitive), and never panics.", "quantifier": "all strings", "why_tests_cant": "all strings", "anchors": ["internal/query/rough.go:RoughParse"]}
{"id": "C59", "title": "A criterion value may be any text without a quote", "statement": "Whatever quote-free text is quoted as a criterion value, the query parses to that value.", "quantifier": "all quote-free values", "why_tests_cant": "only particular values (containing the word where) break it", "anchors": ["internal/query/rough.go:RoughParse"]}
{"id": "C60", "title": "Query results come back in the order asked", "statement": "The values returned for a multi-field select appear in the order of the select list.", "quantifier": "all queries, all runs", "why_tests_cant": "map iteration order is random per run", "anchors": ["internal/query/rough.go:RoughParse", "internal/collation/schema.go:Collator.Read"]}
{"id": "C61", "title": "Meanvar returns the mean and the sample variance", "statement": "stats.Meanvar returns sum/n and the sample variance sum (x-mean)^2/(n-1) for n>=2.", "quantifier": "all sequences", "why_tests_cant": "all sequences", "anchors": ["internal/stats/stats.go:Meanvar"]}
{"id": "C62", "title": "Shuffling loses and invents nothing", "statement": "For every random source, Shuffle permutes its argument and ShuffleRepeated(n,src) with n>=len(src)>0 returns n entries drawn from src in which every entry of src appears at least as often as in src.", "quantifier": "all slices and random sources", "why_tests_cant": "all random sources", "anchors": ["internal/testutil/rand.go:Shuffle", "internal/testutil/rand.go:ShuffleRepeated"]}
{"id": "C63", "title": "The reported mean lies between the smallest and the largest observation", "statement": "For finite observations no two of which differ by more than the largest float64, Mean is at least some observation and at most some observation, rounding notwithstanding.", "quantifier": "all sequences of Update/UpdateMulti/Reset of any length below 2^64", "why_tests_cant": "quantifies over all float64 sequences; rounding makes it non-obvious", "anchors": ["internal/summary/stat64/stats.go: Update, UpdateMulti, Mean"]}
{"id": "C64", "title": "Accumulated rounding error of Sum is bounded", "statement": "If Sum did not overflow, it differs from the exact real sum of the n observations by at most ((1+2^-53)^n - 1) times the sum of their absolute values.", "quantifier": "all sequences of observations", "why_tests_cant": "a bound over all float64 sequences of all lengths", "anchors": ["internal/summary/stat64/stats.go: Update, UpdateMulti, Sum"]}
{"id": "C65", "title": "Identical observations have that mean and zero variance", "statement": "After n >= 2 identical finite observations Mean is exactly that value and Variance is exactly 0.", "quantifier": "all finite float64 values and all n below 2^64, however batched", "why_tests_cant": "all values and all n", "anchors": ["internal/summary/stat64/stats.go: Update, UpdateMulti, Mean, Variance"]}
{"id": "C66", "title": "Aggregating and querying never panics at supported precisions", "statement": "For a schema whose uniquecount precisions are in [4,18], neither applying a row (well-formed or not, accepted or rejected) nor answering a query panics, in any state a record can reach, including after rejected rows.", "quantifier": "every schema with supported precisions, every history of accepted and rejected rows, every row, every list of requested measures", "why_tests_cant": "the reachable record states and the rows are unbounded, and a panic under the record lock wedges the record for ever", "anchors": ["internal/collation/compile.go: Collation.Update, Collation.Read", "internal/collation/measure.go", "internal/summary/hll/hll.go: WithBytes, Add, Count", "internal/summary/stat64/stats.go"]}
{"id": "C67", "title": "How a body is fragmented does not matter", "statement": "The lines of a posted body are the same, with LF or CR LF endings and with or without a final line ending, however the network splits it into reads; so the same text posted in two different fragmentations has the same effect and the same answer. A line longer than 65536 bytes is answered 500 after the lines before it were applied.", "quantifier": "all bodies, all ways to split them into reads, all server states", "why_tests_cant": "the number of fragmentations is exponential in the body's length", "anchors": ["internal/server/server.go: recvObservation (bufio.Scanner)"]}
{"id": "C68", "title": "An interrupted upload never stores a truncated line", "statement": "If reading the request body fails, the answer is 500 and the last, incomplete line is not applied.", "quantifier": "all bodies, all points of interruption, all server states", "why_tests_cant": "all interruption points of all bodies", "anchors": ["internal/server/server.go: recvObservation"]}
{"id": "C69", "title": "A post of observations is always answered", "statement": "In every state reachable by requests, a request to /obs with any method, headers and body bytes is answered with a status; it neither hangs nor drops the connection.", "quantifier": "all histories of requests, all requests to /obs", "why_tests_cant": "unbounded histories and arbitrary bytes; one panic inside an update would wedge a record for ever", "anchors": ["internal/server/server.go: recvObservation, parseRow", "internal/storage/storage.go: Store.Write", "internal/bufmap/bufmap.go: Update", "internal/collation/compile.go: Collation.Update"]}
{"id": "C70", "title": "End to end: sum, mean and var of what was posted", "statement": "For every sequence of accepted posts the query for sum, mean or var of a field where the key field has a value answers the statistic of exactly the values posted for that key, computed in order in float64.", "quantifier": "all sequences of posts, schemas, keys", "why_tests_cant": "composition of all components over unbounded histories", "anchors": ["internal/server/server.go: recvObservation, queryCollation", "internal/storage/storage.go", "internal/collation/compile.go", "internal/summary/stat64/stats.go", "internal/bufmap/bufmap.go"]}
{"id": "C71", "title": "Counter map calls are wait-free", "statement": "Whatever the other goroutines do, and even if they are stopped anywhere inside their own calls, an Inc on a counter map returns within 35 of its own steps and a Get within 14.", "quantifier": "all map sizes, numbers of goroutines, schedules, keys and amounts", "why_tests_cant": "ranges over every interleaving, including those where other goroutines never run again", "anchors": ["internal/incmap/incmap.go: Inc, Get"]}
{"id": "C72", "title": "Seqlock: an undisturbed Get returns", "statement": "A Get called while no Put or Update is in progress (and no update function has panicked) returns within 1027 of its own steps, however other readers are scheduled, as long as nobody starts a Put or Update.", "quantifier": "all histories, all schedules of readers", "why_tests_cant": "ranges over every interleaving and history", "anchors": ["internal/seqlock/seqlock.go: Get"]}
{"id": "C73", "title": "Calls on one key never wait for calls on other keys", "statement": "If no update of a key is under way and none of its update functions has panicked, Get and Update of that key return within a fixed number of their own steps, whatever other goroutines do with other keys, even if they hold other records' locks for ever.", "quantifier": "all maps, numbers of goroutines, schedules, keys, buffers and update functions of bounded length", "why_tests_cant": "quantifies over all schedules of the other goroutines", "anchors": ["internal/bufmap/bufmap.go:Get", "internal/bufmap/bufmap.go:Update"]}
{"id": "C74", "title": "HyperLogLog counts small sets by linear counting", "statement": "As long as m ln(m/v) (m = 2^p registers, v of them empty) is within the published limit for the precision, Count returns that number rounded up (to within 2^-27), and never less than the number of registers in use.", "quantifier": "all precisions, all item sequences in the low range, every accurate math.Log", "why_tests_cant": "all sets of items and all float64 roundings", "anchors": ["internal/summary/hll/hll.go:Count", "internal/summary/hll/hll.go:threshold"]}
{"id": "C75", "title": "HyperLogLog estimators always return", "statement": "Count, LinearCount, HarmonicCount and PoissonCount return a result on every counter of precision 4 to 18, whatever its registers contain: they do not panic and their float64 iterations reach their fixed points.", "quantifier": "all precisions, all register contents", "why_tests_cant": "termination of loops that stop only when a float64 stops changing, over all register contents", "anchors": ["internal/summary/hll/hll.go:Count", "internal/summary/hll/hll.go:sigma", "internal/summary/hll/hll.go:tau", "internal/summary/hll/hll.go:poisson"]}
{"id": "C76", "title": "HyperLogLog counts are never negative", "statement": "Count and LinearCount return a non-negative number of distinct items.", "quantifier": "all precisions, all item sequences", "why_tests_cant": "the failing inputs are items chosen for their hash", "anchors": ["internal/summary/hll/hll.go:Count", "internal/summary/hll/hll.go:LinearCount"]}
{"id": "C77", "title": "HyperLogLog counts never decrease", "statement": "Adding an item never makes Count return a smaller number.", "quantifier": "all precisions, all item sequences", "why_tests_cant": "the estimate changes formula between ranges; all histories", "anchors": ["internal/summary/hll/hll.go:Count", "internal/summary/hll/hll.go:Add"]}
{"id": "C78", "title": "Bloom filter sizing", "statement": "For n >= 1 items and a rate 0 < p < 1, New(n, p) returns a usable filter with the optimal number of bits -n ln p/(ln 2)^2 rounded up and the optimal number of hash functions for that size rounded up (at most 255); Len(n, p) equals the length of its serialisation; the filter never reports an added value absent.", "quantifier": "all n, all float64 rates p, all histories of additions", "why_tests_cant": "ranges over all item counts and all float64 rates, with floating point rounding", "anchors": ["internal/summary/bloom/bloom.go:New", "internal/summary/bloom/bloom.go:mk", "internal/summary/bloom/bloom.go:Len"]}
{"id": "C79", "title": "Bloom filter meets its false positive rate", "statement": "A filter made by New(n, p) and holding n items has, by the textbook formula (1-e^(-kn/m))^k, a false positive rate of the order of p (at most 2p).", "quantifier": "all n, all float64 rates p", "why_tests_cant": "an analytic inequality over all sizes and rates", "anchors": ["internal/summary/bloom/bloom.go:New", "internal/summary/bloom/bloom.go:mk"]}
{"id": "C80", "title": "Bloom filter Count", "statement": "Count returns the estimate -(m/k) ln(1 - x/m) of the number of items, rounded up, where x of the m bits are set: 0 for an empty filter, at least 1 once something was added, and never negative.", "quantifier": "all filters and contents", "why_tests_cant": "all fill levels, including a full filter; floating point error", "anchors": ["internal/summary/bloom/bloom.go:Count"]}
{"id": "C81", "title": "Bloom filter ErrorRate", "statement": "ErrorRate returns a number between 0 and 1 that estimates the rate of false positives returned by Has for the current contents.", "quantifier": "all filters and contents", "why_tests_cant": "all fill levels and numbers of hash functions", "anchors": ["internal/summary/bloom/bloom.go:ErrorRate"]}
{"id": "C82", "title": "Interrupted writes and truncated streams are reported, with the exact byte count", "statement": "ReadFrom on a stream that ends before the last byte of a serialisation returns io.ErrUnexpectedEOF and the number of bytes received, for bit buckets, bloom filters and hyperloglog counters, at every truncation point and in every fragmentation; WriteTo to a writer that fails reports exactly the accepted bytes, which are a prefix of the serialisation, and a nil error only if all were accepted.", "quantifier": "all structures, all truncation points, all fragmentations, all failure points of the writer", "why_tests_cant": "every crash point of every stream", "anchors": ["internal/bitbucket/bitbucket.go:ReadFrom,WriteTo", "internal/summary/bloom/bloom.go:ReadFrom,WriteTo", "internal/summary/hll/hll.go:ReadFrom,WriteTo"]}
{"id": "C83", "title": "Opening a truncated buffer is an error", "statement": "WithBytes on a buffer holding only a proper prefix of a serialisation returns io.ErrShortBuffer and never panics or succeeds.", "quantifier": "all structures, all truncation points", "why_tests_cant": "every truncation point of every serialisation", "anchors": ["internal/bitbucket/bitbucket.go:WithBytes", "internal/summary/bloom/bloom.go:WithBytes", "internal/summary/hll/hll.go:WithBytes"]}
{"id": "C84", "title": "Concurrent writes to a store: none lost, none doubled", "statement": "When any number of goroutines call Store.Write and Store.Read on one store and every Write returned nil, then once all calls have returned the record of each key holds exactly the rows written to that key, each applied once in some order: count(*) is the number of Writes, sum/mean/var are those of the rows. No Write ever panics, so no record is left locked.", "quantifier": "all schemas, rows, numbers of goroutines, and interleavings at the level of single memory accesses", "why_tests_cant": "lost updates need particular interleavings", "anchors": ["internal/storage/storage.go:Write", "internal/bufmap/bufmap.go:Update", "internal/collation/compile.go:Update"]}
{"id": "C85", "title": "Concurrent writes: max, min and uniquecount", "statement": "When any number of goroutines write to one store without failures, then once all have returned max, min and uniquecount of a field are those of all the rows written to the key.", "quantifier": "all schemas, rows, numbers of goroutines and interleavings", "why_tests_cant": "needs a race between two Writes that create one record", "anchors": ["internal/storage/storage.go:Write", "internal/bufmap/bufmap.go:Update", "internal/collation/measure.go"]}
{"id": "C86", "title": "A concurrent read sees the store at one moment", "statement": "A Store.Read concurrent with Writes answers from the complete record as it was at one moment between the call and the return; the count it reports is at least the number of Writes that had returned when it was called and at most the number called when it returned, and successive Reads never report a smaller count.", "quantifier": "all schemas, rows, queries, numbers of goroutines and interleavings", "why_tests_cant": "torn reads need particular interleavings", "anchors": ["internal/storage/storage.go:Read", "internal/bufmap/bufmap.go:Get"]}
{"id": "C87", "title": "A query about nothing is answered with its criteria and no results", "statement": "A query that lacks one of a collation's key fields, or whose key values no posted row has, is answered 200 with the lines of its criteria and no result lines: it is neither an error nor answered with somebody else's figures.", "quantifier": "all states a server can get into, all histories of posts, all queries", "why_tests_cant": "must hold after every history and for every query", "anchors": ["internal/storage/storage.go:Read", "internal/server/server.go:queryCollation", "internal/query/rough.go:KeyValue"]}
{"id": "C88", "title": "See is the standard error of the estimate, Sum the sum", "statement": "stats.See(vals, e) is sqrt(sum (v-e)^2 / (n-2)) and never negative; stats.Sum is the sum of vals, within the accumulated rounding error.", "quantifier": "all sequences of float64 and all estimates", "why_tests_cant": "all inputs, NaN and infinities included", "anchors": ["internal/stats/stats.go:See", "internal/stats/stats.go:Sum"]}
{"id": "C89", "title": "Float equivalence and adjacency", "statement": "AdjacentEqual64(a, b) holds exactly if neither is NaN and no float64 lies strictly between a and b. Equiv64(a, b) holds exactly if both are infinite, both NaN or numerically equal, and is an equivalence relation.", "quantifier": "all pairs of float64 bit patterns", "why_tests_cant": "2^128 pairs", "anchors": ["internal/testutil/float.go:AdjacentEqual64", "internal/testutil/float.go:Equiv64"]}
{"id": "C90", "title": "Close64 compares within the tolerance", "statement": "Close64(a, b, tolerance) reports whether a and b are adjacent or differ by at most tolerance relative to a.", "quantifier": "all triples of float64", "why_tests_cant": "all inputs", "anchors": ["internal/testutil/float.go:Close64", "internal/testutil/float.go:EquivOrCloseFloat64"]}
{"id": "C91", "title": "max, min and uniquecount end to end", "statement": "After any history of accepted posts, select max(f), min(f) or uniquecount(f) where key='v' is answered with the greatest value, the least value, or the estimate over exactly the values of f, in all posted rows with key=v.", "quantifier": "all histories of requests, all schemas with one key field, all fields and values", "why_tests_cant": "must hold for every history and every set of other keys", "anchors": ["internal/server/server.go:queryCollation", "internal/storage/storage.go:Write", "internal/collation/collation.go:Update", "internal/bufmap/bufmap.go:Update"]}
{"id": "C92", "title": "A whole query is answered completely and correctly", "statement": "After any history of accepted posts, a well-formed query that gives a value for every key field of a collation is answered 200 with one line per criterion in the order written, then exactly one line for each measure asked for that the schema declares (none for the others), each with the right value over exactly the posted rows that have those key values. If there are no such rows the answer is the criterion lines alone.", "quantifier": "all histories of requests, all schemas (any number of key fields and measures), all well-formed query texts, all map iteration orders", "why_tests_cant": "must hold for every history, schema and query", "anchors": ["internal/server/server.go:queryCollation", "internal/query/rough.go:RoughParse", "internal/storage/storage.go:Read", "internal/collation/schema.go:Read"]}
{"id": "C93", "title": "No row of an accepted post is lost, applied twice or torn when requests overlap", "statement": "With any number of requests served at the same time, once all have been answered and the posts were answered 200, each record of each collation is the result of applying the rows with its key of all posts, each exactly once, one whole row after another; a post that was answered before another arrived comes first; so count is the number of those rows and sum, mean and variance are of exactly those rows. A record no post has rows for holds nothing.", "quantifier": "all lists of requests, all bodies, all schemas, all interleavings of the request goroutines at every atomic, lock and byte access of the stores they share", "why_tests_cant": "must hold for every schedule", "anchors": ["internal/server/server.go:ServeHTTP", "internal/server/server.go:postObs", "internal/storage/storage.go:Write", "internal/bufmap/bufmap.go:Update"]}
{"id": "C94", "title": "A query during posts is answered from one moment", "statement": "A query that overlaps posts is answered from the complete record as it was at one moment between its arrival and its answer: from all rows of the posts answered before it arrived and only from rows of posts that had arrived before it was answered. Of two queries one after the other, the later is answered from all rows of the earlier and perhaps more. So count lies between those two numbers of rows and never goes down.", "quantifier": "all lists of requests, all schemas, all interleavings of the request goroutines", "why_tests_cant": "must hold for every schedule", "anchors": ["internal/server/server.go:queryCollation", "internal/storage/storage.go:Read", "internal/bufmap/bufmap.go:Get"]}
{"id": "C95", "title": "max, min and uniquecount when requests overlap", "statement": "A query for max (min) that overlaps posts is answered with a value of the field in a row of a post that had arrived, and no value of the field in a row of a post answered before the query arrived is greater (less); uniquecount is the estimate of a counter to which the values of all posts answered before and only of posts that had arrived were added.", "quantifier": "all lists of requests, all schemas, all interleavings of the request goroutines", "why_tests_cant": "must hold for every schedule; fails in one in which two posts create the record at the same time", "anchors": ["internal/server/server.go:ServeHTTP", "internal/storage/storage.go:Write", "internal/bufmap/bufmap.go:Update", "internal/collation/measure.go"]}
{"id": "C96", "title": "Every request is answered when requests overlap", "statement": "However many requests are served at the same time, all are answered: there is a number of turns after which every request has its answer under every schedule that gives every goroutine that many turns, in any order and after any beginning. No goroutine blocks the others for ever and no reader is starved. A post of observations is always answered with a status; its connection is never dropped.", "quantifier": "all lists of requests, all schemas, all fair schedules of the request goroutines", "why_tests_cant": "a liveness property over all fair schedules", "anchors": ["internal/server/server.go:ServeHTTP", "internal/storage/storage.go:Write", "internal/storage/storage.go:Read", "internal/bufmap/bufmap.go:Get", "internal/bufmap/bufmap.go:Update"]}
{"id": "C97", "title": "Requests one at a time are served as by a sequential program", "statement": "When no request arrives before the earlier ones have been answered, the answers are those of the sequential server (ServeHTTP called once per request, every store call run to its end) to the same requests in order, and the record maps left are the same to the last byte. Two such runs with the same requests in the same order give the same answers and the same bytes.", "quantifier": "all lists of requests, all schemas, all schedules without overlap, all ways of carrying out the byte accesses of an update", "why_tests_cant": "must hold for all request sequences and all schedules", "anchors": ["internal/server/server.go:ServeHTTP", "internal/storage/storage.go:Write", "internal/storage/storage.go:Read", "internal/bufmap/bufmap.go:Get", "internal/bufmap/bufmap.go:Update"]}
{"id": "C98", "title": "Failing posts leave a prefix of their rows, once each", "statement": "In runs where posts may also fail (lines that are not observations, values that are not numbers, clients that go away, bodies that break off or have too long lines, full collations), each collation takes of every post its first rows, each exactly once, and perhaps part of the next one, only if the post is answered with an error; a client that stays and is answered 200 has had all its rows taken. When all requests have been answered each record is the result of applying exactly those rows one after another, in an order that respects that of posts which do not overlap; count(*) is exactly the number of rows that were taken wholly or in part, and sum, mean and variance of fields that no partly applied row has are those of the rows taken. A query is answered from one moment between its arrival and its answer; the count it reports is at least that of the rows acknowledged before it arrived and at most that of the rows that had arrived when it was answered.", "quantifier": "all lists of requests, failing or not, all schemas, all interleavings of their goroutines, all ways of carrying out the byte accesses of an update", "why_tests_cant": "must hold for all failure points, request sequences and interleavings", "anchors": ["internal/server/server.go:recvObservation", "internal/storage/storage.go:Write", "internal/collation/collation.go:Update", "internal/storage/storage.go:Write", "internal/bufmap/bufmap.go:Update"]}
{"id": "C99", "title": "The program serves requests only when it is set up", "statement": "In every run of the process a request is only handled after the server has logged that it listens and has registered its handlers; what happens with requests in a run of the program, whatever signals arrive, is a run of the server about which the other properties speak. In particular, starbow with its two demo collations takes the first rows of every post exactly once each.", "quantifier": "all interleavings of the main goroutine, signals and requests; all fields of the server and all requests", "why_tests_cant": "must hold for all interleavings of start-up, signals and requests", "anchors": ["starbow.go:main", "demo.go:setupDemo", "internal/server/server.go:Serve", "internal/server/server.go:waitSignal", "internal/server/server.go:registerHandlers", "internal/server/server.go:ServeHTTP"]}
{"id": "C100", "title": "The process runs until it is told to end", "statement": "The process ends only because of a signal or because it cannot listen; Serve returns nil only after SIGINT or SIGTERM; and SIGINT or SIGTERM ends the process.", "quantifier": "all interleavings of the main goroutine, signals and requests", "why_tests_cant": "must hold for every moment at which a signal can arrive", "anchors": ["starbow.go:main", "demo.go:setupDemo", "internal/server/server.go:Serve", "internal/server/server.go:waitSignal"]}
{"id": "C101", "title": "A failure to listen is reported", "statement": "If the server cannot listen on its address, Serve returns an error, and the program reports it: by a message or by its exit status.", "quantifier": "all addresses, all runs", "why_tests_cant": "must hold for all runs in which listening fails", "anchors": ["starbow.go:main", "demo.go:setupDemo", "internal/server/server.go:Serve"]}
{"id": "C102", "title": "Requests in progress are answered before the process ends", "statement": "When the process is told to end, requests that have arrived are answered before it does.", "quantifier": "all runs, all moments at which the signal arrives", "why_tests_cant": "must hold for every moment at which the signal arrives", "anchors": ["starbow.go:main", "demo.go:setupDemo", "internal/server/server.go:Serve", "internal/server/server.go:waitSignal", "internal/server/server.go:registerHandlers"]}
{"id": "C103", "title": "One history explains all queries of a record, wherever it lies", "statement": "In every run of the server, with any number of requests at the same time and posts that may fail, there is one order of the rows that the posts leave in a record such that every query of it, at whatever moment and whatever slot the record has, is answered from the rows up to one point of that order, between what had been applied when the query arrived and when it was answered. Hence the number that count(*) reports is at least that of the rows acknowledged before, at most that of the rows that had arrived, and never goes back.", "quantifier": "all requests, all interleavings, all record sizes and store capacities, all slots", "why_tests_cant": "must hold for all interleavings of all requests and for every slot the key may hash to", "anchors": ["internal/server/server.go:query", "internal/server/server.go:Read", "internal/server/server.go:Write", "internal/bufmap/bufmap.go:Get", "internal/bufmap/bufmap.go:Update", "internal/collation/collation.go:Read"]}
{"id": "C104", "title": "uniquecount over HTTP is the HyperLogLog count of the group's values", "statement": "The number a query reports for uniquecount(f) is what Count returns for a counter of the declared precision to which exactly the values of f in the posted rows of the group were added; it depends only on the set of those values, not on their order, repetition, distribution over posts or on other rows; one distinct value is reported as 1; posting more rows never lowers it; and while requests overlap it lies between the count of what was acknowledged before the query and the count of what had arrived before its answer.", "quantifier": "all histories of posts, all values, all precisions, all interleavings", "why_tests_cant": "must hold for every set of values and every history; the estimate is a floating point function of a hash of each value", "anchors": ["internal/server/server.go:queryCollation", "internal/collation/collation.go:Cardinality", "internal/summary/hll/hll.go:Count"]}
{"id": "C105", "title": "The shipped program serves the two demo collations", "statement": "starbow as started by main has exactly the collations country and tz; a query of country is answered with count(*), mean, sum, var, max and min of height and uniquecount of iata (precision 10) of the rows with that country, a query of tz with count(*) and uniquecount of country and of height (precision 8) of the rows with that tz; other measures asked for are left out, and every other collation is not found.", "quantifier": "all histories of posts, all queries, all key values", "why_tests_cant": "must hold for all rows, all group values and all queries", "anchors": ["demo.go:setupDemo", "demo.go:addDemoCollation", "starbow.go:main"]}
{"id": "C106", "title": "The HyperLogLog estimators compute the published formulas", "statement": "On every counter HarmonicCount is alpha m^2 / sum 2^-M_j (Flajolet et al. 2007) and PoissonCount is Ertl's alpha m^2 / (m sigma(C_0/m) + sum_k C_k 2^-k + m tau(1-C_{q+1}/m) 2^-q) with sigma and tau the limits of their series, rounded up to a whole number but for a relative error of 1e-6.", "quantifier": "all precisions, all register contents", "why_tests_cant": "2^(6m) register contents, and the published formulas are over the reals with infinite series; a wrong constant or term changes the result by less than the estimator's own error, which tests of accuracy tolerate", "anchors": ["internal/summary/hll/hll.go:HarmonicCount", "internal/summary/hll/hll.go:PoissonCount", "internal/summary/hll/hll.go:sigma", "internal/summary/hll/hll.go:tau"]}
{"id": "C107", "title": "Count selects the estimator by range", "statement": "For every list of items: if the harmonic estimate is above 7m, Count is that estimate rounded up; if it is below and no register is empty or linear counting exceeds its published limit, Count is Ertl's estimate rounded up (relative error 1e-6); the low range is C74.", "quantifier": "all lists of items, all precisions, every math.Log accurate to 2^-50", "why_tests_cant": "all lists of items; needs bounds on the rounding of float64 loops against real series", "anchors": ["internal/summary/hll/hll.go:Count"]}
{"id": "C108", "title": "Exactly two kinds of path are served", "statement": "A request is answered 200 only if it is a POST of /obs or a GET or POST of /collation/{name}; every other clean path is answered 404, a path that is not clean (empty, . or .. elements) and /collation are redirected, to a clean path; none of these changes any statistic.", "quantifier": "all requests and states", "why_tests_cant": "all paths", "anchors": ["internal/server/server.go:registerHandlers"]}
{"id": "C109", "title": "Reported mean and variance are accurate to a few units in the last place per observation", "statement": "For n finite observations of magnitude at most M, no two further apart than D, the mean a summary (and a query) reports is within 2^-53 ((n/2+1) M + 3 D) of the arithmetic mean, and for n >= 2 the reported variance is finite and within 2^-53 D ((n+10) M + (n+30) D) of the sample variance, however the observations were batched; the error of the variance scales with the spread D, not with M^2.", "quantifier": "all sequences of updates with up to 2^40 observations since the last reset, all M and all D with 2^-400 <= D <= 2^400", "why_tests_cant": "accumulated rounding over any number of any values", "anchors": ["internal/summary/stat64/stats.go:Update", "internal/summary/stat64/stats.go:Mean", "internal/summary/stat64/stats.go:Variance"]}
{"id": "C110", "title": "stats.Meanvar and stats.See are accurate for long lists", "statement": "For 2 <= n <= 2^40 finite numbers of magnitude at most 2^400, Meanvar returns finite results: the mean is within ((1+2^-53)^(n+1) - 1) times the mean magnitude (plus 2^-1075) of the arithmetic mean, and the second result within ((1+2^-53)^(n+4) - 1) of the population variance about the returned mean (plus 2^-1070). For n >= 3 numbers each equal to the estimate or between 2^-450 and 2^450 away from it, See is finite and within a relative error (1+2^-53)^(n+5) - 1 of sqrt(sum of squared residuals / (n-2)). Up to a million numbers both are good to nine decimal digits.", "quantifier": "all lists of up to 2^40 float64 values in the stated range and all estimates", "why_tests_cant": "accumulated rounding over any number of any values", "anchors": ["internal/stats/stats.go:Meanvar", "internal/stats/stats.go:See"]}
{"id": "C111", "title": "uniquecount is near the number of different values, and nearer with more precision", "statement": "A hyperloglog counter of precision p given d different values counts about d: never more than m d/(m-d) + 1 (m = 2^p) while that is in the range of linear counting, and not less than d by more than the estimator's error; and the count of a fixed set of values gets closer to their number as the precision is raised, as README.md says.", "quantifier": "all precisions 4..18 and all lists of values", "why_tests_cant": "the error must be bounded for every set of values; random or hand-picked long values do not show what happens to short ones", "anchors": ["internal/summary/hll/hll.go:Add", "internal/summary/hll/hll.go:Count", "internal/hash/fnv/fnv.go", "README.md"]}
{"id": "C112", "title": "A bloom filter has the false positive rate it was made for", "statement": "The filter made by New(n, p), holding up to n items, reports another value with a probability of about p, averaged over the items and the value asked for.", "quantifier": "all n, all rates p, all sets of values the items and questions are drawn from", "why_tests_cant": "a rate of 2^-60 cannot be measured by trying values, and the claim is about every set of values", "anchors": ["internal/summary/bloom/bloom.go:New", "internal/summary/bloom/bloom.go:newHasher", "internal/summary/bloom/bloom.go:next", "internal/summary/bloom/bloom.go:Has"]}
