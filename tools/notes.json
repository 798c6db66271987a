{
 "C08": {
  "status": "partial",
  "note": "Full statement refuted (C08_*_refuted): overflowing or zero-width headers are accepted or panic, ReadFrom does not check the width and accepts trailing bytes that a reader returns together with EOF. The _partial theorems cover every header announcing a size that fits in an int."
 },
 "C18": {
  "status": "partial",
  "note": "The property is false of the code and the theorems prove its negation for every prefix and precision: FNV-1 lets the last byte reach only the low 8 hash bits."
 },
 "C22": {
  "status": "partial",
  "note": "False in general (C22_variance_refuted: observations -maxfloat, maxfloat give variance -inf). Proved when no two observations differ by more than the largest float64."
 },
 "C24": {
  "status": "partial",
  "note": "False in general (refuted theorem: key values are hashed with no separator, so ('ab','c') and ('a','bc') share a record; 64-bit hash collisions exist too). The partial theorem(s) give the cases where distinct key values provably get distinct keys."
 },
 "C28": {
  "status": "partial",
  "note": "Proved when the first row carries the field exactly once and no value is NaN; refuted when the first row lacks the field (compares against 0) and when a value is NaN."
 },
 "C29": {
  "status": "partial",
  "note": "Proved when the first row carries the field exactly once; refuted for a first row without it (C30_absent_first_refuted) or carrying it twice."
 },
 "C30": {
  "status": "partial",
  "note": "The unaffected half is proved for the other fields' statistics and for rows after a first row that carried the counted fields; refuted for a first row lacking a uniquecount field (all later rows that carry it are rejected)."
 },
 "C31": {
  "status": "partial",
  "note": "Refuted: the row count is incremented before a value fails to parse. Partial: what is unaffected by a rejected row."
 },
 "C33": {
  "status": "partial",
  "note": "Proved where the slot index is at least the record size and the slice bounds fit; refuted elsewhere: Get slices values[x*size : x*(size+1)], so it returns only the first x bytes of slot x."
 },
 "C34": {
  "status": "partial",
  "note": "Refuted for every map with more than size+1 slots (Get of a key in the last slot panics); proved for smaller maps."
 },
 "C37": {
  "status": "partial",
  "note": "First update of a key sees zeroed data and init=true when its home slot is free; refuted for displaced keys, whose updates see init=true for ever."
 },
 "C38": {
  "status": "partial",
  "note": "Key 0 is rejected by Update, but Get(0) reports found on an empty slot (refuted theorem)."
 },
 "C43": {
  "status": "partial",
  "note": "The property is false of the code; the theorems prove the negation: after a panic in an update function every later call on the key (bufmap) or block (seqlock) never returns, in every schedule. The partial theorem covers histories without panics."
 },
 "C50": {
  "status": "partial",
  "note": "Proved for timestamps up to 2^63 ns (year 2262) and delimiters other than '='; refuted beyond: the timestamp wraps and '=' as delimiter tears pairs apart."
 },
 "C52": {
  "status": "partial",
  "note": "Proved for clients that stay; refuted for a cancelled request, which is answered 200 although lines were dropped."
 },
 "C56": {
  "status": "partial",
  "note": "Proved when the record is readable by bufmap.Get (first 8 bytes) and there is no 64-bit hash collision; C56_exact says what is answered in every other state; refuted for slot 0 (count 0) and the last slots (connection dropped)."
 },
 "C59": {
  "status": "partial",
  "note": "Proved unless a value contains whitespace-where-whitespace; refuted then, and for a value ending in = before another criterion."
 },
 "C60": {
  "status": "partial",
  "note": "Proved when all selected measures are of one field; refuted for two fields: the result order is that of a Go map iteration."
 },
 "C67": {
  "status": "partial",
  "note": "Proved for every body except one whose unterminated last line has exactly 65536 bytes, for which it is refuted."
 },
 "C68": {
  "status": "partial",
  "note": "False of the code: the truncated last line is applied (C68_refuted). Partial: nothing but lines of the received text is applied, in order, and the answer is 500."
 },
 "C70": {
  "status": "partial",
  "note": "Proved when the whole record is readable by bufmap.Get; see C56."
 },
 "C40": {
  "status": "partial",
  "note": "Proved in every interleaving: fewer than 2^31 completed updates during the call and a buffer not longer than a record imply the copied bytes are those of one moment. Missing because false: only the first x bytes of slot x are copied (C33), last slots panic (C34), and 2^31 writes during one read wrap the counter (C49)."
 },
 "C42": {
  "status": "partial",
  "note": "Refuted by two explicit schedules (an update with init=false runs before the initialising one and is lost; two goroutines are both told to initialise). The _partial theorems state what holds in every interleaving."
 },
 "C61": {
  "status": "partial",
  "note": "False of the code, which divides by n (C61_refuted, C61_exact_refuted). Proved: mean and population variance in exact arithmetic, NaN for fewer than two values, never negative in float64."
 },
 "C17": {
  "status": "partial",
  "note": "Empty half proved (C17_empty); the one-item half is false and its negation is proved: one distinct item counts as 2 at every precision (C17_one_item_refuted), because Count rounds m ln(m/(m-1)) > 1 up."
 },
 "C74": {
  "status": "proved",
  "note": "math.Log is a parameter assumed accurate to 2^-50 relative (log_ok, shown satisfiable)."
 },
 "C75": {
  "status": "proved",
  "note": "For any function in the place of math.Log."
 },
 "C76": {
  "status": "partial",
  "note": "False in general: sixteen crafted items give -2^63, and LinearCount gives -2^63 when no register is empty. Proved when some register is at most 63-2p, in particular for fewer than 2^p items."
 },
 "C77": {
  "status": "partial",
  "note": "False at the boundary of the linear range (39 then 37 at p=6); proved inside the range."
 },
 "C78": {
  "status": "partial",
  "note": "Proved for 1 <= n <= 2^50 and every float64 0 < p < 1, given a math.Log of relative error 2^-50; false for n = 0 (New succeeds, every Add panics)."
 },
 "C79": {
  "status": "proved",
  "note": "Bound 2p(1+2^-38); 2^-253 <= p < 1 (below that the number of hash functions is capped at 255). The textbook formula itself is a definition of the specification."
 },
 "C80": {
  "status": "partial",
  "note": "Up to 2^24 bits in every state with a clear bit (always, for odd m); up to 2^50 bits while one bit in 1024 is clear, with an explicit error; within 1/64 up to 2^40 bits while a quarter is clear. False when every bit is set: Count is -2^63."
 },
 "C81": {
  "status": "partial",
  "note": "Range and value proved for accurate math.Exp and math.Pow; the value is not the false positive rate because the code uses the number of set bits in place of the number of items: two refuting theorems."
 },
 "C83": {
  "status": "partial",
  "note": "Proved for bit buckets at every truncation point, and for bloom filters and counters at every truncation point after the two header bytes; C83_panics_refuted: with fewer than two bytes bloom.WithBytes and hll.WithBytes index out of range."
 },
 "C84": {
  "status": "proved",
  "note": "Any number of goroutines, any interleaving of single memory accesses, any implementation of the update that has the effect of Collator.Update when nobody interferes. The answers are those read from the record at the end; Store.Read itself is subject to C33/C34."
 },
 "C85": {
  "status": "partial",
  "note": "C85_refuted: two Writes racing to create a record both succeed and the maximum of one is lost. C85_first_alone_partial: true if the creating Write returns before any other Write to the key is called and the key gets its home slot."
 },
 "C86": {
  "status": "partial",
  "note": "For records in slots whose number is at least the record size and that Get can slice (C33, C34), and fewer than 2^31 rows applied meanwhile (C40)."
 },
 "C87": {
  "status": "proved",
  "note": "In any served state; key values unseen means that no posted row has the same 64 bit record key (C24), and the key is not the reserved 0 (C38)."
 },
 "C88": {
  "status": "partial",
  "note": "See is proved for three or more observations (exact value in exact arithmetic; never negative in float64); for fewer the code has no sensible value (C88_few_refuted). Sum is proved exactly and with its rounding error."
 },
 "C89": {
  "status": "proved",
  "note": "From the bits: comparison of float64 values is comparison of positions on the line of bit patterns."
 },
 "C90": {
  "status": "partial",
  "note": "False for negative a (C90_negative_refuted: the difference is divided by a, so any two numbers are close). For positive a sound and complete up to rounding."
 },
 "C91": {
  "status": "partial",
  "note": "False when another key took the home slot of the record (C91_refuted: the first-row flag is set again for every row, so the answer is that of the last row). Proved when no row of another key can take that slot, the slot is readable (C33), no 64 bit key collision, and the first row has exactly one f (C28)."
 },
 "C92": {
  "status": "partial",
  "note": "Needs the record to be readable wherever it was put (C33, C34), no 64 bit collision (C24), and, for max, min and uniquecount to be right, an undisturbed home slot and the field in the first row (C28, C29, C91)."
 },
 "C93": {
  "status": "proved",
  "note": "For every way of carrying out Collator.Update that has its effect when nobody interferes (impls_ok)."
 },
 "C94": {
  "status": "partial",
  "note": "The record must be readable where it is (C33, C34) and have fewer than 2^31 rows (C40)."
 },
 "C95": {
  "status": "partial",
  "note": "Refuted (C95_refuted) for posts that create the record at the same time: the greatest value is lost although both posts are answered 200. Proved if a post with rows for the record is answered before another such post arrives, the home slot is undisturbed and readable, and the first row has the field once (C28)."
 },
 "C96": {
  "status": "proved",
  "note": "For updates that make finitely many byte accesses (finite_updates) and have their effect when nobody interferes (impls_ok); schedules are weakly fair in rounds. The Go runtime (goroutine scheduling, sync.Mutex fairness) is represented by the schedule."
 },
 "C97": {
  "status": "proved",
  "note": "Ties the two server models together: ServerModel (functions) and ServerConcModel (interleaved steps); so the sequential theorems hold for all non-overlapping runs of the concurrent machine."
 },
 "C98": {
  "status": "partial",
  "note": "C98_mixed is proved without condition on the run. The two theorems about queries in the middle of a run need the record to be wholly readable where it lies (the slice fault of C30/C91) and fewer than 2^31 rows (32-bit sequence number)."
 },
 "C99": {
  "status": "proved",
  "note": "Ties the whole program (main, Serve, signals) to the machine of C84-C98; C99_starbow instantiates C98 for the shipped configuration."
 },
 "C100": {
  "status": "partial",
  "note": "The ends-only half is proved. That SIGINT or SIGTERM ends the process is refuted: the channel given to signal.Notify has no buffer, so a signal between Notify and the first receive is dropped and the process goes on (C100_lost_refuted); proved for all other moments (C100_signal_ends_partial)."
 },
 "C101": {
  "status": "partial",
  "note": "Serve returns an error exactly if it cannot listen (C101_serve_error); but main ignores it: the program ends with status 0 and prints nothing (C101_silent_refuted)."
 },
 "C102": {
  "status": "partial",
  "note": "False of the code, which does not wait for requests: C102_dropped_refuted shows that in every run no request is answered after the signal was received and main had one more turn; dropped_nonvacuous shows a post with part of its rows applied that is never answered."
 },
 "C103": {
  "status": "partial",
  "note": "C103_queries holds for every slot and every query (fewer than 2^31 rows for the record: 32-bit sequence numbers): it says exactly what can be seen of the record in slot x, which because of the slice fault of bufmap.Get (C30) is its first x bytes, and near the end of the store nothing (the connection is closed). The theorems about count(*) therefore need the counters, the first 8 bytes per row measure, to be readable where the record lies; C103_lost_refuted shows that this is needed."
 },
 "C104": {
  "status": "partial",
  "note": "C104_count_partial and C104_same_set_partial under the conditions of C91 (home slot undisturbed and readable, no 64-bit collision, field in the first row). Two parts are false of the code: one distinct value is reported as 2 (C104_one_value_refuted), and in a concrete run the 30th distinct value lowers the answer from 39 to 37 (C104_decrease_refuted). C104_low_range_partial gives the value in the linear range; C104_overlap_partial the bounds when requests overlap, in the linear range."
 },
 "C105": {
  "status": "partial",
  "note": "C105_only_two is proved without condition. The two theorems about the answers need the group to lie in a slot that Get can read as a whole (C33): 900 to 4984 of 5000 for country, 416 to 4978 for tz (country=US hashes to slot 309 and country=GB to 282, so the shipped program can only show part of their records), and for max, min and uniquecount the conditions of C91."
 },
 "C106": {
  "status": "partial",
  "note": "HarmonicCount equals the published formula when no register is empty (C106_flajolet_partial); the code weighs an empty register 1/2 where the formula has 1 (C106_harmonic is the general value, C106_empty_refuted: almost twice the published value on the empty counter). PoissonCount is Ertl's estimate (C106_ertl, C106_ertl_empty). The estimate must be below 2^61 (beyond, see C76)."
 },
 "C107": {
  "status": "proved",
  "note": "Within one in a million of the switching point between the two ranges either estimator may be used, so the theorems exclude that band; so too within 2^-27 of the linear counting limit."
 },
 "C108": {
  "status": "proved",
  "note": "URL.RawPath is taken to be empty (no unusual percent-encoding); the Location header is not part of the modelled answer, clean_path is what it is built from."
 },
 "C109": {
  "status": "proved",
  "note": "For the summary itself nothing is missing; the _partial theorems state it for the HTTP answer, under the readability and collision conditions of C70. How the number is printed (fmt) is a parameter."
 },
 "C49": {
  "note": "The claim is false of the code: 2^31 writes during one read bring the 32 bit version counter back to its old value and the read returns a mixture (the theorem exhibits the execution); C48 is the positive half, below that many writes."
 },
 "C110": {
  "status": "proved",
  "note": "That Meanvar divides by n and not n-1 is C61; fewer than three observations for See is C88."
 },
 "C111": {
  "status": "partial",
  "note": "The upper bound holds. The lower bound and the claim about precision are false of the code: FNV-1 carries the last bytes of a value into few registers. After any beginning, any number of values that differ in the last two bytes counts as at most 3 up to precision 16, in the last three bytes as at most 18 at precision 10 (2^p/63 + 2 in general; sixteen million in one witness), in the last three decimal digits as at most 3 up to precision 10; ten thousand values numbered with four digits count as at most 21, a hundred thousand with five as at most 249, at precision 10."
 },
 "C112": {
  "status": "partial",
  "note": "False for small rates: double hashing modulo m has at most 4 m^2 patterns of bits, so for every filter of m bits and every set of at least 8 m^2 values at least one pair in 8 m^2 is a false positive; filters made for up to 1000 items at 2^-60 have a rate of at least 2^-36 with one item in them. What the textbook formula, which takes hashes as independent, gives for the sizes chosen is C79. An upper bound on the true rate over given values is not proved: it would be a claim about FNV on those values."
 }
}