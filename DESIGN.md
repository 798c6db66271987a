# Formal model of iand/starbow in Rocq (Coq 8.16.1)

## 1. Layout

For each component `X` there are up to five files in `rocq/theories/`:

* `XModel.v`  - executable Gallina model, function by function, each definition citing `/repo` lines; no proofs.
* `XSpec.v`   - the small independent specification the property theorems are stated against.
* `XProofs.v`, `XTop.v` (and a few topic files) - lemmas.
* `XProps.v`  - only the property theorems (`exact lemma.`), non-vacuity `Example`s and `Print Assumptions`.

`Base.v` holds the shared vocabulary: outcomes (`Ok`/`Err`/`Panic` - Go error returns and run-time panics are values),
machine words as `Z` with explicit wrap (`u8`,`u16`,`u64`,`s64`), byte slices as `list Z`, little/big-endian codecs,
`io.Reader` as a list of read events (arbitrary fragmentation, data-with-EOF, read errors) and `io.Writer` with a possible
failure point. `Float64.v` wraps Flocq's `binary64` (round to nearest even) for Go's `float64`.

`tools/manifest.py` regenerates `MANIFEST.json` from the theorem names in `*Props.v` and `*Demo.v` and from `tools/notes.json`.
`tools/mutate.py` and `tools/mutations*.py` are the seeded-bug experiments logged in `seeded/LOG.jsonl`.

Where the code violates the property as a user would state it, the exact statement is refuted by a theorem `..._refuted`
with a witness, and the strongest version that does hold is proved as `..._partial` (or under explicit conditions).

## 2. Plan per property

| ids | what is modelled | how it is proved |
|---|---|---|
| C01-C03 | `fnv.go` completely, uint64 arithmetic as `Z mod 2^64` | induction on input; invertibility of the odd prime mod 2^64 |
| C04-C09, C82, C83 | `bitbucket.go` completely, with uint8/uint16/int wrap and index panics; the serialisation code of `bloom.go` and `hll.go` | bit-level (`Z.testbit`) characterisation, then refinement to a list of saturating counters; reader/writer event model, induction on the events |
| C10-C12 | `bloom.go` membership and serialisation | on top of the bitbucket refinement |
| C78-C81 | `bloom.go` sizing (`New`, `mk`), `Count`, `ErrorRate` on binary64; `math.Log`, `math.Exp`, `math.Pow` are parameters with a stated accuracy | relative-error calculus over Flocq (`FloatRel.v`), Taylor bounds on exp/ln (`RealBounds.v`), real analysis of the false positive rate |
| C13-C16, C18 | `hll.go` Add/New/WithBytes/WriteTo/ReadFrom | registers = max of rho over items, order-independence |
| C17, C74-C77 | `hll.go` Count, LinearCount, harmonic and poisson estimators on binary64, `math.Log` a parameter | interval lemmas over Flocq, ln bounds; vm_compute witnesses for the refutations |
| C19-C22, C63-C65 | `stat64/stats.go` on binary64, bytes through `bits_of_b64` | fold lemmas; Welford identity over R; Flocq rounding lemmas; monotonicity of rounding |
| C23-C32, C66 | `schema.go`, `compile.go`, `measure.go`, the demo schema; `strconv.ParseFloat` and the cardinality estimate are parameters | layout invariant of Compile; simulation of the byte record by per-measure abstract states |
| C33-C38 | `bufmap.go` sequentially | probe-sequence invariant |
| C39-C43, C73 | `bufmap.go` as an interleaving machine: each atomic load/CAS/add, lock, and each byte read/written is one step | invariants over all schedules, all programs, all update functions |
| C41, C44-C46, C71 | `incmap.go` as an interleaving machine | same |
| C43, C47-C49, C72 | `seqlock.go` as an interleaving machine with uint32 wrap | same |
| C50-C56, C67-C70 | `server.go` (bufio.Scanner, parseRow, parseFV, recvObservation, queryCollation, both handlers), `storage.go` | list lemmas, a model of bufio.Scanner with ScanLines, composition of all the above |
| C84-C86 | `storage.go` called by any number of goroutines, on top of the interleaving machine of `bufmap.go` (`StoreConc*.v`) | erasure to a history of the record map; ghost lists of writes under way; C39, C40, C42 |
| C93, C94, C95 | `server.go` ServeHTTP as a machine: one goroutine per request, its handler a program that calls the stores, every call of a store run step by step on the machine of C84-C86 (`ServerConcModel.v`) | an invariant relating each request's state to the handler's trace and each store's history to an execution of its own machine; then the theorems of C84-C86 for each store |
| C96 | the machine of C93-C95 | a measure: bytes and probes left of every call in progress and calls left of every handler; a turn of an enabled goroutine lowers it, a turn of a spinning one leaves it, and some goroutine is always enabled (one that a spinner waits for); so N rounds, N the measure of the initial state, suffice (`BufconcFair.v`, `ServerConcFair.v`) |
| C97 | the machine of C93-C96 and the sequential `ServerModel.v` | a call that runs by itself reaches the result and the bytes of the sequential function (`BufconcSolo.v`: probe, copy and update loops by induction); a handler with such calls is ServeHTTP (`ServerConcSolo.v`); invariant over the run (`ServerConcSolo2.v`) |
| C98 | the machine of C93-C96, posts that fail included | histories with failing updates as cell histories (`CollationMixed.v`); what one thread left in a store is a prefix of its rows (`ServerConcMixed.v`, induction over the handler); linearisation as in C93/C94 (`StoreConcMixed.v`, `ServerConcMixed2.v`) |
| C99-C102 | `starbow.go`, `server.go` New, Serve, waitSignal, ServeHTTP: the main goroutine statement by statement, signals and request steps in between (`ProcessModel.v`) | an invariant that fixes the history and the flags by the position of the main goroutine (`ProcessProofs.v`) |
| C103 | `server.go`, `bufmap.go`: the machine of C98, queries for every slot (`ServerSlotSpec.v`) | the slot is fixed by the final map (C41), `mixed_exact` says from which moment and which bytes a query is answered; the order is that of the updates in the history of the store (`ServerSlotProps.v`) |
| C104 | `hll.go` Count in the server of C91 and C95 (`ServerUniqueSpec.v`: `est` is the modelled Count) | C91 and C95 give the counter, C13, C17, C74, C76 and C77 its count; the refuting run has 30 rows computed through the model (`ServerUniqueDemo.v`) |
| C105 | `demo.go`, `starbow.go` (`DemoModel.v`, `ProcessModel.v`), tables written out in `DemoSpec.v` | instances of C54 and C92, the declared measures compared with the tables |
| C106, C107 | `hll.go` harmonic, sigma, tau, poisson, Count (`HllCountModel.v`) against the formulas over the reals in `HllEstSpec.v` (limits by `Un_cv`) | relative error calculus for the float64 loops (`HllEstArith.v`), partial sums of sigma and tau with bounds on the remainder at the step where the loop stops (`HllEstSigma.v`, `HllEstTau.v`), histogram sums (`HllEstProofs.v`, `HllEstTop.v`) |
| C108 | `server.go` registerHandlers, net/http's ServeMux and path.Clean (`ServerModel.v`: mux_route, clean_path) | clean paths defined by their elements (`RouteSpec.v`); splitting and joining are inverse (`RouteProofs.v`) |
| C109 | `stats.go` Update, Mean, Variance (`Stat64Model.v`) | textbook values of `Stat64RealSpec.v`, observations bounded by `within` (`Stat64ErrSpec.v`); the float run and the exact run of the same recurrence are compared step by step (`Stat64ErrProofs.v`), over HTTP by C70 (`ServerErrProps.v`) |
| C110 | `stats.go` Meanvar, See (`StatsUtilModel.v`) | textbook values (`Stat64RealSpec.v`, `StatsErrSpec.v`); roundings counted along the sum of squares (`StatsErrProofs.v`) |
| C111 | `hll.go` Add, Count with `fnv.go` | the hashes of values with a common beginning lie in short intervals (`HllSuffixProofs.v`), which reach few registers; Count is bounded by the registers reached (`HllRegsTop.v`) |
| C112 | `bloom.go` Add, Has, newHasher, next, New | the bits of a value depend on (a mod m, one carry, the class of b) only; Cauchy-Schwarz over the classes (`BloomFloorProofs.v`) |
| C92 | `server.go`, `rough.go`, `storage.go`, `schema.go` Read together | C57 for the text, the store invariants of C56 and C91 for the values, `ServerQuerySpec.v` says what a right value is |
| C91 | `server.go`, `storage.go`, `collation.go`, `bufmap.go` together | a store invariant relating the record in its home slot to the posted rows, with the init flag of the first row only (`StoreHome.v`, `ServerHome.v`) |
| C87 | `storage.go` Read, `server.go` query handler | the server invariant of C53-C56 |
| C57-C60 | `rough.go`: the three regular expressions under a greedy, backtracking, leftmost-first matcher over runes with case folding | reasoning about the matcher |
| C61 | `internal/stats/stats.go` on binary64 and over R | algebra; refutation |
| C88 | `internal/stats/stats.go` | exact arithmetic over R, sign analysis on binary64 |
| C89, C90 | `testutil/float.go`, `math.Nextafter`/`Copysign`/`IsInf` as their Go source | bits of a float64 as its position on the line (`FloatBits.v`) |
| C62 | `testutil/rand.go` with the random source as an arbitrary function | Permutation; counting |

No property is `not_applicable`.

## 3. Trusted base

1. **Coq's kernel** (8.16.1, including `vm_compute`), the standard library, and the definitions (not axioms) of std++ and Flocq
   that the statements mention (`list` operations, `binary64`, `Bplus` ...).
2. **Axioms.** The development declares none. `Print Assumptions` after every theorem gives one of three answers:
   * *Closed under the global context*: every theorem of C01-C16, C18, C23 and C24, `C25_layout`, `C25_writers_declared`, C33-C51,
     `C52_every_body`, C57-C60, C62, C71-C73, `C80_odd_never_full`, C82, C83, `C108_redirect_once`, `C112_floor`.
   * the axioms of the standard library's real numbers `ClassicalDedekindReals.sig_forall_dec` and
     `FunctionalExtensionality.functional_extensionality_dep`: `C20_exact_mean`, `C20_exact_welford`, `C61_exact_partial`, `C61_exact_refuted`,
     `C88_sum_exact`; and these two with `sig_not_dec`: `C88_exact_partial`.
   * those two plus `ClassicalDedekindReals.sig_not_dec` and `Classical_Prop.classic` (all standard library; Flocq's proofs about
     `binary64` use them): every other theorem, i.e. those whose statement or model mentions a float64 operation
     (C17, C19, C21, C22, `C25_field_count_ignored`, C26-C32, the rest of C52-C56, C61, C63-C70, C74-C81, the rest of C84-C111, `C112_small_rate_refuted`).
3. **Faithfulness of the model**: the reading of the Go code in the `*Model.v` files, checked by hand against `/repo`, and the
   following assumptions about Go and its libraries.
   * `int`, `uintptr` are 64 bits; conversions of out-of-range floats to integers behave as on amd64 (`CVTTSD2SI`: -2^63); the
     compiler does not fuse multiply-add (true on amd64; the Go specification permits it elsewhere).
   * Memory is sequentially consistent at the granularity of single bytes and atomic operations. In Go's memory model the plain
     byte accesses of bufmap and seqlock readers are data races; a weaker machine is not modelled. `copy` is modelled byte by byte in
     increasing order (bufmap, seqlock).
   * Allocation never fails; slices handed in by callers are not modified concurrently by the caller.
   * `math.Log`, `math.Exp`, `math.Pow` are arbitrary functions; theorems that need accuracy take it as an explicit hypothesis
     (`log_ok`: relative error 2^-50; similarly `exp_ok`, `pow_ok`), and a witness function is shown to satisfy it.
   * `strconv.ParseFloat` is an arbitrary function from bytes to a float64 or an error. `bufio.Scanner`/`ScanLines`, `regexp` on the
     three patterns, `io.ReadFull`, `encoding/binary`, `sync.Mutex`, `math/rand.Perm`'s callers are modelled as their documentation says.
   * `net/http` is modelled at its interface: a request is method, form value of `q`, body (a reader), and a point at which the
     context is cancelled; a handler returns a status and a body, or panics (connection dropped). Form decoding is not modelled, nor that
     the body of an answer to HEAD is not sent. `http.ServeMux` is that of the Go releases before 1.22 (the pinned commit predates them).
   * `os/signal`: before Notify SIGINT and SIGTERM end the process; after it they are sent to the channel without blocking. `net.Listen` succeeds
     or fails by an arbitrary function of its arguments. When main returns the process ends with status 0.

   Evidence for this reading, not counted as proof of any property: `RepoTests.v` replays the deterministic unit tests of the repository on
   the model.

## 4. What is modelled

| file | modelled | not modelled |
|---|---|---|
| `demo.go` | the two schemas and their stores | - |
| `starbow.go` | all | - |
| `internal/hash/fnv` | all | - |
| `internal/bitbucket` | all | - |
| `internal/summary/bloom` | all | - |
| `internal/summary/hll/hll.go` | all | `errest.go` (build-ignored experiment) |
| `internal/summary/stat64` | all | - |
| `internal/stats` | all | - |
| `internal/bufmap`, `incmap`, `seqlock` | all, sequentially and as interleaving machines | `runtime.Gosched` is a no-op step |
| `internal/collation` | all of `schema.go` but `Reset`, `compile.go`, `measure.go` | `Row.Reset`, `Query.Reset` (called nowhere), `record.go` (empty), commented-out measures |
| `internal/query` | all | - |
| `internal/storage` | all | - |
| `internal/server` | all: parsing, both handlers, `New`, `Serve`, signals | time stamps of log lines; connections |
| `internal/testutil` | all (`rand.go`, `float.go`) | - |
| `internal/version` | - | version strings |

Simplifications are stated in the comment of each definition. The recurring ones: pointers and slices that alias a buffer are
modelled by value with an explicit write-back (`BB_flush`, `Bloom_flush`, `Hll_flush`); Go maps are functions or association lists,
and where their iteration order is observable (query parsing) it is a parameter.

## 5. Findings

Each is a theorem (`_refuted`) unless marked otherwise.

* **bufmap.Get** copies `values[x*s : x*(s+1)]`: slot x yields only x bytes, and Get of a key in the last slots panics (C33, C34).
  Through the server: keys in slot 0 count 0, keys in the last slots drop the connection (C56).
* **bufmap.Update** passes `init = true` for ever to keys displaced from their home slot (C37); a panicking update function wedges the
  slot for ever (C43); Get(0) reports found on an empty slot (C38); with two concurrent creators an update without `init` can run first
  and then be wiped (C42). Through the store and the server: of two concurrent first posts the greater value is lost from max although both are answered 200 (C85, C95).
  Through the server, also without concurrency: max and min of a key displaced from its home slot are those of its last row (C91).
* **seqlock/bufmap** 32-bit version counters: 2^31 writes during one read give a torn read (C49, C40).
* **seqlock**: a panic in the update function blocks the block for ever (C43).
* **collation**: key values are concatenated without separators (C24); measures of a field absent in the first row are never initialised
  (max/min compare with 0, uniquecount rejects all later rows) (C28, C30); NaN makes max/min forget (C28); duplicates of a field in the first
  row reset its counter (C29); the row count is incremented before a value fails to parse (C31).
* **hll**: FNV-1's last byte reaches only the low 8 bits, so values differing only in the last byte share a register (C18); one distinct
  item counts as 2 (C17); sixteen crafted items count as -2^63 (C76); adding an item can lower the count (C77);
  after any beginning all values that differ in the last three bytes only fall into 17 of the 1024 registers at precision 10 and count as at
  most 18, ten thousand values numbered with four digits count as at most 21, and any two last bytes as at most 3 up to precision 16 (C111; this
  explains the 38 that README.md prints for the 1315 IATA codes of the United States);
  harmonic() weighs an empty register 1/2 where the published sum has 2^0 = 1 (C106).
* **bloom**: `New(0, p)` returns a filter whose every Add divides by zero (C78); Count is -2^63 on a full filter (C80); ErrorRate uses the
  number of set bits in place of the number of items (C81); double hashing modulo m has so few patterns that small false
  positive rates are never reached: at least 2^-36 where 2^-60 was asked for (C112); WithBytes on fewer than two bytes panics, also in hll (C83).
* **stat64**: overflow of `v - mean` gives a negative variance (C22).
* **server**: timestamps after 2262 wrap (C50); a line that fails leaves the earlier lines applied, and a cancelled request is answered 200
  although lines were dropped (C52); a truncated upload applies the truncated last line (C68); an unterminated last line of exactly 65536 bytes
  is accepted or rejected depending on fragmentation (C67).
* **query**: a value containing ` where ` misparses, a value ending in `=` swallows the next criterion (C59); measures of several fields come back
  in map order (C60).
* **stats.Meanvar** divides by n although documented as the sample variance (C61). **stats.See** of two observations is never a number (C88).
* **testutil.Close64** divides by `a` rather than `|a|`: with negative `a` any two numbers are close (C90).
* **demo**: the groups country=US and country=GB hash to slots 309 and 282 of a map whose slots below 900 Get reads only in part (C33), so queries
  of these groups show a truncated record (C105).
* **main, Serve**: the signal channel has no buffer, so a signal between Notify and the first receive is lost (C100); main ignores the error of Serve:
  on a port that is taken starbow ends with status 0 and no message (C101); requests in progress are dropped at the end (C102). A Server used as
  an http.Handler without Serve panics on every request (nil mux; by inspection).
* **bitbucket**: headers whose n*w overflows are accepted or panic; ReadFrom does not check the width (C08).
