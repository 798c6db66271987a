{
 "bb6": {
  "note": "equivalent mutant (the cap is repeated inside incn): the claim stays true, the proof scripts that failed only unfold the removed line"
 },
 "bm7": {
  "note": "equivalent mutant on reachable states: the claim stays true, the proof scripts failed because the probe loop has another shape"
 },
 "bb15": {
  "tightened": [
   "C82_bitbucket_truncated",
   "C82_bloom_truncated",
   "C82_hll_truncated"
  ],
  "note": "survived at first: no theorem fixed the error of a truncated stream; C82 was added"
 },
 "sv11": {
  "tightened": [
   "C87_store_without_key",
   "C87_without_key"
  ],
  "note": "survived at first: no theorem fixed the answer to a query without a full key; C87 was added"
 },
 "su1": {
  "tightened": [
   "C88_exact_partial"
  ],
  "note": "survived at first: nothing related See to the formula; C88 was added"
 },
 "br1": {
  "note": "equivalent mutant: bitbucket.ReadFrom maps io.EOF itself, so the claim stays true"
 },
 "br4": {
  "note": "equivalent mutant for every reader that reports io.EOF once and for all: bitbucket.ReadFrom has already read to io.EOF, the second check cannot fail; the claim about trailing bytes (C08) is decided in bitbucket.ReadFrom"
 }
}