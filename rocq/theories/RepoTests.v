(** Replay of the repository's own unit tests on the model.

    Every Example below is one deterministic test of /repo (cited), computed on
    the model by Coq's evaluator.  They prove no property: they are evidence
    that the model is a faithful transcription, since each would fail here if
    the model departed from the code on that test's input.  The tests that draw
    their data from math/rand, count allocations or run goroutines are not
    replayed. *)
From Coq Require Import String.
From Verif Require Import Base Float64 FnvModel BitbucketModel Stat64Model BloomModel HllModel CollationModel QueryModel.
From Verif Require IncmapModel BufmapModel SeqlockModel.
Local Open Scope Z_scope.

(** ** internal/query/rough_test.go: the seven inputs of TestRoughParse *)
Definition fm (f : String.string) (ms : list String.string) : FM := MkFM (str f) (map str ms).
Definition fv (f v : String.string) : FV := MkFV (str f) (str v).
Section query_tests.
Local Open Scope string_scope.
Definition rough (s : String.string) := RoughParse Datatypes.id (str s).
Example rough_test :
  rough "select sum(price) where customer='jim'" = Ok (MkQuery [fm "price" ["sum"]] [fv "customer" "jim"]) ∧
  rough "select sum(price), mean(quantity) where customer='jim'" =
    Ok (MkQuery [fm "price" ["sum"]; fm "quantity" ["mean"]] [fv "customer" "jim"]) ∧
  rough "select sum(price),mean(quantity) where customer='jim'" =
    Ok (MkQuery [fm "price" ["sum"]; fm "quantity" ["mean"]] [fv "customer" "jim"]) ∧
  rough "select sum(price) where customer='jim' and country='UK'" =
    Ok (MkQuery [fm "price" ["sum"]] [fv "customer" "jim"; fv "country" "UK"]) ∧
  rough "select sum(price), mean(price) where customer='jim'" =
    Ok (MkQuery [fm "price" ["sum"; "mean"]] [fv "customer" "jim"]) ∧
  rough "SeLeCt sum(price) whERE customer='jim'" = Ok (MkQuery [fm "price" ["sum"]] [fv "customer" "jim"]) ∧
  rough "select sum(price) where customer='jim jones'" = Ok (MkQuery [fm "price" ["sum"]] [fv "customer" "jim jones"]).
Proof. vm_compute. done. Qed.

(** ** internal/collation/schema_test.go: TestRowKeyValue, TestQueryKeyValue.
    [hash] is the test's own helper (lines 9-15). *)
Definition hash (vs : list String.string) : Z := Fnv64_Sum64 (fold_left (λ h v, (Fnv64_Write h (str v)).1) vs New64).
Example key_test : ∀ t fms,
  let kv fvs keys := (Row_KeyValue (MkRow t fvs) (map str keys), Query_KeyValue (MkQuery fms fvs) (map str keys)) in
  let twice (r : Z * bool) := (r, r) in
  kv [fv "foo" "bar"] ["foo"] = twice (hash ["foo"; "bar"], true) ∧
  kv [fv "fez" "bar"] ["fez"] = twice (hash ["fez"; "bar"], true) ∧
  (kv [fv "foo" "bar"] ["fez"]).1.2 = false ∧ (kv [fv "foo" "bar"] ["fez"]).2.2 = false ∧
  kv [fv "foo" "bar"; fv "fez" "bar"; fv "fuz" "bar"] ["foo"; "fuz"] = twice (hash ["foo"; "bar"; "fuz"; "bar"], true).
Proof. intros t fms. vm_compute. done. Qed.
End query_tests.

(** ** internal/collation/compile_test.go *)
Definition digit (c : Z) : bool := (48 <=? c) && (c <=? 57).
(** ParseFloat on decimal digits only, which is what these tests use *)
Definition pf (b : bytes) : option float := if forallb digit b then Some (f_of_Z (fold_left (λ a c, 10 * a + (c - 48)) b 0)) else None.
(** coll.Update on each row in turn, init for the first only *)
Fixpoint updates (c : Collator) (buf : bytes) (init : bool) (rows : list Row) : outcome bytes :=
  match rows with
  | [] => Ok buf
  | r :: rows =>
      match Coll_Update pf c r buf init with
      | (buf, Ok _) => updates c buf false rows
      | (_, Err e) => Err e
      | (_, Panic) => Panic
      end
  end.
Definition rowfoo (v : String.string) : Row := MkRow 0 [fv "foo"%string v].
Definition fooschema (ms : list measure) : Schema := MkSchema (str "foocounter") [] [MkMS (str "foo") ms] [].
Definition zeros (n : Z) : bytes := replicate (Z.to_nat n) 0.
(** TestCompileRecordMeasure *)
Example compile_record_test :
  let coll := Compile (MkSchema (str "rowcounter") [] [] [RCount]) in
  out_map (λ b, get64 (firstn 8 b)) (updates coll (zeros (c_size coll)) true (replicate 15 (MkRow 0 []))) = Ok 15.
Proof. vm_compute. done. Qed.
(** TestCompileWithMeasure.  Floats are compared through math.Float64bits. *)
Example compile_measure_test :
  let coll := Compile (fooschema [MCount; MSum]) in
  out_map (λ b, (Stat_Count b, out_map fbits (Stat_Sum b))) (updates coll (zeros (c_size coll)) true (replicate 15 (rowfoo "4"%string))) =
  Ok (Ok 15, Ok (fbits (f_of_Z 60))).
Proof. vm_compute. done. Qed.
(** TestCompileUsesSameSummaryForCountSumMeanVariance *)
Example compile_same_summary_test :
  let coll := Compile (fooschema [MCount; MSum; MMean; MVariance]) in
  length (default [] (c_cont coll !! str "foo")) = 1%nat ∧
  out_map (λ b, (Stat_Count b, out_map fbits (Stat_Sum b), out_map fbits (Stat_Mean b), out_map fbits (Stat_Variance b)))
    (updates coll (zeros 32) true [rowfoo "4"%string; rowfoo "2"%string; rowfoo "9"%string]) =
  Ok (Ok 3, Ok (fbits (f_of_Z 15)), Ok (fbits (f_of_Z 5)), Ok (fbits (f_of_Z 13))).
Proof. vm_compute. done. Qed.
(** TestCompileWithDiscreteMeasure: the test compares the Counts; the registers
    are equal, so the Counts are. *)
Definition letters : list String.string := ["alpha"; "beta"; "gamma"; "delta"; "epsilon"; "zeta"; "eta"; "theta"; "iota"; "kappa"; "lambda"; "mu"]%string.
Fixpoint hll_adds (c : Counter) (vs : list bytes) : outcome Counter :=
  match vs with [] => Ok c | v :: vs => let! c := Hll_Add c v in hll_adds c vs end.
Example compile_discrete_test :
  let coll := Compile (fooschema [MCardinality 6]) in
  match (let! c := Hll_New 6 in hll_adds c (map str letters)) with
  | Ok c => (let! b := updates coll (zeros (c_size coll)) true (map rowfoo letters) in Hll_WithBytes b) = Ok c ∧ c_size coll = Hll_Len c
  | _ => False
  end.
Proof. vm_compute. done. Qed.

(** ** internal/bitbucket/bitbucket_test.go *)
Definition bb4x8 := BB [13; 22; 36; 199] 4 8.
Definition bb4x4 := BB [218; 24] 4 4.     (* 0xDA, 0x18 *)
Definition bb4x3 := BB [232; 224] 4 3.    (* 0xE8, 0xE0 *)
Example bb_length_test :
  map (λ nw : Z * Z, bb_length nw.1 nw.2) [(1,8);(60,8);(1,4);(2,4);(13,4);(2,3);(3,3);(8,3);(65,1)] = [1;60;1;1;7;1;2;3;9].
Proof. vm_compute. done. Qed.
Example bb_get_test :
  (BB_Get bb4x8 0, BB_Get bb4x8 3, BB_Get bb4x4 0, BB_Get bb4x4 3, BB_Get bb4x3 0, BB_Get bb4x3 1, BB_Get bb4x3 2) =
  (Ok 13, Ok 199, Ok 13, Ok 8, Ok 7, Ok 2, Ok 1).
Proof. vm_compute. done. Qed.
Example bb_set_test :
  map (out_map bb_data) [BB_Set bb4x8 0 12; BB_Set bb4x8 3 20; BB_Set bb4x4 0 3; BB_Set bb4x4 3 0; BB_Set bb4x3 1 7; BB_Set bb4x3 2 3] =
  [Ok [12;22;36;199]; Ok [13;22;36;20]; Ok [58;24]; Ok [218;16]; Ok [252;224]; Ok [233;224]].
Proof. vm_compute. done. Qed.
Example bb_incn_test :
  map (out_map bb_data) [BB_IncN bb4x8 0 3; BB_IncN bb4x8 3 100; BB_IncN bb4x4 0 1; BB_IncN bb4x4 0 15; BB_IncN bb4x4 3 1; BB_IncN bb4x3 1 1; BB_IncN bb4x3 2 3] =
  [Ok [16;22;36;199]; Ok [13;22;36;255]; Ok [234;24]; Ok [250;24]; Ok [218;25]; Ok [236;224]; Ok [234;96]].
Proof. vm_compute. done. Qed.
Definition bbser : bytes := [1; 8; 4; 0; 0; 0; 0; 0; 0; 0; 13; 22; 36; 199].
Definition one_chunk (b : bytes) : reader := [EvData b].
Example bb_writeto_test : BB_WriteTo bb4x8 (Writer [] None) = (14, None, Writer bbser None).
Proof. vm_compute. done. Qed.
(** TestReadFrom, TestReadFromExtraData, TestReadFromChecksVersion *)
Example bb_readfrom_test :
  out_map (λ r, r.1) (BB_ReadFrom (BB [] 0 0) (one_chunk bbser)) = Ok (14, None, bb4x8) ∧
  out_map (λ r, r.1.1.2) (BB_ReadFrom (BB [] 0 0) (one_chunk (bbser ++ [44]))) = Ok (Some ErrShortBuffer) ∧
  out_map (λ r, r.1.1.2) (BB_ReadFrom (BB [] 0 0) (one_chunk (2 :: tail bbser))) = Ok (Some ErrBBVersion).
Proof. vm_compute. done. Qed.
(** TestWithBytes, TestWithBytesAdoptsBuffer *)
Example bb_withbytes_test :
  BB_WithBytes bbser = Ok bb4x8 ∧
  (let! b := BB_WithBytes bbser in let! b := BB_Set b 3 20 in index (BB_flush bbser b) 13) = Ok 20.
Proof. vm_compute. done. Qed.

(** ** internal/summary/stat64/stats_test.go: TestSummary, TestSummaryUpdateMulti *)
Definition obs : list float := map f_of_Z [1; 4; 2; 6; 1; 7; 9; 3].
Fixpoint stat_updates (s : bytes) (vs : list float) : outcome bytes :=
  match vs with [] => Ok s | v :: vs => let! s := Stat_Update s v in stat_updates s vs end.
Definition stat_view (s : bytes) := (Stat_Count s, out_map fbits (Stat_Sum s), out_map fbits (Stat_Mean s), out_map fbits (Stat_Variance s)).
(** 33.0/8.0 and ((1+16+4+36+1+49+81+9) - (33*33)/8)/7, which Go computes
    exactly as constants and rounds once: 8.696428571428571 = 487/56 *)
Definition stat_want : outcome Z * outcome Z * outcome Z * outcome Z :=
  (Ok 8, Ok (fbits (f_of_Z 33)), Ok (fbits (fdiv (f_of_Z 33) (f_of_Z 8))), Ok (fbits (fdiv (f_of_Z 487) (f_of_Z 56)))).
Example stat_test :
  out_map stat_view (stat_updates Stat_New obs) = Ok stat_want ∧
  out_map stat_view (Stat_UpdateMulti Stat_New obs) = Ok stat_want.
Proof. vm_compute. done. Qed.

(** ** internal/summary/bloom/bloom_test.go *)
Definition foo1024 : outcome Bloom := let! b := Bloom_NewBits 1024 6 in Bloom_Add b (str "foo").
(** TestAdd, TestHas *)
Example bloom_add_has_test :
  (let! b := foo1024 in BB_CountN (bl_bits b) 1) = Ok 6 ∧
  (let! b := foo1024 in Bloom_Has b (str "foo")) = Ok true ∧
  (let! b := foo1024 in Bloom_Has b (str "bar")) = Ok false.
Proof. vm_compute. done. Qed.
Definition bloom_ser (b : Bloom) : bytes := w_out (Bloom_WriteTo b (Writer [] None)).2.
(** TestWriteTo *)
Example bloom_writeto_test :
  match Bloom_NewBits 256 3, BB_New 256 1 with
  | Ok bf, Ok bb =>
      Bloom_WriteTo bf (Writer [] None) = (BloomHdrLen + BB_Len bb, None, Writer (1 :: 3 :: w_out (BB_WriteTo bb (Writer [] None)).2) None)
  | _, _ => False
  end.
Proof. vm_compute. done. Qed.
Definition xyz256 : outcome Bloom := let! b := Bloom_NewBits 256 3 in Bloom_Add b (str "xyz").
Definition bl0 : Bloom := BL (BB [] 0 0) 0 0.
(** TestReadFrom, TestReadFromExtraData, TestReadFromChecksVersion, TestWithBytes *)
Example bloom_read_test :
  match xyz256 with
  | Ok bf =>
    out_map (λ r, r.1) (Bloom_ReadFrom bl0 (one_chunk (bloom_ser bf))) = Ok (Z.of_nat (length (bloom_ser bf)), None, bf) ∧
    bl_k bf = 3 ∧ bl_m bf = 256 ∧ Bloom_Has bf (str "xyz") = Ok true ∧
    out_map (λ r, r.1.1.2) (Bloom_ReadFrom bf (one_chunk (bloom_ser bf ++ [44]))) = Ok (Some ErrShortBuffer) ∧
    out_map (λ r, r.1.1.2) (Bloom_ReadFrom bf (one_chunk (2 :: tail (bloom_ser bf)))) = Ok (Some ErrBloomVersion) ∧
    Bloom_WithBytes (bloom_ser bf) = Ok bf
  | _ => False
  end.
Proof. vm_compute. done. Qed.

(** ** internal/summary/hll/hll_test.go *)
Definition smallCounter : outcome Counter :=
  let! c := Hll_New 6 in hll_adds c [str "the sun has got his hat on"; str "hip hip hip hooray"].
Definition hll_ser (c : Counter) : bytes := w_out (Hll_WriteTo c (Writer [] None)).2.
Definition hc0 : Counter := HC 0 0 (BB [] 0 0).
(** TestWriteTo, TestReadFrom, TestReadFromExtraData, TestReadFromChecksVersion,
    TestWithBytes, TestWithBytesAdoptsBuffer, TestLen *)
Example hll_test :
  match smallCounter with
  | Ok c =>
    (Hll_WriteTo c (Writer [] None)).1 = (HllHdrLen + BB_LenOf 64 6, None) ∧
    out_map (λ r, r.1) (Hll_ReadFrom hc0 (one_chunk (hll_ser c))) = Ok (Z.of_nat (length (hll_ser c)), None, c) ∧
    out_map (λ r, r.1.1.2) (Hll_ReadFrom hc0 (one_chunk (hll_ser c ++ [44]))) = Ok (Some ErrShortBuffer) ∧
    out_map (λ r, r.1.1.2) (Hll_ReadFrom hc0 (one_chunk (2 :: tail (hll_ser c)))) = Ok (Some ErrHllVersion) ∧
    Hll_WithBytes (hll_ser c) = Ok c ∧ hc_p c = 6 ∧
    (let! d := Hll_Add c (str "and he's coming out today") in Ok (hll_ser d)) =
      (let! d := Hll_Add c (str "and he's coming out today") in Ok (Hll_flush (hll_ser c) d)) ∧
    Hll_Len c = Hll_LenOf 6
  | _ => False
  end.
Proof. vm_compute. done. Qed.

(** ** internal/hash/fnv/fnv_test.go: Write, WriteByte, WriteString, WriteUint64,
    String64, Sum64 against the standard library's hash/fnv, here against the
    published FNV-1 and FNV-1a 64-bit digests. *)
Example fnv_vectors :
  map (λ s, Sum64 (str s)) [""; "a"; "ab"; "abc"; "foobar"]%string =
    [14695981039346656037; 12638153115695167422; 590647783936702392; 15626587013303479755; 3750802935296928194] ∧
  map (λ s, Sum64a (str s)) [""; "a"; "ab"; "abc"; "foobar"]%string =
    [14695981039346656037; 12638187200555641996; 620445648566982762; 16654208175385433931; 9625390261332436968] ∧
  map (λ s, String64 (str s)) ["a"; "ab"; "abc"]%string = map (λ s, Sum64 (str s)) ["a"; "ab"; "abc"]%string ∧
  map (λ s, String64a (str s)) ["a"; "ab"; "abc"]%string = map (λ s, Sum64a (str s)) ["a"; "ab"; "abc"]%string ∧
  fold_left Fnv64_WriteByte (str "foobar") New64 = Sum64 (str "foobar") ∧
  fold_left Fnv64a_WriteByte (str "foobar") New64a = Sum64a (str "foobar").
Proof. vm_compute. done. Qed.

(** ** internal/incmap/incmap_test.go: TestEmpty, TestInc, TestIncMultiple.
    One goroutine, its calls one after the other. *)
Section incmap_tests.
Import IncmapModel.
Definition inc_solo (ops : list op) : list res :=
  match New 1000 with
  | Ok m => omap (λ e, match e with ERet _ _ r => Some r | _ => None end)
              (exec (MkCfg m [None]) (flat_map (λ o, ACall 0 o :: replicate 30 (AStep 0)) ops)).2
  | _ => []
  end.
Example incmap_test :
  inc_solo [Get 100] = [RGet 0 false] ∧
  inc_solo [Inc 100 1; Get 100; Inc 100 2; Get 100] = [RInc true; RGet 1 true; RInc true; RGet 3 true] ∧
  let is := map Z.of_nat (seq 1 49) in
  inc_solo (map (λ i, Inc i i) is ++ map (λ i, Inc i (2 * i)) is ++ map Get is) =
    replicate 98 (RInc true) ++ map (λ i, RGet (3 * i) true) is.
Proof. vm_compute. done. Qed.
End incmap_tests.

(** ** internal/bufmap/bufmap_test.go: TestEmpty *)
Example bufmap_empty_test :
  (let! m := BufmapModel.New 1000 8 in Ok (BufmapModel.Get m 100 [])) = Ok (BufmapModel.Ret None).
Proof. vm_compute. done. Qed.

(** ** internal/seqlock/seqlock_test.go: TestPutThenGet *)
Section seqlock_tests.
Import SeqlockModel.
Example seqlock_put_get_test :
  let data := str "test" ++ replicate 1020 0 in
  match omap (λ e, match e with ERet _ _ r => Some r | _ => None end)
    (exec (MkCfg New [None]) (flat_map (λ o, ACall 0 o :: replicate 1040 (AStep 0)) [OPut data; OGet])).2 with
  | [RWrite (Ok tt); RGet x] => firstn 4 x = str "test"
  | _ => False
  end.
Proof. vm_compute. done. Qed.
End seqlock_tests.
