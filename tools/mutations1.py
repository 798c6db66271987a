# id: (file, definition, old, new, claim broken, Props files to rebuild)
F=['FnvProps']; B=['BitbucketProps']; L=['BloomProps']; H=['HllProps']; K=['HllCountProps']; S=['Stat64Props']; C=['CollationProps']
M=['BufmapProps']; Q=['QueryProps']; V=['ServerProps','ServerDemo']; I=['IncmapProps']; Z=['SeqlockProps']; N=['BufconcProps']; U=['StatsUtilProps']; R=['RandProps']
muts.update({
'fnv1':('FnvModel.v','fnv1_loop','fnv1_loop (xor64 (mul64 hash) c) data','fnv1_loop (mul64 (xor64 hash c)) data','C01: FNV-1 multiplies before it xors',F),
'fnv2':('FnvModel.v','Fnv64_WriteUint64','(Z.land (Z.shiftr n 40) 255)','(Z.land (Z.shiftr n 42) 255)','C02: WriteUint64 hashes the eight big-endian bytes',F),
'fnv3':('FnvModel.v','fnv_sum','u8 (Z.shiftr n 56); u8 (Z.shiftr n 48)','u8 (Z.shiftr n 48); u8 (Z.shiftr n 56)','C03: Sum appends the big-endian digest',F),
'fnv4':('FnvModel.v','Fnv64a_Write','(fnv1a_loop s data, Z.of_nat (length data))','(fnv1a_loop offset64 data, Z.of_nat (length data))','C02: Write continues from the current state',F),
'fnv5':('FnvModel.v','Fnv64a_Reset','Definition Fnv64a_Reset (s : Z) : Z := offset64.','Definition Fnv64a_Reset (s : Z) : Z := s.','C03: Reset restores the initial state',F),
'fnv6':('FnvModel.v','String64a','Definition String64a (str : bytes) : Z := str1a_loop str (length str) 0 offset64.','Definition String64a (str : bytes) : Z := str1a_loop str (length str - 1) 0 offset64.','C01: the whole string is hashed',F),
'fnv7':('FnvModel.v','Fnv64_WriteString','(str1_loop str (length str) 0 s, Z.of_nat (length str))','(str1_loop str (length str) 0 s, 0)','C03: the returned count is the length',F),
'fnv8':('FnvModel.v','prime64','1099511628211','1099511628213','C01: the prime is the published one',F),
'bb1':('BitbucketModel.v','bb_length','(s64 (n * w) + 7)','(s64 (n * w))','C07/C04: length rounds up to whole bytes',B),
'bb2':('BitbucketModel.v','bb_extract','if idx <? Z.of_nat (length (bb_data b)) - 1 then','if idx <? Z.of_nat (length (bb_data b)) then','C05/C04: the last byte has no successor',B),
'bb3':('BitbucketModel.v','bb_put','if idx <? Z.of_nat (length d) - 1 then store','if idx <? Z.of_nat (length d) - 2 then store','C04: both bytes of a straddling value are stored',B),
'bb4':('BitbucketModel.v','bb_set','Z.lor (Z.ldiff data mask) (u16 (Z.shiftl v shift))','Z.lor data (u16 (Z.shiftl v shift))','C04: set clears the old value',B),
'bb5':('BitbucketModel.v','bb_incn','let value := if max <? value then max else value in','','C04: increments saturate',B),
'bb6':('BitbucketModel.v','BB_IncN','  let v := if max <? v then max else v in\n  bb_incn','  bb_incn','C04: the increment itself is capped (no visible effect expected: incn caps the sum)',B),
'bb7':('BitbucketModel.v','BB_CountN','(Z.to_nat (bb_n b)) 0 0','(Z.to_nat (bb_n b - 1)) 0 0','C06: CountN looks at every element',B),
'bb8':('BitbucketModel.v','BB_Reset','BB (map (λ _, 0) (bb_data b)) (bb_n b) (bb_w b)','BB (map (λ _, 0) (bb_data b)) 0 (bb_w b)','C04: Reset keeps the size',B),
'bb9':('BitbucketModel.v','BB_WithBytes','<? BBhdrLen + buflen then Err','<? buflen then Err','C08: short buffers are rejected',B),
'bb10':('BitbucketModel.v','bb_header','[BBVersion; bb_w b] ++ put64','[bb_w b; BBVersion] ++ put64','C07: serialisation round-trips',B),
'bb11':('BitbucketModel.v','BB_ReadFrom','Ok (n, None, BB d bn w, r)','Ok (n, None, BB d bn (bb_w b), r)','C07: ReadFrom restores the width',B),
'bb12':('BitbucketModel.v','BB_WriteTo','(n0, None, w) => (Z.of_nat n + Z.of_nat n0, None, w)','(n0, None, w) => (Z.of_nat n0, None, w)','C07: WriteTo reports all bytes',B),
'bb13':('BitbucketModel.v','BB_WriteTo','(n0, Some e, w) => (Z.of_nat n + Z.of_nat n0, Some e, w)','(n0, Some e, w) => (Z.of_nat n, Some e, w)','C09: a failing writer gets the bytes reported',B),
'bb14':('BitbucketModel.v','BB_Max','Definition BB_Max (b : BitBucket) : Z := bb_max8 (bb_w b).','Definition BB_Max (b : BitBucket) : Z := Z.shiftl 1 (bb_w b).','C04: Max is the largest storable value',B),
'bb15':('BitbucketModel.v','noEOF','match e with ErrEOF => ErrUnexpectedEOF | e => e end','e','C08/C09: a truncated stream is ErrUnexpectedEOF',B),
'bb16':('BitbucketModel.v','BB_Set','bb_set b (s64 (i * bb_w b)) (bb_w b) v','bb_set b (s64 (i * 8)) (bb_w b) v','C04: element i occupies bits i*w..',B),
'bl1':('BloomModel.v','bloom_has_loop','if negb (x =? 1) then Ok false else bloom_has_loop bits h n','if negb (x =? 0) then Ok false else bloom_has_loop bits h n','C10: no false negatives',L),
'bl2':('BloomModel.v','newHasher','let m := if 2 <? m then s64 (m - 1) else m in','let m := if 2 <? m then s64 (m + 1) else m in','C11: indices stay inside the filter',L),
'bl3':('BloomModel.v','Bloom_Has','(newHasher v (bl_m b)) (Z.to_nat (bl_k b))','(newHasher v (bl_m b)) (S (Z.to_nat (bl_k b)))','C10: Has probes the positions Add set',L),
'bl4':('BloomModel.v','Bloom_WithBytes','Ok (BL bits (BB_Count bits) k)','Ok (BL bits (BB_Count bits) 1)','C12: round trip',L),
'bl5':('BloomModel.v','Bloom_ReadFrom','let b := BL bits (BB_Count bits) k in','let b := BL bits (bl_m b) k in','C12: ReadFrom restores m',L),
'bl6':('BloomModel.v','bloom_add_loop','let! bits := BB_Set bits (s64 v) 1 in','let! bits := BB_Set bits (s64 v) 0 in','C10',L),
'bl7':('BloomModel.v','Bloom_Reset','BL (BB_Reset (bl_bits b)) (bl_m b) (bl_k b)','BL (bl_bits b) (bl_m b) (bl_k b)','C10/C12: Reset empties the filter',L),
'bl8':('BloomModel.v','newHasher','let b := if Z.land b 1 =? 0 then u64 (b + 1) else b in\n    Hasher a b m\n  else','Hasher a b m\n  else','C11/C10: the step is odd for even m (distinct probes)',L),
'hl1':('HllModel.v','Hll_New','(p <? 4) || (18 <? p)','(p <? 4) || (19 <? p)','C15: New panics outside [4,18]',H),
'hl2':('HllModel.v','Hll_Add','let t := shl64 1 (u8 (63 - hc_p c)) in','let t := shl64 1 (u8 (64 - hc_p c)) in','C14: rank counts zeros after the index bits',H),
'hl3':('HllModel.v','Hll_Add','if r <? rho then','if rho <? r then','C14: the register keeps the maximum',H),
'hl4':('HllModel.v','Hll_Add','let rho := hll_rho h t 1 ','let rho := hll_rho h t 0 ','C14: rank is one plus the zeros',H),
'hl5':('HllModel.v','hll_mask','(u8 (64 - p))','(u8 (63 - p))','C14: the index is the top p bits',H),
'hl6':('HllModel.v','Hll_WriteTo','[HllVersion; hc_p c]','[HllVersion; 0]','C16: round trip',H),
'hl7':('HllModel.v','Hll_LenOf','HllHdrLen + BB_LenOf (s64 (u64 (Z.shiftl 1 p))) 6','HllHdrLen + BB_LenOf (s64 (u64 (Z.shiftl 1 p))) 5','C16: Len(p) is the serialised size',H),
'hl8':('HllModel.v','Hll_ReadFrom','let c := HC p (hll_mask p) bits in','let c := HC p (hc_mask c) bits in','C16: ReadFrom restores the mask',H),
'hc1':('HllCountModel.v','linear_estimate','(fdiv (f_of_Z m) (f_of_Z v))','(fdiv (f_of_Z v) (f_of_Z m))','C74/C17',K),
'hc2':('HllCountModel.v','hll_threshold','6 => 40','6 => 400','C74: limits are the published ones',K),
'hc3':('HllCountModel.v','sigma_loop','let y := fmul (f_of_Z 2) y in','let y := fmul (f_of_Z 4) y in','published sigma series (no property states the estimate outside the linear range)',K),
'hc4':('HllCountModel.v','Hll_sigma','if feq x f_one then Some f_inf else','','C75: sigma stops for c = m',K),
'hc5':('HllCountModel.v','Hll_poisson','let! ct := index cn (q + 1) in','let! ct := index cn (q + 60) in','C75: no index outside the histogram',K),
'hc6':('HllCountModel.v','Hll_Count','if (0 <? v) && fle h (hll_threshold p)','if fle h (hll_threshold p)','linear counting only with an empty register',K),
'hc7':('HllCountModel.v','tau_loop','let y := fmul f_half y in','','C75: tau stops',K),
'hc8':('HllCountModel.v','hll_normalize','f_to_int64 (fceil (fdiv','f_to_int64 ((fdiv','estimate is rounded up',K),
})
