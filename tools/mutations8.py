muts={
'b1':('BloomModel.v','h_next','let a := u64 (h_a h + h_b h) mod u64 (h_m h) in','let a := u64 (h_a h * h_b h) mod u64 (h_m h) in','C112: double hashing adds b each time',['BloomFloorProps']),
'b2':('BloomModel.v','Bloom_Has','if negb (x =? 1) then Ok false','if negb (x =? 1) then Ok true','C15, C112: Has reports when every bit is set',['BloomFloorProps']),
'b3':('BloomModel.v','newHasher','let m := if 2 <? m then s64 (m - 1) else m in','let m := if 2 <? m then s64 (m + 1) else m in','C15, C112: the modulus stays below m',['BloomFloorProps']),
'b4':('BloomSizeModel.v','f_ln2sq','8655072057804175 (2^54)','6243314768165359 (2^53)','C78, C112: bits are -n ln p/(ln 2)^2',['BloomFloorProps']),
'h1':('FnvModel.v','fnv1_loop','fnv1_loop (xor64 (mul64 hash) c) data','fnv1_loop (mul64 (xor64 hash c)) data','C01, C111: FNV-1 multiplies first',['HllSuffixProps']),
'h2':('FnvModel.v','prime64','1099511628211','1099511628311','C01, C111: the prime',['HllSuffixProps']),
'h4':('HllModel.v','Hll_Add','Z.shiftr (Z.land h (hc_mask c)) (u8 (64 - hc_p c))','Z.land h (Z.shiftl 1 (hc_p c) - 1)','C16, C18, C111: the register is chosen by the top bits',['HllSuffixProps']),
}
