Sz=['BloomSizeProps']; Se=['SerProps']; Sc=['StoreConcProps']; Fu=['FltUtilProps']; Us=['StatsUtilProps','StatsSeeProps']
Sv=['ServerProps','ServerDemo','ServerMoreProps','ServerHomeProps']
muts.update({
'bb15b':('BitbucketModel.v','noEOF','match e with ErrEOF => ErrUnexpectedEOF | e => e end','e','C82: a truncated stream is ErrUnexpectedEOF',['BitbucketProps','SerProps']),
'sv11b':('ServerModel.v','Store_Read','if negb found then Ret (Ok [])','if negb found then Ret (Err ErrUser)','C87: query without criteria gives no results',Sv),
'su1b':('StatsUtilModel.v','see','(ofint (Z.of_nat (length vals) - 2))','(ofint (Z.of_nat (length vals) - 1))','C88: standard error of estimate',Us),
'su4':('StatsUtilModel.v','sum_loop','fold_left add vals zero','fold_left add (tail vals) zero','C88: Sum adds every value',Us),
'su5':('StatsUtilModel.v','see','sqrt (div (sqdev_loop e vals)','(div (sqdev_loop e vals)','C88: See takes the square root',Us),
'bs1':('BloomSizeModel.v','Bloom_mk','f_to_int64 (fceil (fdiv (fmul (fneg (f_of_Z n)) (glog p)) f_ln2sq))','f_to_int64 (fdiv (fmul (fneg (f_of_Z n)) (glog p)) f_ln2sq)','C76: m is rounded up',Sz),
'bs2':('BloomSizeModel.v','Bloom_mk','fneg (f_of_Z n)) (glog p)','f_of_Z n) (glog p)','C76: m is positive',Sz),
'bs3':('BloomSizeModel.v','Bloom_mk','(glog p)) f_ln2sq','(glog p)) f_ln2','C76: divided by ln2 squared',Sz),
'bs4':('BloomSizeModel.v','Bloom_mk','(fmul f_ln2 (f_of_Z m)) (f_of_Z n)','(fmul f_ln2 (f_of_Z n)) (f_of_Z m)','C76: k = ln2 m/n',Sz),
'bs5':('BloomSizeModel.v','Bloom_mk','if flt kraw (f_of_Z 255) then f_to_uint8 kraw','if flt kraw (f_of_Z 300) then f_to_uint8 kraw','C76: k is capped at 255',Sz),
'bs6':('BloomSizeModel.v','Bloom_Count','BB_CountN (bl_bits b) 1 in\n    Ok (f_to_int64','BB_CountN (bl_bits b) 0 in\n    Ok (f_to_int64','C77-C79: Count counts the set bits',Sz),
'bs7':('BloomSizeModel.v','Bloom_LenOf','BloomHdrLen + BB_LenOf m 1','BB_LenOf m 1','C75: LenOf is the serialised length of New',Sz),
'bs8':('BloomSizeModel.v','Bloom_Count','(f_of_Z (bl_m b))) (f_of_Z (bl_k b))','(f_of_Z (bl_k b))) (f_of_Z (bl_m b))','C78/C79: estimate m/k',Sz),
'bs9':('BloomSizeModel.v','Bloom_ErrorRate','(fmul (fneg (f_of_Z (bl_k b)))','(fmul (f_of_Z (bl_k b))','C80: error rate',Sz),
'bs10':('BloomSizeModel.v','Bloom_ErrorRate','(f_of_Z (bl_k b))).\nEnd exp','(f_of_Z (bl_m b))).\nEnd exp','C80: error rate',Sz),
'br1':('BloomModel.v','Bloom_ReadFrom','Some (noEOF e), BL bits (bl_m b) k, r)','Some e, BL bits (bl_m b) k, r)','C82: truncated body is ErrUnexpectedEOF (equivalent if bitbucket maps EOF itself)',['BloomProps']+Se),
'br2':('BloomModel.v','Bloom_ReadFrom','(h, Some e, r) => Ok (Z.of_nat (length h), Some (noEOF e), b, r)','(h, Some e, r) => Ok (0, Some (noEOF e), b, r)','C82: number of bytes read',['BloomProps']+Se),
'br3':('BloomModel.v','Bloom_ReadFrom','let n := n + n0 in','let n := n0 in','C14/C82: number of bytes read',['BloomProps']+Se),
'br4':('BloomModel.v','Bloom_ReadFrom','Some ErrEOF => Ok (n, None, b, r)\n            | _ => Ok (n, Some ErrShortBuffer, b, r)','_ => Ok (n, None, b, r)','C12-C14: trailing bytes rejected',['BloomProps']+Se),
'br5':('BloomModel.v','Bloom_WriteTo','(n0, None, w) => (Z.of_nat n + n0, None, w)','(n0, None, w) => (n0, None, w)','C12: bytes written',['BloomProps']+Se),
'br6':('BloomModel.v','Bloom_WriteTo','(n, Some e, w) => (Z.of_nat n, Some e, w)','(n, Some e, w) => (Z.of_nat n, None, w)','C82: a failed write is reported',['BloomProps']+Se),
'hr1':('HllModel.v','Hll_ReadFrom','(h, Some e, r) => Ok (Z.of_nat (length h), Some (noEOF e), c, r)','(h, Some e, r) => Ok (Z.of_nat (length h), Some e, c, r)','C82: truncated header',['HllProps']+Se),
'hr2':('HllModel.v','Hll_ReadFrom','let c := HC p (hll_mask p) bits in','let c := HC p (hc_mask c) bits in','C15: round trip restores the mask',['HllProps']+Se),
'hr3':('HllModel.v','Hll_WriteTo','(n0, Some e, w) => (Z.of_nat n + n0, Some e, w)','(n0, Some e, w) => (Z.of_nat n, Some e, w)','C82: bytes written before the failure',['HllProps']+Se),
'sc1':('StoreConcModel.v','op_of','if found then Some (OUpdate k (impl r)) else None','Some (OUpdate k (impl r))','C84: rows without a key change nothing',Sc),
'sc2':('StoreConcModel.v','op_of','Some (OGet k (replicate (Z.to_nat (c_size c)) 0))','Some (OGet k (replicate (Z.to_nat (c_size c)) 1))','C86: a read answers from the record (buffer content irrelevant when readable)',Sc),
'sc3':('StoreConcModel.v','reply','CRead _, Some (RGet _ false) => ARead (Ret (Ok []))','CRead q, Some (RGet buf false) => ARead (match Coll_Read est c (q_fms q) buf with Panic => Panics | a => Ret a end)','C86: an absent record has no results',Sc),
'sc4':('StoreConcModel.v','reply','CWrite _, Some (RUpdate o) => AWrite (Ret o)','CWrite _, Some (RUpdate o) => AWrite (Ret (Ok ()))','C84: a refused write is reported',Sc),
'fu1':('FltUtilModel.v','nextafter','f_frombits (u64 (fbits x + 1))','f_frombits (u64 (fbits x + 2))','C89: nextafter is the neighbour',Fu),
'fu2':('FltUtilModel.v','nextafter','Bool.eqb (fgt y x) (fgt x f_zero)','fgt y x','C89: direction for negative x',Fu),
'fu3':('FltUtilModel.v','nextafter','else if feq x f_zero then copysign (f_frombits 1) y','','C89: neighbour of zero',Fu),
'fu4':('FltUtilModel.v','AdjacentEqual64',' || feq b (nextafter a f_max)','','C89: adjacency is symmetric',Fu),
'fu5':('FltUtilModel.v','Equiv64','else if fisnan a && fisnan b then true else feq a b.\n(** float.go:26','else feq a b.\n(** float.go:26','C89: NaN is equivalent to NaN',Fu),
'fu6':('FltUtilModel.v','Close64','(fabs (fsub a b))','(fsub a b)','C90: distance is absolute',Fu),
'fu7':('FltUtilModel.v','Close64','(fabs (fsub a b)) a)','(fabs (fsub a b)) b)','C90: relative to a',Fu),
'fu8':('FltUtilModel.v','EquivOrCloseFloat64','if fisinf a && fisinf b then true','if fisinf a || fisinf b then true','C90: only two infinities are equivalent',Fu),
'fu9':('FltUtilModel.v','fisinf','fgt x f_max || flt x (fneg f_max)','fgt x f_max','C89: minus infinity is infinite',Fu),
'sh1':('ServerModel.v','query_body','fv_F c ++ [61] ++ fv_V c','fv_V c ++ [61] ++ fv_F c','C91: criteria lines',Sv),
'sh2':('ServerModel.v','transaction','λ data init, Coll_Update parse_float c r data init','λ data init, Coll_Update parse_float c r data true','C91: only the first row initialises the record',Sv),
'sh3':('ServerModel.v','transaction','λ data init, Coll_Update parse_float c r data init','λ data init, Coll_Update parse_float c r data false','C91: the first row initialises the record',Sv),
})
