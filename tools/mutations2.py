F=['FnvProps']; B=['BitbucketProps']; L=['BloomProps']; H=['HllProps']; K=['HllCountProps']; S=['Stat64Props']; C=['CollationProps']
M=['BufmapProps']; Q=['QueryProps']; V=['ServerProps','ServerDemo']; I=['IncmapProps']; Z=['SeqlockProps']; N=['BufconcProps']; U=['StatsUtilProps']; R=['RandProps']
muts.update({
'st1':('Stat64Model.v','observe','let ss := add (a_ss a) (mul delta (sub v mean)) in','let ss := add (a_ss a) (mul delta (sub v (a_mean a))) in','C20: exact variance',S),
'st2':('Stat64Model.v','Stat_Variance','if count <? 2 then','if count <? 1 then','C21: variance undefined below two observations',S),
'st3':('Stat64Model.v','Stat_Variance','(f_of_Z (u64 (count - 1)))','(f_of_Z (u64 count))','C20: sample variance',S),
'st4':('Stat64Model.v','stat_save','stat_put s 8 (putf (a_sum a))','stat_put s 8 (putf (a_mean a))','C19/C20: sum is stored',S),
'st5':('Stat64Model.v','Stat_Mean','stat_f64 s 16','stat_f64 s 24','C19/C20',S),
'st6':('Stat64Model.v','Stat_UpdateMulti','fold_left observe64 vs a','fold_right (λ v a, observe64 a v) a vs','C19: UpdateMulti = Update in order',S),
'st7':('Stat64Model.v','Stat_Reset','gocopy buf zeroStats64','buf','C19: Reset',S),
'st8':('Stat64Model.v','observe','let mean := add (a_mean a) (div delta (ofcount count)) in','let mean := add (a_mean a) (div delta (ofcount (a_count a))) in','C20: mean',S),
'co1':('CollationModel.v','compile_measure','(c_size c + size), pos + size, stat)\n    else (c, pos, stat) in','(c_size c + size), pos, stat)\n    else (c, pos, stat) in','C25: ranges do not overlap',C),
'co2':('CollationModel.v','compile_row','(c_size c + size), pos + size)','(c_size c), pos + size)','C25: ranges lie inside the record',C),
'co3':('CollationModel.v','key_loop','| None => (0, false)','| None => key_loop h keys fvs','C23: a row without a key field has no key',C),
'co4':('CollationModel.v','key_loop','          let h := (Fnv64_Write h (fv_F fv)).1 in\n','','C23: the key covers field names too',C),
'co5':('CollationModel.v','max_write','negb init && fle v (getf b)','negb init && fle (getf b) v','C28: max',C),
'co6':('CollationModel.v','min_write','negb init && fle (getf b) v','fle (getf b) v','C28: first observation initialises min',C),
'co7':('CollationModel.v','count_write','u64 (get64 b + 1)','u64 (get64 b + 2)','C26: count',C),
'co8':('CollationModel.v','disc_write','let! s := Hll_Add s v in\n        match Hll_WriteTo','match Hll_WriteTo','C29: the first value is counted',C),
'co9':('CollationModel.v','update_fv','match c_disc c !! fv_F fv with','match c_disc c !! fv_V fv with','C29',C),
'co10':('CollationModel.v','compile_measure','| Some (l, h) => (l, h, true, stat)','| Some (l, h) => (l, h, false, stat)','C27: one observation updates the shared statistic once',C),
'co11':('CollationModel.v','read_measures','Ok (MkFMV f n v :: l)','Ok (MkFMV n f v :: l)','C31/C32: results are labelled with field and measure',C),
'co12':('CollationModel.v','Coll_Read','| None => Ok []\n                end in','| None => Err ErrUser\n                end in','C32: unknown fields are skipped',C),
'co13':('CollationModel.v','cont_read','| MVariance => Stat_Variance (Stat_WithBytes buf)','| MVariance => Stat_Sum (Stat_WithBytes buf)','C27',C),
'co14':('CollationModel.v','update_fvs','| (buf, Ok _) => update_fvs c buf init fvs','| (buf, Ok _) => update_fvs c buf false fvs','C28: init applies to every field of the first row',C),
'co15':('CollationModel.v','find_field','if bool_decide (k = fv_F fv) then Some fv else find_field k fvs','match find_field k fvs with Some x => Some x | None => if bool_decide (k = fv_F fv) then Some fv else None end','C23: the first field of the name is used',C),
'bm1':('BufmapModel.v','Update','(s64 ((x + 1) * m_s m))','(s64 ((x + 2) * m_s m))','C35: an update touches only its own slot',M),
'bm2':('BufmapModel.v','upd_probe','if sl_key sl =? k then Ok (Some (x, init, false))','if sl_key sl =? k then Ok (Some (x, true, false))','C37: init only for the first update (of a key in its home slot)',M),
'bm3':('BufmapModel.v','maxReprobe','Definition maxReprobe : nat := 10.','Definition maxReprobe : nat := 9.','C36: out of slots only after eleven probes',M),
'bm4':('BufmapModel.v','Update','if k =? 0 then (m, Ret (Err ErrInvalidKey))','if k =? 1 then (m, Ret (Err ErrInvalidKey))','C38: key 0 is rejected',M),
'bm5':('BufmapModel.v','Update','| r => (with_slot (Slot key (u32 (seq1 + 1)) false) vs, Ret r)','| r => (with_slot (Slot key seq1 false) vs, Ret r)','C35/C43: seq is even after an update',M),
'bm6':('BufmapModel.v','Update','let key := if fresh then k else sl_key sl in','let key := sl_key sl in','C33/C35: the key is recorded',M),
'bm7':('BufmapModel.v','get_probe','if sl_key sl =? k then Ok (Some x) else get_probe m k (S i) n','if sl_key sl =? k then Ok (Some x) else if sl_key sl =? 0 then Ok None else get_probe m k (S i) n','none: an early exit on an empty slot is correct without deletion (equivalent mutant for reachable states)',M),
'bm8':('BufmapModel.v','Update','| r => (with_slot (Slot key (u32 (seq1 + 1)) false) vs, Ret r)','| Err e => (with_slot (Slot key (u32 (seq1 + 1)) false) (m_values m), Ret (Err e))\n                | r => (with_slot (Slot key (u32 (seq1 + 1)) false) vs, Ret r)','C35: what a failing function wrote stays (documented behaviour of the code)',M),
'qu1':('QueryModel.v','whereRe','Definition nonquote (c : Z) : bool := negb (c =? 39).','Definition nonquote (c : Z) : bool := negb (c =? 39) && negb (c =? 32).','C58: quoted values may contain blanks',Q),
'qu2':('QueryModel.v','add_field','MkFM f (fm_M fm ++ [m]) :: fs','MkFM f [m] :: fs','C57: several measures of one field',Q),
'qu3':('QueryModel.v','add_selection','match g with [m; f] => add_field fs f m','match g with [m; f] => add_field fs m f','C57: measure(field)',Q),
'qu4':('QueryModel.v','queryRe','(lit_i (str "where")','(lit_i (str "with")','C57',Q),
'qu5':('QueryModel.v','letter_i','(c =? d) || (c =? d - 32)','(c =? d)','C60: keywords in any case',Q),
'qu6':('QueryModel.v','RoughParse','| _ => Err ErrSyntax','| _ => Ok (MkQuery [] [])','C59: malformed queries are rejected',Q),
'sv1':('ServerModel.v','ts_loop','(b <? 48) || (57 <? b)','(b <? 48) || (56 <? b)','C50: timestamps',V),
'sv2':('ServerModel.v','parseFV','Some eq => MkFV (take eq data) (drop (eq + 1) data)','Some eq => MkFV (take eq data) (drop eq data)','C51: name=value',V),
'sv3':('ServerModel.v','drop_cr','match last l with Some 13 => removelast l | _ => l end','l','C52/C53: CRLF lines',V),
'sv4':('ServerModel.v','scan_lines','Some i => (S i, Some (drop_cr (take i data)))','Some i => (i, Some (drop_cr (take i data)))','C52',V),
'sv5':('ServerModel.v','Store_Write','if negb found then (st, cx, Ret (Ok ()))','if negb found then (st, cx, Ret (Err ErrUser))','C54: rows without the key fields are ignored',V),
'sv6':('ServerModel.v','write_stores','| (st, cx, Ret (Ok _)) => let \'(sts, cx, res) := write_stores cx sts r in (st :: sts, cx, res)','| (st, cx, Ret (Ok _)) => (st :: sts, cx, Ret (Ok ()))','C54: every collation gets the row',V),
'sv7':('ServerModel.v','recv_lines','| Err e => (sts, http_error 500 (error_text e))\n      | Panic','| Err e => recv_lines cx sts lines serr\n      | Panic','C55/C56: a bad line is reported',V),
'sv8':('ServerModel.v','query_stores','else query_stores cname q sts','else not_found','C67/C68: the named collation is found wherever it is',V),
'sv9':('ServerModel.v','ServeHTTP','if decide (rq_method rq = str "POST") then recvObservation','if decide (rq_method rq = str "GET") then recvObservation','C67: only POST observes',V),
'sv10':('ServerModel.v','queryCollation','Err e => (sts, http_error 400 (error_text e))','Err e => (sts, Resp 200 [])','C67: bad queries are 400',V),
'sv11':('ServerModel.v','Store_Read','if negb found then Ret (Ok [])','if negb found then Ret (Err ErrUser)','C69: query without criteria gives no results',V),
'sv12':('ServerModel.v','parseRow','let time := s64 (ts * 1000) in','let time := s64 (ts * 1000000) in','C50: microseconds',V),
'sv13':('ServerModel.v','fields_loop','(p + Z.of_nat off + 1) delim','(p + Z.of_nat off) delim','C51',V),
'sv14':('ServerModel.v','mux_route','Some rest => RColl rest','Some rest => RColl (drop 1 rest)','C67: the collation name is the rest of the path',V),
'sv15':('ServerModel.v','Store_Write','if done then (st, cx, Ret (Err ErrCtx))','if done then (st, cx, Ret (Ok ()))','C70: a cancelled context is reported by Write',V),
'sv16':('ServerModel.v','query_body','fv_F c ++ [61] ++ fv_V c ++ [10]','fv_F c ++ [61] ++ fv_V c','C68: response format',V),
'in1':('IncmapModel.v','step_call','Ok kexist => (m, (if kexist =? k then PAdd x else reprobe i), [])','Ok kexist => (m, reprobe i, [])','C44: racing creators of one key agree on the slot',I),
'in2':('IncmapModel.v','step_call','if kx =? 0 then (MkMap (m_l m) (<[Z.to_nat x := k]> (m_keys m)) (m_values m), PAdd x, [])','if true then (MkMap (m_l m) (<[Z.to_nat x := k]> (m_keys m)) (m_values m), PAdd x, [])','C44/C45: CAS',I),
'in3':('IncmapModel.v','step_call','u64 (v + d)','u64 d','C44: increments add up',I),
'in4':('IncmapModel.v','reprobe','(maxReprobe <? S i)%nat then PRet (RInc false)','(maxReprobe <? S i)%nat then PRet (RInc true)','C45/C44: a failed Inc is reported',I),
'in5':('IncmapModel.v','greprobe','PRet (RGet 0 false) else PGLoad (S i)','PRet (RGet 0 false) else PRet (RGet 0 false)','C46: Get probes as far as Inc',I),
'in6':('IncmapModel.v','start','if k =? 0 then PRet (RInc false) else PLoad 0','PLoad 0','C71: key 0 is rejected',I),
'sq1':('SeqlockModel.v','step_call','if q =? s_seq s then PRet (RGet ret) else GSeq1','PRet (RGet ret)','C47: no torn reads',Z),
'sq2':('SeqlockModel.v','step_call','if s_seq s mod 2 =? 0 then GCopy','if true then GCopy','C47: readers wait for writers',Z),
'sq3':('SeqlockModel.v','step_call','if s_mu s then (s, WLock, []) else','if false then (s, WLock, []) else','C48: writers exclude each other',Z),
'sq4':('SeqlockModel.v','step_call','| (_, Err e) => (s, WSeq2 (Err e), [])','| (d, Err e) => (s, UWrite 0 d, [])','C48: a failing Update changes nothing',Z),
'sq5':('SeqlockModel.v','step_call','WSeq2 r => (MkSeq (u32 (s_seq s + 1)) (s_mu s) (s_data s), WUnlock r, [EDone t o])','WSeq2 r => (MkSeq (s_seq s) (s_mu s) (s_data s), WUnlock r, [EDone t o])','C47/C72: seq returns to even',Z),
'sq6':('SeqlockModel.v','step_call','(if (S i <? blk)%nat then PCopy (S i) else WSeq2 (Ok ()))','(if (S (S i) <? blk)%nat then PCopy (S i) else WSeq2 (Ok ()))','C47/C48: Put copies the whole block',Z),
'bc1':('BufconcModel.v','step_call','if sl_mu sl then (m, ULock x init, []) else','if false then (m, ULock x init, []) else','C39: updates of a key exclude each other',N),
'bc2':('BufconcModel.v','step_call','if q =? sl_seq sl then PRet (RGet buf true) else GSeq1 x buf','PRet (RGet buf true)','C40: no torn reads',N),
'bc3':('BufconcModel.v','step_call','if sl_key sl =? 0 then (set_slot m x (Slot k (sl_seq sl) (sl_mu sl)), ULock x true, []) else (m, UReload i x, [])','(set_slot m x (Slot k (sl_seq sl) (sl_mu sl)), ULock x true, [])','C41: one slot per key',N),
'bc4':('BufconcModel.v','step_call','Ok sl => (m, (if sl_key sl =? k then ULock x true else reprobe i), [])','Ok sl => (m, reprobe i, [])','C41: one slot per key',N),
'bc5':('BufconcModel.v','step_call','(set_slot m x (Slot (sl_key sl) (u32 (sl_seq sl + 1)) (sl_mu sl)), UFn x init (fn init), [EBegin t k])','(m, UFn x init (fn init), [EBegin t k])','C40: seq odd during an update',N),
'bc6':('BufconcModel.v','step_call','(set_slot m x (Slot (sl_key sl) (sl_seq sl) false), PRet (RUpdate r), [])','(m, PRet (RUpdate r), [])','C73: the lock is released',N),
'su1':('StatsUtilModel.v','see','(ofint (Z.of_nat (length vals) - 2))','(ofint (Z.of_nat (length vals) - 1))','C61: standard error of estimate',U),
'su2':('StatsUtilModel.v','meanvar','Ok (mean, div (sqdev_loop mean vals) count)','Ok (mean, div (sqdev_loop (sum_loop vals) vals) count)','C61: variance around the mean',U),
'su3':('StatsUtilModel.v','meanvar','if eqb count (ofint 1) then let! v := index vals 0 in Ok (v, nan)','if eqb count (ofint 1) then let! v := index vals 1 in Ok (v, nan)','C61: one value',U),
'ra1':('RandModel.v','shuffle_loop','let! buf := store buf j x in','','C62: a shuffle is a permutation',R),
'ra2':('RandModel.v','Printable','Intn s 95','Intn s 96','C62: printable bytes',R),
'ra3':('RandModel.v','fill_loop','Intn s 256','Intn s 255','C62: any byte value may occur',R),
'ra4':('RandModel.v','ShuffleRepeated','(Z.to_nat n - length src)','(Z.to_nat n - length src - 1)','C62: n elements are drawn from src',R),
'ra5':('RandModel.v','shuffle_loop','Intn s (Z.of_nat i + 1)','Intn s (Z.of_nat i + 2)','C62: index in range',R),
})
