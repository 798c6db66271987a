F=['ServerConcFairProps']; So=['ServerConcSoloProps']; M=['ServerMixedProps','ServerMixedDemo']; MFS=F+So+M
muts.update({
'cv3b':('ServerConcModel.v','h_lines','| line :: lines =>\n      let \'(done, cx) := ctx_done cx in','| [_] => HRet (match serr with Some e => http_error 500 (et e) | None => Resp 200 [] end)\n  | line :: lines =>\n      let \'(done, cx) := ctx_done cx in','C93, C98: the last line is applied too',['ServerConcProps']+M),
'mx1':('ServerConcModel.v','h_lines','Ret (Err e) => HRet (http_error 500 (et e))','Ret (Err e) => h_lines cx lines serr','C98: after a failed write nothing more of the post is applied',M),
'mx2':('ServerConcModel.v','h_lines','      | Err e => HRet (http_error 500 (et e))\n      | Panic','      | Err e => HRet (Resp 200 [])\n      | Panic','C98: 200 means that all lines are rows',M+So),
'mx3':('ServerConcModel.v','h_lines','      | Err e => HRet (http_error 500 (et e))\n      | Panic','      | Err e => h_lines cx lines serr\n      | Panic','C98: nothing behind a line that is not a row is applied',M),
'mx4':('ServerConcModel.v','h_lines','HRet (match serr with Some e => http_error 500 (et e) | None => Resp 200 [] end)','HRet (Resp 200 [])','C98: 200 means that the body arrived completely',M+So),
'mx5':('ServerConcModel.v','h_write','| AWrite o => k cx o','| AWrite (Ret (Err _)) => h_write cs (S i) cx r k | AWrite o => k cx o','C98: a post answered 200 has all its rows in all collations',M),
'mx6':('CollationModel.v','Coll_Update','match run_writers buf (c_writers c) (λ _ b, count_write b) with\n  | (buf, Ok _) => update_fvs c buf init (row_data r)','match update_fvs c buf init (row_data r) with\n  | (buf, Ok _) => run_writers buf (c_writers c) (λ _ b, count_write b)','C98: rows applied in part are counted',M),
'mx7':('BufconcModel.v','reprobe','PRet (RUpdate (Err ErrOutOfSlots))','PRet (RUpdate (Ok ()))','C98: a row that finds no slot is not acknowledged',M),
'mx8':('BufconcModel.v','step_call UFn','| PDone r => (m, USeq2 x init r, [])','| PDone r => (m, USeq2 x init (Ok ()), [])','C98: a row applied in part is answered with an error',M),
'mx9':('BufconcModel.v','step_call UUnlock','PRet (RUpdate r), [])','PRet (RUpdate r), [EDone t k fn false])','C98: no row is applied twice',M),
'mx10':('ServerConcModel.v','h_write','if done then k cx (Ret (Err ErrCtx))','if done then h_write cs (S i) cx r k','C98: (ctx) rows taken are a prefix',M),
'fa1':('BufconcModel.v','step_call GSeq2','(if q =? sl_seq sl then PRet (RGet buf true) else GSeq1 x buf)','(if q =? sl_seq sl + 1 then PRet (RGet buf true) else GSeq1 x buf)','C96: reads end',F),
'fa2':('BufconcModel.v','step_call UUnlock','(set_slot m x (Slot (sl_key sl) (sl_seq sl) false), PRet (RUpdate r), [])','(m, PRet (RUpdate r), [])','C96: a slot is unlocked after an update',F),
'fa3':('BufconcModel.v','greprobe','GLoad (S i)','GLoad i','C96: probing ends',F),
'fa4':('BufconcModel.v','reprobe','PRet (RUpdate (Err ErrOutOfSlots))','ULoad 0 true','C96: probing ends on a full map',F),
'fa5':('ServerConcModel.v','h_recv','else HRet (http_error 415 (str "unknown media type"))','else HRet Hung','C96: posts get a status',F),
'fa6':('BufconcModel.v','step_call USeq2','(set_slot m x (Slot (sl_key sl) (u32 (sl_seq sl + 1)) (sl_mu sl)), UUnlock x r, [EDone t k fn init])','(m, UUnlock x r, [EDone t k fn init])','C96: readers are not blocked for ever',F),
'fa7':('BufconcModel.v','step_call UFn','| PDone Panic => (m, PRet RPanic, [EPanic t k fn init])\n          | PDone r','| PDone (Err e) => (m, PRet (RUpdate (Err e)), [])\n          | PDone Panic => (m, PRet RPanic, [EPanic t k fn init])\n          | PDone r','C96, C98: the slot is unlocked when the update fails',F+M),
'so1':('ServerConcModel.v','handle','Resp 301 []','Resp 302 []','C97: same answers as the sequential server',So),
'so2':('ServerConcModel.v','h_write','if (Row_KeyValue r (c_keys c)).2 then ctx_done cx else (false, cx)','(false, cx)','C97: same answers as the sequential server, when clients go away',So),
'so3':('BufconcModel.v','start','else ULoad 0 false','else ULoad 0 true','C97: the same bytes as the sequential server',So),
'so4':('BufconcModel.v','step_call USeq2','(set_slot m x (Slot (sl_key sl) (u32 (sl_seq sl + 1)) (sl_mu sl)), UUnlock x r, [EDone t k fn init])','(set_slot m x (Slot (sl_key sl) (u32 (sl_seq sl + 3)) (sl_mu sl)), UUnlock x r, [EDone t k fn init])','C97: the same bytes and sequence numbers',So),
'so5':('BufconcModel.v','step_call GCopy','Z.of_nat (S j) <?','Z.of_nat j <?','C97: the same answers',So),
'so6':('ServerConcModel.v','h_stores','ARead (Ret (Err e)) => http_error 500 (et e)','ARead (Ret (Err e)) => Resp 200 []','C97: the same answers',So),
})
