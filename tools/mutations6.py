muts={}
P=['ProcessProps','ProcessDemo']; So=['ServerConcSoloProps']; S=['ServerSlotProps','ServerSlotDemo']
muts.update({
'pr1':('ProcessModel.v','main_step','| AtLog => (set_pc p AtRegister,','| AtLog => (MkP AtNotify (p_addr p) (p_net p) (p_logger p) (p_mux p) true (p_notified p) (p_v p),','C99: the handlers are registered before requests are accepted',P),
'pr2':('ProcessModel.v','main_step','then AtLog else','then AtRegister else','C99: the listening address is logged',P),
'pr3':('ProcessModel.v','signal_step','| SIGINT | SIGTERM =>\n      if p_notified p then','| SIGTERM => (p, [])\n  | SIGINT =>\n      if p_notified p then','C100: both signals end the program',P),
'pr4':('ProcessModel.v','signal_step','else (set_pc p (Killed s), [PKilled s])\n  end.','else (p, [])\n  end.','C100: a signal before Notify kills the program',P),
'pr5':('ProcessModel.v','signal_step','Waiting => set_pc p (AtReturn ServedNil)','Waiting => set_pc p AtReceive','C100: a signal while waiting ends the program',P),
'pr6':('ProcessModel.v','main_step','then AtLog else AtReturn ListenError','then AtLog else AtLog','C101: a failing listen is returned',P),
'pr7':('ProcessModel.v','main_step','(set_pc p (Ended 0), [PReturned r; PExit 0])','(set_pc p (Ended 1), [PReturned r; PExit 1])','C100, C101: exit status 0',P),
'pr8':('ProcessModel.v','main_step','then str ":2525" else p_addr p','then str ":2526" else p_addr p','C99: the default address is :2525',P),
'pr9':('ProcessModel.v','main_step','then str "tcp" else','then str "udp" else','C99/C101: the default network is tcp',P),
'pr10':('ProcessModel.v','request_step','if over (p_pc p) || negb (p_accepting p) then','if negb (p_accepting p) then','C102: nothing is served after the end',P),
'pr11':('ProcessModel.v','request_step','if over (p_pc p) || negb (p_accepting p) then','if over (p_pc p) then','C102: nothing is served before accepting',P),
'pr12':('ProcessModel.v','signal_step','Waiting => set_pc p (AtReturn ServedNil)','AtReceive | Waiting => set_pc p (AtReturn ServedNil)','C100_lost_refuted: (fix) a buffered channel loses no signal',P),
'pr13':('ProcessModel.v','signal_step','| SIGHUP => (set_pc p (Killed s), [PKilled s])','| SIGHUP => (p, [])','C100: SIGHUP kills the program',P),
'pr14':('ProcessModel.v','main_step','| AtLog => (set_pc p AtRegister, [PLog (str "listening on " ++ p_addr p)])','| AtLog => (set_pc p AtRegister, [PLog (str "listening on " ++ p_net p)])','C99: the log says the address',P),
'pr15':('ProcessModel.v','main_step','if listen (p_net p) (p_addr p)','if listen (p_addr p) (p_net p)','C99/C101: arguments of Listen',P),
'pr16':('ProcessModel.v','main_step','| Waiting => (p, [])','| Waiting => (set_pc p (AtReturn ServedNil), [])','C99/C100: the program ends only by a signal',P),
'pr17':('ProcessModel.v','main_step','| AtNotify => (MkP AtReceive (p_addr p) (p_net p) (p_logger p) (p_mux p) (p_accepting p) true','| AtNotify => (MkP AtReceive (p_addr p) (p_net p) (p_logger p) (p_mux p) (p_accepting p) (p_notified p)','C100: Notify is called',P),
'so6b':('ServerConcModel.v','h_stores','ARead (Ret (Err e)) => http_error 500 (et e)','ARead (Ret (Err e)) => Resp 200 (et e)','C97: the same answers',So),
'sl1':('BufconcModel.v','step_call GSeq2','(if q =? sl_seq sl then PRet (RGet buf true) else GSeq1 x buf)','(PRet (RGet buf true))','C103: a count is that of a moment',S),
'sl2':('BufconcModel.v','step_call GSeq1','if sl_seq sl mod 2 =? 0 then','if 0 <=? sl_seq sl then','C103: no read inside of an update',S),
'sl3':('BufconcModel.v','step_call GSeq1/GCopy','match slice (m_values m) (s64 (x * m_s m)) (s64 (x * (m_s m + 1))) with    (* bufmap.go:76 *)\n            | Ok src => (m, (if (0 <? Nat.min','match slice (m_values m) (s64 (x * m_s m)) (s64 ((x + 1) * m_s m)) with    (* bufmap.go:76 *)\n            | Ok src => (m, (if (0 <? Nat.min','C103_lost_refuted/C91: the slice bug (fixed in part)',S),
'sl4':('BufconcModel.v','step_call GCopy','s64 (x * m_s m) + Z.of_nat j','s64 (x * m_s m) + Z.of_nat j + 1','C103: the bytes read are those of the record',S),
'sl5':('ServerConcModel.v','h_stores','ARead (Ret (Err e)) => http_error 500 (et e)','ARead (Ret (Err e)) => Resp 200 (et e)','C103: a failed query is not answered 200',S),
'sl6':('ServerConcModel.v','h_stores','else h_stores cname q cs (S i)','else h_stores cname q cs i','C103: the collation asked for is read',S),
'sl7':('ServerConcModel.v','handle','else h_query path rq','else h_query (tail path) rq','C103: the collation asked for is read',S),
'sl8':('BufconcModel.v','greprobe','if (maxReprobe <? S i)%nat then PRet (RGet buf false)','if (maxReprobe <? S i)%nat then PRet (RGet buf true)','C103: what is not there is not found',S),
'sl9':('BufconcModel.v','step_call ULoad','if sl_key sl =? k then ULock x init else if','if sl_key sl =? k then ULock x true else if','C103: counts do not fall',S),
'sl10':('BufconcModel.v','step_call USeq1','[EBegin t k]','[EBegin t k; EDone t k fn init]','C103: rows are counted once',S),
})
