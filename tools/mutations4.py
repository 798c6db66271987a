Us=['StatsUtilProps','StatsSeeProps']; Cc=['ServerConcProps','ServerConcMoreProps','ServerConcDemo']; Sq=['ServerQueryProps']
muts.update({
'su5b':('StatsUtilModel.v','see','sqrt (div (sqdev_loop e vals) (ofint (Z.of_nat (length vals) - 2)))','div (sqrt (sqdev_loop e vals)) (ofint (Z.of_nat (length vals) - 2))','C88: See takes the root of the quotient',Us),
'cv1':('ServerConcModel.v','h_write','AWrite (Ret (Ok _)) => h_write cs (S i) cx r k','AWrite (Ret (Ok _)) => k cx (Ret (Ok ()))','C93: a row goes to every collation',Cc),
'cv2':('ServerConcModel.v','h_write','AWrite o => k cx o','AWrite o => k cx (Ret (Ok ()))','C93: a post with a failed write is not answered 200',Cc),
'cv3':('ServerConcModel.v','h_lines','Ret (Ok _) => h_lines cx lines serr','Ret (Ok _) => h_lines cx (tail lines) serr','C93: every line is applied',Cc),
'cv4':('ServerConcModel.v','h_lines','Ret (Err e) => HRet (http_error 500 (et e))\n            | Ret Panic','Ret (Err e) => h_lines cx lines serr\n            | Ret Panic','C93: a post with a failed write is not answered 200',Cc),
'cv5':('ServerConcModel.v','h_stores','HCall i (CRead q)','HCall 0 (CRead q)','C94: a query reads the collation it names',Cc),
'cv6':('ServerConcModel.v','h_stores','else h_stores cname q cs (S i)','else h_stores cname q cs i','C94: a query reads the collation it names',Cc),
'cv7':('ServerConcModel.v','h_write','AWrite (Ret (Ok _)) => h_write cs (S i) cx r k','AWrite (Ret (Ok _)) => h_write cs i cx r k','C93: a row goes to every collation, once',Cc),
'cv8':('ServerConcModel.v','h_stores','ARead (Ret (Ok res)) => Resp 200 (query_body ff q res)','ARead (Ret (Ok res)) => Resp 200 (query_body ff q (tail res))','C94: the answer has all values',Cc),
'cv9':('ServerConcModel.v','store_step','(MkV (<[i := g\']> (v_stores v))','(MkV (<[0%nat := g\']> (v_stores v))','C93: stores do not share records',Cc),
'cv10':('ServerConcModel.v','h_recv','h_body (rq_ctx rq) [EvData data]','h_body (rq_ctx rq) [EvData (tail data)]','C93: the whole form value is parsed',Cc),
'cv11':('StoreConcModel.v','reply','CRead _, Some (RGet _ false) => ARead (Ret (Ok []))','CRead _, Some (RGet _ false) => ARead (Ret (Err ErrUser))','C94: a query of an absent record is answered without values',Cc),
'cv12':('ServerConcModel.v','h_write','else HCall i (CWrite r)','else HCall i (CWrite (MkRow (row_time r) (tail (row_data r))))','C93: the whole row is written',Cc),
'sq1':('ServerModel.v','query_body','(q_crit q)) ++ mjoin','(rev (q_crit q))) ++ mjoin','C92: criteria come back in the order written',Sq),
'sq2':('CollationModel.v','Coll_Read','Ok (l ++ l\')','Ok l','C92: every field asked for is answered',Sq),
'sq3':('QueryModel.v','add_field','MkFM f (fm_M fm ++ [m]) :: fs','MkFM f [m] :: fs','C92: every measure asked for is answered',Sq),
'sq4':('ServerModel.v','FMV_String','r_M f ++ str "(" ++ r_F f','r_F f ++ str "(" ++ r_M f','C92: lines are measure(field)=value',Sq),
'sq5':('ServerModel.v','query_stores','else query_stores cname q sts','else not_found','C92: any collation can be queried',Sq),
'sq6':('CollationModel.v','Coll_Read','| None => Ok []\n                end in\n      let! l\' := Coll_Read c fml buf in','| None => Err ErrUser\n                end in\n      let! l\' := Coll_Read c fml buf in','C92: undeclared measures are left out',Sq),
'cv13':('ServerModel.v','query_body','mjoin (map (λ c, fv_F c ++ [61] ++ fv_V c ++ [10]) (q_crit q)) ++','','C94: criterion lines in the answer',Cc),
})
