muts={}
E=['HllEstProps']; R=['RouteProps','ServerProps']
muts.update({
'e1':('HllCountModel.v','hll_alpha','f_lit 673 1000','f_lit 674 1000','C106, C107: the published constants',E),
'e2':('HllCountModel.v','hll_alpha','f_lit 7213475 10000000','f_lit 7213 10000','C106: alpha above 256 registers',E),
'e3':('HllCountModel.v','hll_alpha','256 <? m','512 <? m','C106: alpha at p = 9',E),
'e4':('HllCountModel.v','hll_alpha','f_lit 1079 1000','f_lit 1097 1000','C106: transposed digits',E),
'e5':('HllCountModel.v','harmonic_loop','(fadd z f_half)','(fadd z f_one)','C106_harmonic: an empty register weighs 1/2',E),
'e6':('HllCountModel.v','harmonic_loop','(f_of_Z (shl64 1 reg))','(f_of_Z (shl64 1 (reg + 1)))','C106: 2^-M',E),
'e7':('HllCountModel.v','sigma_loop','let y := fmul (f_of_Z 2) y in','let y := y in','C106: the series sigma',E),
'e8':('HllCountModel.v','sigma_loop','let x := fmul x x in','let x := fmul x y in','C106: the series sigma',E),
'e9':('HllCountModel.v','tau_loop','let y := fmul f_half y in','let y := fmul f_half f_half in','C106: the series tau',E),
'e10':('HllCountModel.v','tau_loop','(fmul (fsub f_one x) x)','(fmul (fsub f_one x) (fsub f_one x))','C106: Ertl sums (1-x)^2 and divides by 3; the code another form',E),
'e11':('HllCountModel.v','Hll_tau','(fsub f_one (fdiv (f_of_Z c) (f_of_Z m)))','(fdiv (f_of_Z c) (f_of_Z m))','C106: tau of 1 - C/m',E),
'e12':('HllCountModel.v','Hll_poisson','index cn (q + 1)','index cn q','C106: the saturated registers',E),
'e13':('HllCountModel.v','Hll_poisson','fold_hist cn (Z.to_nat q)','fold_hist cn (Z.to_nat (q + 1))','C106: the histogram sum',E),
'e14':('HllCountModel.v','fold_hist','fmul f_half (fadd z (f_of_Z x))','fadd (fmul f_half z) (f_of_Z x)','C106: weights 2^-k',E),
'e15':('HllCountModel.v','hll_normalize','(fmul (fmul (hll_alpha p) (f_of_Z m)) (f_of_Z m))','(fmul (hll_alpha p) (f_of_Z m))','C106: alpha m^2',E),
'e16':('HllCountModel.v','Hll_Count','(f_of_Z 7)','(f_of_Z 5)','C107: the switching point',E),
'e17':('HllCountModel.v','Hll_Count','else Ok (Some (hll_normalize p z)).','else let! z := Hll_poisson fuel c in Ok (option_map (hll_normalize p) z).','C107: the high range is harmonic',E),
'e18':('HllCountModel.v','Hll_Count','if (0 <? v) && fle h (hll_threshold p)','if (0 <? v)','C107: beyond the limit linear counting is not used',E),
'e19':('HllCountModel.v','sigma_loop','if feq z z1 then Some z','if fle z (fadd z1 f_one) then Some z','C106: the loop stops too early',E),
'e20':('HllCountModel.v','Hll_poisson','Ok (Some (fadd z (fmul (f_of_Z m) s)))','Ok (Some (fadd z s))','C106: m sigma',E),
'r1':('ServerModel.v','http_error','(msg ++ [10])','msg','C54: error bodies',R),
'r2':('ServerModel.v','strip_prefix','if a =? b then','if a <=? b then','C108: other paths are not found',R),
'r3':('ServerModel.v','clean_step','then tail stack','then stack','C108: .. removes an element',R),
'r4':('ServerModel.v','clean_step','w = [] ∨ w = str "."','w = []','C108: . elements',R),
'r5':('ServerModel.v','mux_route','else if decide (p ≠ path) then RRedirect','else if decide (p = []) then RRedirect','C108: unclean paths are redirected',R),
'r6':('ServerModel.v','mux_route','if decide (p = str "/collation") then RRedirect','if decide (p = str "/collations") then RRedirect','C108: /collation is redirected',R),
'r7':('ServerModel.v','ServeHTTP','if rq_star rq then (sts, Resp 400 [])','if rq_star rq then (sts, Resp 200 [])','C108: * is a bad request',R),
'r8':('ServerModel.v','clean_path','np ++ str "/" else np','np else np','C108: the trailing slash is kept',R),
})
