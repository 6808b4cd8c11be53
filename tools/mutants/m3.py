M=[]
def m(id,file,d,old,new,claim,edit,**k):
    M.append(dict(id=id,file=file,definition='par '+d,old=old,new=new,claim=claim,edit=edit,**k))
P='ParParams.v'
m('q1',P,'params_transcript','let t := append_message t (b_ "G1") (compress E G1) in\n','','C57/C68','G1 not hashed')
m('q2',P,'params_new','(basepoint E) default_G1 default_U','(basepoint E) default_U default_U','C57','default G1 is U')
m('q3',P,'params_eqb','peqb E (p_G1 p) (p_G1 q) && ','','C61','G1 not compared (equality still decided by the hash only)')
m('q4',P,'new_with_generators','Ok (mk_params n m G G1 U','Ok (mk_params n m G U U','C57','G1 replaced by U')
S='ParStatement.v'
m('q5',S,'input_set_transcript','append_all t (b_ "M1") (map (compress E) M1)','t','C68','M1 not hashed')
m('q6',S,'input_set_new','if negb (length M =? length M1)%nat','if false','C58','lengths of M and M1 not compared in new',nth=1)
m('q7',S,'input_set_new_with_padding','if negb (length M =? length M1)%nat','if false','C58','lengths not compared when padding',nth=2)
m('q8',S,'input_set_new_with_padding','let M1_padded := resize M1 (N.to_nat (get_N p)) last1 in','let M1_padded := resize M1 (N.to_nat (get_N p)) last in','C58','M1 padded with the last key of M')
m('q9',S,'statement_transcript','let t := append_message t (b_ "offset") (compress E offset) in\n','','C68','offset not hashed')
m('q10',S,'statement_new','else if existsb (fun P => peqb E P (pid E)) (map (fun P => psub P offset) (get_auxiliary_keys s))\n  then Err (SE_InvalidParameter "input vector contained the identity point")\n','','C59','identity check on M1 - offset dropped')
m('q11',S,'statement_new','(map (fun P => psub P offset) (get_auxiliary_keys s))','(get_auxiliary_keys s)','C59','offset ignored in the identity check')
m('q12',S,'statement_new','(map (fun P => psub P offset) (get_auxiliary_keys s))','(map (fun P => padd E P offset) (get_auxiliary_keys s))','C59','sign of the offset')
W='ParWitness.v'
m('q13',W,'witness_new','else if seqb r1 s0 then Err (WE_InvalidParameter "`r1 == 0`")\n','','C60','zero r1 accepted')
m('q14',W,'compute_auxiliary_verification_key','pmul E (w_r1 w) (get_G1','pmul E (w_r w) (get_G1','C60','r instead of r1')
m('q15',W,'compute_auxiliary_verification_key','(get_G1 (w_params w))','(get_G (w_params w))','C60','G instead of G1')
m('q16',W,'witness_random','let (r1, rng) := rng_scalar ro rng in','let r1 := r in','C60','r1 = r in random')
T='ParTranscript.v'
m('q17',T,'build_transcript_rng',';\n                             (b_ "r1", scalar_to_bytes (w_get_r1 w))]',']','C68 (nonces)','generator not rekeyed with r1')
m('q18',T,'absorb_first_message','let t := append_all t (b_ "X1") (map (compress E) X1) in\n','','C68','X1 not absorbed')
m('q19',T,'absorb_response','  append_message t (b_ "z1") (scalar_to_bytes z1)','  t','C68','z1 not absorbed')
m('q20',T,'pt_init','TRANSCRIPT_PARALLEL_PROOF','TRANSCRIPT_PROOF','C52','domain separator of the plain protocol')
Q='ParProver.v'
m('q21',Q,'select_keys','Ok (select_ct (map fst zipped) l, select_ct (map snd zipped) l)','Ok (select_ct (map fst zipped) l, select_ct (map fst zipped) l)','C61','wrong auxiliary key in constant time')
m('q22',Q,'select_keys','let* M1_l := index M1 (N.to_nat l) in','let* M1_l := index M1 0 in','C61','wrong auxiliary key in variable time')
m('q23',Q,'prove_checks','(psub M1_l offset) (pmul E r1 (get_G1 p))','M1_l (pmul E r1 (get_G1 p))','C61','offset ignored in check')
m('q24',Q,'prove_checks','else if negb (peqb E (pmul E r J) (get_U p)) then Err (InvalidParameter "`r * J != U`")\n','','C61','tag check dropped')
m('q25',Q,'X1_vector','let minus_offset := popp E offset in','let minus_offset := offset in','C61/C62','sign of offset in X1')
m('q26',Q,'X1_vector','let p_sum := ssum col in','let p_sum := s1 in','C62','p_sum wrong')
m('q27',Q,'prove_first_message','let (rho1, g) := draws (E := E) (N.to_nat (get_m p)) g in','let rho1 := rho in','C65','rho1 = rho (aux nonce reuse)')
m('q28',Q,'prove_response','z_response (get_m p) r1 (fm_rho1 fm) xi_powers','z_response (get_m p) r (fm_rho1 fm) xi_powers','C62','z1 from r')
m('q29',Q,'prove_response','z_response (get_m p) r1 (fm_rho1 fm) xi_powers','z_response (get_m p) r1 (fm_rho fm) xi_powers','C62','z1 from rho')
m('q30',Q,'prove_first_message','X1_vector tm pv M1 (get_G1 p) offset rho1','X1_vector tm pv M1 (get_G p) offset rho1','C62','G in X1')
m('q31',Q,'prove_first_message','X1_vector tm pv M1 (get_G1 p)','X1_vector tm pv M (get_G1 p)','C62','M in X1')
V='ParVerifier.v'
m('q32',V,'check_dims','else if negb (N.of_nat (length (pf_X1 pf)) =? get_m p)%N','else if false','C63','X1 length unchecked')
m('q33',V,'final_points','++ pf_X (fst ps) ++ pf_X1 (fst ps) ++','++ pf_X1 (fst ps) ++ pf_X (fst ps) ++','C62','X and X1 swapped')
m('q34',V,'final_points','++ [st_get_offset (snd ps)]','++ [pid E]','C62','offset left out')
m('q35',V,'process_proof','[((- w5) * ssum products)%sc]','[(w5 * ssum products)%sc]','C62','sign of the offset scalar')
m('q36',V,'process_proof','(a_G1 ac - w5 * pf_z1 pf)','(a_G1 ac - w5 * pf_z pf)','C62','z in place of z1')
m('q37',V,'process_proof','let M1_scalars := zip_add (a_M1 ac) (map (fun x => w5 * x)%sc products) in','let M1_scalars := zip_add (a_M1 ac) (map (fun x => w3 * x)%sc products) in','C62','w3 for M1')
m('q38',V,'process_proof','let M1_scalars := zip_add (a_M1 ac)','let M1_scalars := zip_add (a_M ac)','C62','M1 accumulator from M')
m('q39',V,'process_proof','map (fun x => (- w5) * x)%sc low_powers','map (fun x => (- w3) * x)%sc low_powers','C62','w3 for X1')
m('q40',V,'weights_loop','let (w5, g) := draw (E := E) g in','let w5 := w3 in','C62: independent weights','w5 = w3')
m('q41',V,'weights_loop',' || seqb w5 s0','','C62','w5 may be zero')
m('q42',V,'final_size','let* N2 := arith32 md (2 * get_N p) in','let* N2 := arith32 md (get_N p) in','C63','size computation too small')
m('q43',V,'acc_start','(repeat s0 (length M1)) s0','(repeat s1 (length M1)) s0','C62','M1 accumulator starts at one')
m('q44',V,'weights_transcript','TRANSCRIPT_PARALLEL_VERIFIER_WEIGHTS','TRANSCRIPT_VERIFIER_WEIGHTS','C52','domain separator')
m('q45',V,'final_points','++ M ++ M1 ++ [get_U p]','++ M1 ++ M ++ [get_U p]','C62','M and M1 swapped')
m('q46',V,'challenge_loop','(pf_z_A pf) (pf_z_C pf) (pf_z pf) (pf_z1 pf) in','(pf_z_A pf) (pf_z_C pf) (pf_z pf) (pf_z pf) in','C68','z1 not bound in the weights')
C='ParCodec.v'
m('q47',C,'to_bytes','      ++ concat (map (compress E) (pf_X pf))\n      ++ concat (map (compress E) (pf_X1 pf))\n','      ++ concat (map (compress E) (pf_X1 pf))\n      ++ concat (map (compress E) (pf_X pf))\n','C69','X and X1 swapped when writing')
m('q48',C,'from_bytes','let* (z, c) := parse_scalar c in\n      let* (z1, c) := parse_scalar c in','let* (z1, c) := parse_scalar c in\n      let* (z, c) := parse_scalar c in','C69','z and z1 swapped when reading')
m('q49',C,'from_bytes','let* (X1, c) := parse_many parse_point (N.to_nat m) c in','let X1 := X in','C69','X1 not read')
m('q50',C,'to_bytes','      ++ scalar_to_bytes (pf_z1 pf)\n','','C69','z1 not written')
