M=[]
def m(id,file,d,old,new,claim,edit,**k):
    M.append(dict(id=id,file=file,definition=d,old=old,new=new,claim=claim,edit=edit,**k))
P='Prover.v'
m('k1',P,'prove_checks','else if negb (peqb E (pmul E r J) (get_U p)) then Err (InvalidParameter "`r * J != U`")\n','','C15: a witness whose tag differs is refused','tag check dropped')
m('k2',P,'prove_checks','if negb (peqb E M_l (pmul E r (get_G p))) then Err (InvalidParameter "`M[l] != r * G`")\n    else if','if','C15: a witness whose key is not in the ring is refused','key check dropped')
m('k3',P,'prove_checks','if negb (params_eqb (w_get_params w) (st_get_params st))','if false','C15: parameters must agree','parameter comparison dropped')
m('k4',P,'prove_checks','"`M[l] != r * G`"','"`r * J != U`"','C15/C18: the reason given for a refusal','wrong reason for a wrong key')
m('k5',P,'prove_first_message','let (rho, g) := draws (E := E) (N.to_nat (get_m p)) g in','let rho := repeat r_D (N.to_nat (get_m p)) in','C20/C21: fresh nonces','all rho equal r_D')
m('k6',P,'prove_first_message','let (r_B, g) := draw (E := E) g in','let r_B := r_A in','C20/C54: independent masks','mask r_B reuses r_A')
m('k7',P,'prove_first_message','let Y := map (fun rh => pmul E rh J) rho in','let Y := map (fun rh => pmul E rh (get_U p)) rho in','C22: completeness','Y from U instead of J')
m('k8',P,'prove_first_message','(commit_matrix p a_square r_D tm)','(commit_matrix p a_square r_C tm)','C22: completeness','D masked with r_C')
m('k9',P,'prove_response','(fm_r_A fm + xi * fm_r_B fm)','(xi * fm_r_A fm + fm_r_B fm)','C22: completeness','z_A with the wrong mask scaled')
m('k10',P,'prove_response','(xi * fm_r_C fm + fm_r_D fm)','(fm_r_C fm + xi * fm_r_D fm)','C22: completeness','z_C with the wrong mask scaled')
m('k11',P,'prove_internal',"pt_new ro t st rng (Some w) in","pt_new ro t st rng None in",'C20/C21: nonces depend on the witness','first generator not rekeyed with the witness')
m('k12',P,'prove_internal',"  | Err e => (Err e, t, rng)\n  | Panic => (Panic, t, rng)\n  | OutOfFuel => (OutOfFuel, t, rng)\n  | Ok _ =>\n      let","  | Err e => (Err e, pt_init t (st_get_hash st), rng)\n  | Panic => (Panic, t, rng)\n  | OutOfFuel => (OutOfFuel, t, rng)\n  | Ok _ =>\n      let",'C18: a refusal leaves the transcript alone','transcript touched by a refused call')
m('k13',P,'prove_with_rng_vartime','prove_internal ro w st rng t VariableTime','prove_internal ro w st rng [] VariableTime','C17: both timings agree','variable time prover ignores the transcript')
m('k14',P,'prove_first_message','let* pv := p_vector (get_n p) (get_m p) a sigma in','let* pv := p_vector (get_n p) (get_m p) sigma a in','C22: completeness','a and sigma swapped in the polynomials')
m('k15',P,'prove_internal','fm_X fm) (fm_Y fm) in','fm_Y fm) (fm_X fm) in','C22/C35: transcript order','X and Y swapped in the transcript')
V='Verifier.v'
m('k16',V,'check_dims','"proof `Y` vector length was not `m`"','"proof `X` vector length was not `m`"','C71: reason of the refusal','reason for a wrong Y')
m('k17',V,'batch_checks','      then Err (InvalidParameter "statement input sets do not match")\n','      then Err FailedVerification\n','C71: reason of the refusal','mixed rings reported as FailedVerification')
m('k18',V,'batch_checks','"batch size overflowed `u32`"','"batch too big"','C71','reason for a too large batch')
m('k19',V,'batch_checks','        let* _ := check_dims p proofs in\n        let* batch_size := ok_or (checked u32_bound (N.of_nat (length proofs)))\n                                 (InvalidParameter "batch size overflowed `u32`") in\n','        let* batch_size := ok_or (checked u32_bound (N.of_nat (length proofs)))\n                                 (InvalidParameter "batch size overflowed `u32`") in\n        let* _ := check_dims p proofs in\n','C71: order of checks','batch size checked before dimensions')
m('k20',V,'challenge_loop','      | Err e => (Err e, t :: ts)','      | Err e => (Err e, transcripts)','C71: transcripts on a zero challenge','transcripts restored on a zero challenge')
m('k21',V,'process_all','let* (g, ac) := process_proof fuel p pf xi_powers g ac in\n      process_all fuel p pfs rest g ac','let* (_, ac) := process_proof fuel p pf xi_powers g ac in\n      process_all fuel p pfs rest g ac','C26/C36: fresh weights for every proof','generator restarted for every proof')
m('k22',V,'process_all','process_all fuel p pfs rest g ac','process_all fuel p pfs powers g ac','C25','challenge of the first proof used twice')
m('k23',V,'final_scalars','[a_G ac] ++ a_CommitmentG ac ++ [a_CommitmentH ac]','[a_CommitmentH ac] ++ a_CommitmentG ac ++ [a_G ac]','C24','scalars of G and H swapped')
m('k24',V,'verify_batch','if peqb E result (pid E) then Ok tt else Err FailedVerification','if peqb E result (pid E) then Ok tt else Err FailedBatchVerification','C71','other error for a failed equation')
m('k25',V,'verify_batch','let M := get_keys (st_get_input_set first_statement) in','let M := get_keys (st_get_input_set (last statements first_statement)) in','C56: the ring of the first statement','ring of the last statement')
m('k26',V,'verify_batch_with_single_blame','| Err _ => (blame_loop','| Err FailedVerification => (Err FailedVerification, transcripts)\n  | Err _ => (blame_loop','C39/C71: failures are blamed','no search after a failed equation')
m('k27',V,'verify_batch_with_full_blame','let (failures, transcripts) := full_blame_loop fuel md 0 statements proofs transcripts in','let (failures, _) := full_blame_loop fuel md 0 statements proofs transcripts in','C43/C71: transcripts after full blame','transcripts left untouched by full blame')
m('k28',V,'full_blame_loop','Ok (index :: l), t :: ts)','Ok (l ++ [index]), t :: ts)','C43: ascending list of failures','failures listed in descending order')
m('k29',V,'verify','(res, match ts with [t\'] => t\' | _ => t end)','(res, t)','C36/C71: transcript after verify','transcript of verify unchanged')
m('k30',V,'blame_loop','else blame_loop search_fuel\' fuel md statements proofs transcripts mid right','else blame_loop search_fuel\' fuel md statements proofs transcripts (S mid) right','C39','search skips the position after the midpoint')
O='OsRng.v'
m('k31',O,'os_rng','| (None, o) => (repeat x00 n, (o, true))','| (None, o) => (repeat x00 n, (o, snd s))','C89: failure unwinds','failed reads give zeroes')
m('k32',O,'os_run','if failed then Unwinds else Returns r t o','Returns r t o','C89','failure ignored')
m('k33','ProverOs.v','prove','(o, false) t ConstantTime','(snd (os o 32%nat), false) t ConstantTime','C89: a refusal reads nothing','generator read before the checks')
m('k34','ProverOs.v','prove_vartime','os_run (prove_internal (os_rng os) w st (o, false) t VariableTime)','os_run (prove_internal (os_rng (fun o n => (Some (repeat x00 n), o))) w st (o, false) t VariableTime)','C89','variable time prover uses the null generator')
S='Serde.v'
m('k35',S,'des_32','if (length bs <? 32)%nat then Err SerdeError\n      else','','C91','short arrays accepted')
m('k36',S,'des_32','match lo with LeftoversRefused => Err SerdeError | LeftoversIgnored => Ok bs end','Ok bs','C91: canonical in strict formats','long arrays accepted by strict formats')
m('k37',S,'scan_map','if existsb (fun kv => String.eqb k (fst kv)) got then Err SerdeError else','','C91','repeated fields accepted')
m('k38',S,'scan_map','      else scan_map names fields\' got','      else Err SerdeError','C91/C93','unknown fields refused')
m('k39',S,'visit_seq','match lo with LeftoversRefused => Err SerdeError | LeftoversIgnored => Ok (firstn (length names) vs) end','Ok (firstn (length names) vs)','C91/C93','trailing elements accepted by strict formats')
m('k40',S,'lookup','| None => Err SerdeError end','| None => Ok (VSeq []) end','C91','missing field defaults to the empty sequence')
D='SerdeProof.v'
m('k41',D,'proof_fields','("X", vec_tree point_tree (pf_X pf)); ("Y", vec_tree point_tree (pf_Y pf))','("X", vec_tree point_tree (pf_Y pf)); ("Y", vec_tree point_tree (pf_X pf))','C91','X and Y swapped when writing')
m('k42',D,'field_names','"z_A"; "z_C"; "z"]','"z_C"; "z_A"; "z"]','C91','order of z_A and z_C when reading')
m('k43',D,'deserialize','      Ok (mk_proof A B C D X Y f z_A z_C z)','      if (length X =? length Y)%nat then Ok (mk_proof A B C D X Y f z_A z_C z) else Err SerdeError','C91: every proof survives','lengths of X and Y compared when reading')
m('k44',S,'des_scalar','ok_or (scalar_from_canonical bs) SerdeError','Ok (scalar_from_wide bs)','C91: canonical','scalars reduced when reading')
PV='ParVerifier.v'
m('k45',PV,'par process_all','let* (g, ac) := process_proof fuel p pf xi_powers g ac in\n      process_all fuel p pfs rest g ac','let* (_, ac) := process_proof fuel p pf xi_powers g ac in\n      process_all fuel p pfs rest g ac','C63/C68','generator restarted for every proof')
m('k46',PV,'par verify','(res, match ts with [t\'] => t\' | _ => t end)','(res, t)','C68/C72','transcript of verify unchanged')
m('k47',PV,'par full_blame_loop','Ok (index :: l), t :: ts)','Ok (l ++ [index]), t :: ts)','C67','failures listed in descending order')
m('k48',PV,'par verify_batch','let M1 := get_auxiliary_keys (st_get_input_set first_statement) in','let M1 := get_keys (st_get_input_set first_statement) in','C63','auxiliary keys replaced by the keys')
m('k49',PV,'par blame_loop','let average := (left + (right - left) / 2)%nat in','let average := ((left + right) / 2 - 1)%nat in','C67','midpoint off by one')
m('k50','ParWitness.v','par compute_linking_tag','(sinv (w_r w))','(w_r w)','C58','tag is r*U')
m('k51','ParSerdeProof.v','par deserialize','Ok (mk_proof A B C D X X1 Y f z_A z_C z z1)','Ok (mk_proof A B C D X1 X Y f z_A z_C z z1)','C92','X and X1 swapped when reading')
m('k52','ParCodec.v','par borsh_deserialize_reader','Ok (pf, skipn len rest)','Ok (pf, [])','C69','reader drained')
X='Core.v'
m('k53',X,'default_U','POINT_U ++ le_bytes 8 VERSION','POINT_COMMITMENT_H ++ le_bytes 8 VERSION','C02/C03: independent generators','default U is CommitmentH')
m('k54',X,'parse_many','let* (xs, c2) := parse_many parse k\' c1 in\n      Ok (x :: xs, c2)','let* (xs, c2) := parse_many parse k\' c1 in\n      Ok (xs ++ [x], c2)','C45','elements read in reverse')
m('k55',X,'zip_add','| _, _ => acc','| _, _ => []','C24/C30','accumulator truncated')
m('k56',X,'contains_zero','existsb (existsb (fun x => seqb x s0)) f','existsb (existsb (fun x => seqb x s0)) (tl f)','C23/C71','first row not searched for zeroes')
m('k57',X,'all_f_products','(sprod firsts)','(ssum firsts)','C24','initial product is a sum')
m('k58','Transcript.v','pt_response','let t := absorb_response t f z_A z_C z in\n','','C36/C70: weights depend on the responses','responses not absorbed')
m('k59','Env.v','TRANSCRIPT_VERIFIER_WEIGHTS','b_ "Triptych verifier weights"','b_ "Triptych proof"','C52','weights use the proof domain',nth=1)
m('k60','Env.v','draw','trng_fill (E := E) g 64 in (scalar_from_wide bs, g\')','trng_fill (E := E) g 64 in (scalar_from_wide bs, g)','C20/C21/C70','generator not advanced by a draw',nth=1)
m('k61','Gray.v','first_diff','','','n/a','')
M=[x for x in M if x['id']!='k61']
