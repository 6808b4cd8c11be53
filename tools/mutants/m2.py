M=[]
def m(id,file,d,old,new,claim,edit,**k):
    M.append(dict(id=id,file=file,definition=d,old=old,new=new,claim=claim,edit=edit,**k))
m('c1','Core.v','challenge_powers','let* count := ok_or (checked_add usize_bound m 1)\n                      (Inv','let* count := ok_or (Some m)\n                      (Inv','C15/C22','one power too few')
V='Verifier.v'
m('v1',V,'check_dims','if negb (N.of_nat (length (pf_X pf)) =? get_m p)%N','if false','C33','X length unchecked')
m('v2',V,'check_dims','else if negb (N.of_nat (length (pf_Y pf)) =? get_m p)%N','else if false','C33','Y length unchecked')
m('v3',V,'check_dims','else if negb (N.of_nat (length (pf_f pf)) =? get_m p)%N','else if false','C33','row count unchecked')
m('v4','Core.v','check_rows','if negb (N.of_nat (length row) =? cols)%N','if (N.of_nat (length row) <? cols)%N','C33','too many columns accepted')
m('v5',V,'check_dims','let* _ := check_rows (get_n p) (pf_f pf) in\n        check_dims p rest','check_rows (get_n p) (pf_f pf)','C33','only the first proof of a batch is checked')
m('v6',V,'final_size','let* s := arith32 md (s + get_N p) in','let* s := Ok s in','C31','ring size left out of the size computation')
m('v7',V,'final_points','; st_get_J (snd ps)]',';  get_U p]','C24','U in place of J')
m('v8',V,'final_points','++ pf_X (fst ps) ++ pf_Y (fst ps))','++ pf_Y (fst ps) ++ pf_X (fst ps))','C24','X and Y swapped')
m('v9',V,'challenge_loop','let tw := append_u64 tw (b_ "proof") x in','','C36','weights independent of the proofs')
m('v10',V,'challenge_loop',"| Err e => (Err e, t :: ts)\n      | Panic => (Panic, t :: ts)\n      | OutOfFuel => (OutOfFuel, t :: ts)\n      end\n  | _, _, _ => (Ok ([], tw), transcripts)","| Err e => (Err FailedVerification, t :: ts)\n      | Panic => (Panic, t :: ts)\n      | OutOfFuel => (OutOfFuel, t :: ts)\n      end\n  | _, _, _ => (Ok ([], tw), transcripts)",'C24','zero challenge reported as FailedVerification')
m('v11',V,'weights_loop','if seqb w1 s0 || seqb w2 s0 || seqb w3 s0 || seqb w4 s0 then','if seqb w1 s0 then','C24/C26: weights nonzero','only w1 must be nonzero')
m('v12',V,'weights_loop','let (w2, g) := draw (E := E) g in','let w2 := w1 in','C24','w2 = w1')
m('v13',V,'process_proof','if contains_zero f then','if false then','C24/C30','zero responses not refused')
m('v14',V,'process_proof','(a_G ac - w3 * pf_z pf)','(a_G ac + w3 * pf_z pf)','C24','sign of z')
m('v15',V,'process_proof','w1 * x + w2 * x * (xi - x)','w1 * x + w2 * (xi - x)','C24','factor missing in the square equation')
m('v16',V,'process_proof','w1 * pf_z_A pf + w2 * pf_z_C pf','w1 * pf_z_A pf','C24','z_C ignored')
m('v17',V,'process_proof','((- w1) * x1)%sc; ((- w2) * x1)%sc; (- w2)%sc','((- w1) * x1)%sc; (- w2)%sc; ((- w2) * x1)%sc','C24','C and D swapped')
m('v18',V,'process_proof','slice xi_powers 0 (N.to_nat (get_m p))','slice xi_powers 1 (S (N.to_nat (get_m p)))','C24','powers shifted by one')
m('v19',V,'process_proof','(a_U ac + w4 * ssum products)','(a_U ac + w3 * ssum products)','C24','wrong weight for U')
m('v20',V,'process_proof','zip_add (a_M ac) (map','zip_add (repeat s0 (length (a_M ac))) (map','C25/C26','ring accumulator overwritten by the last proof')
m('v21',V,'process_proof','let G_scalar := (a_G ac - w3','let G_scalar := (s0 - w3','C26','G accumulator overwritten')
m('v22',V,'process_all','process_all fuel p pfs rest g ac','process_all fuel p pfs rest g0 ac','n/a','n/a')
m('v23',V,'batch_checks','if negb (all_equal (map (fun s => input_set_get_hash (st_get_input_set s)) statements))','if false','C34','input sets not compared')
m('v24',V,'batch_checks','else if negb (all_equal (map (fun s => params_get_hash (st_get_params s)) statements))','else if false','C34','parameters not compared')
m('v25',V,'batch_checks','else if negb (Nat.eqb (length statements) (length transcripts))','else if false','C32','transcript count unchecked')
m('v26',V,'batch_checks','if negb (Nat.eqb (length statements) (length proofs))','if false','C32','proof count unchecked')
m('v27',V,'batch_checks','| [] => Ok None','| [] => Err FailedVerification','C32','empty batch refused')
m('v28',V,'batch_checks','(checked u32_bound (N.of_nat (length proofs)))','(Some (N.of_nat (length proofs)))','C24/C30 batch size limit','batch size unchecked')
m('v29',V,'verify_batch','if peqb E result (pid E) then Ok tt else Err FailedVerification','Ok tt','C24','everything accepted')
m('v30','Core.v','f_full','Ok ((xi - ssum row)%sc :: row)','Ok ((xi + ssum row)%sc :: row)','C24','sign in completion')
m('v31','Core.v','f_products','(f_product * (inv * new))','(f_product * new)','C24','old digit not divided out')
m('v32','Core.v','f_products','Ok (f_product :: rest)','Ok ((f_product * s2)%sc :: rest)','C24','doubled products')
m('v33','Core.v','all_equal','bytes_eqb x y && all_equal r','all_equal r','C34','hash comparison dropped')
m('v34',V,'verify','verify_batch fuel md [st] [pf] [t]','verify_batch fuel md [] [] [t]','C24','verify checks nothing')
m('v35',V,'blame_loop','else (average + 1)%nat in','else average in','C40/C41','rounding of the midpoint')
m('v36',V,'blame_loop','(Some left))\n                else','(Some mid))\n                else','C40','wrong index blamed')
m('v37',V,'blame_loop','(Some right_result))','(Some right))','C40','index off by one')
m('v38',V,'blame_loop','else blame_loop search_fuel\' fuel md statements proofs transcripts mid right','else blame_loop search_fuel\' fuel md statements proofs transcripts left mid','C40','search continues in the accepted half')
m('v39',V,'verify_batch_with_single_blame','transcripts 0 (length proofs), transcripts)','transcripts 1 (length proofs), transcripts)','C40','search starts at 1')
m('v40',V,'full_blame_loop','Ok (index :: l), t :: ts)','Ok (S index :: l), t :: ts)','C43','indexes off by one')
m('v41',V,'full_blame_loop','full_blame_loop fuel md (S index) sts pfs ts in (failures, t :: ts)','full_blame_loop fuel md index sts pfs ts in (failures, t :: ts)','C43','index not advanced after a valid proof')
m('v42',V,'verify_batch_with_full_blame','| Ok _ => (Ok tt, transcripts)\n  | Panic => (Panic, transcripts)\n  | OutOfFuel => (OutOfFuel, transcripts)\n  | Err _ =>\n      let','| Ok _ => (Ok tt, [])\n  | Panic => (Panic, transcripts)\n  | OutOfFuel => (OutOfFuel, transcripts)\n  | Err _ =>\n      let','C43','transcripts lost on success')
m('v43',V,'weights_transcript','TRANSCRIPT_VERIFIER_WEIGHTS','TRANSCRIPT_PROOF','C52','weights use the proof domain')
m('v44',V,'acc_start','(repeat s0 (length M)) s0','(repeat s0 (length M)) s1','C24','U accumulator starts at one')
m('v45',V,'final_size','let* m2 := arith32 md (2 * get_m p) in','let* m2 := arith32 md (get_m p) in','C31','size of X and Y underestimated')
C='Codec.v'
m('d1',C,'to_bytes','let n_minus_1 := (N.of_nat (length f0) mod u32_bound)%N in','let n_minus_1 := ((N.of_nat (length f0) + 1) mod u32_bound)%N in','C45','header holds n')
m('d2',C,'to_bytes','++ concat (map (compress E) (pf_X pf))\n      ++ concat (map (compress E) (pf_Y pf))','++ concat (map (compress E) (pf_Y pf))\n      ++ concat (map (compress E) (pf_X pf))','C45','X and Y swapped in the encoding')
m('d3',C,'from_bytes','if negb (Nat.eqb (length (ch_remainder c)) 0) then Err FailedDeserialization\n      else','if false then Err FailedDeserialization\n      else','C46/C47','trailing partial chunk accepted')
m('d4',C,'from_bytes','| Some _ => Err FailedDeserialization\n','| Some _ => Ok (mk_proof A B C D X Y f z_A z_C z)\n','C46/C47','trailing chunks accepted')
m('d5',C,'from_bytes','if (m <? 2)%N','if (m <? 1)%N','C47','m = 1 accepted')
m('d6',C,'from_bytes','if (n <? 2)%N','if (n <? 1)%N','C47','n = 1 accepted')
m('d7',C,'from_bytes','(checked_add u32_bound n_minus_1 1)','(Some (n_minus_1 + 1)%N)','C47/C48','n = 2^32 accepted')
m('d8','Core.v','parse_scalar','let* s := ok_or (scalar_from_canonical bs) FailedDeserialization in Ok (s, c\')','Ok (scalar_from_wide bs, c\')','C46','non-canonical scalars reduced')
m('d9',C,'from_bytes','let* (z_A, c) := parse_scalar c in\n      let* (z_C, c) := parse_scalar c in','let* (z_C, c) := parse_scalar c in\n      let* (z_A, c) := parse_scalar c in','C45','z_A and z_C read in the wrong order')
m('d10',C,'borsh_serialize','Ok (le_bytes 4 (N.of_nat (length bs)) ++ bs)','Ok bs','C50','length prefix missing')
m('d11',C,'borsh_deserialize_reader','Ok (pf, skipn len rest)','Ok (pf, [])','C50','reader drained')
m('d12',C,'borsh_serialize','if (N.of_nat (length bs) <? u32_bound)%N then','if true then','C50','length not limited to u32')
m('d13',C,'to_bytes','let* f0 := index (pf_f pf) 0 in','let f0 := hd [] (pf_f pf) in','C49 panics exactly on the empty matrix','no panic on the empty matrix')
m('d14','Core.v','parse_u32','if negb (Nat.eqb (length bs) 4)','if false','C47/C48','short header accepted')
