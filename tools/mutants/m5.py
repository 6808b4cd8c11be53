M=[]
def m(id,file,d,old,new,claim,edit,**k):
    M.append(dict(id=id,file=file,definition=d,old=old,new=new,claim=claim,edit=edit,**k))
L='LeakCore.v'; Q='Leak.v'; PQ='ParLeak.v'
CT='C102: the constant-time prover reveals nothing'
m('L1',Q,'t_prove_first_message','t_commit p a r_A tm "unable','t_commit p a r_A VariableTime "unable',CT,'A committed with the variable-time multiplication')
m('L2',Q,'t_prove_first_message','t_commit p sigma r_B tm','t_commit p sigma r_B VariableTime',CT,'B committed with the variable-time multiplication')
m('L3',Q,'t_prove_first_message','t_X_vector tm pv','t_X_vector VariableTime pv',CT,'X computed with the variable-time multiplication')
m('L4',Q,'t_prove_checks','t_select_key tm M l','t_select_key VariableTime M l',CT,'key of the signer read by index')
m('L5',Q,'t_prove_first_message','t_decompose_index tm','t_decompose_index VariableTime',CT,'index decomposed in variable time')
m('L6',Q,'t_prove_first_message','t_sigma_matrix tm','t_sigma_matrix VariableTime',CT,'sigma built with a branch per element')
m('L7',L,'t_delta','| ConstantTime => [Routine "u32::ct_eq" []; Routine "Scalar::conditional_assign" []]','| ConstantTime => [Branch (x =? y)]',CT+'; C103','delta branches in both modes')
m('L8',L,'t_base_loop_ct','Routine "U64::div_rem" [N.to_nat base]','Divide v base',CT+'; C103','machine division of the index')
m('L9',L,'t_gray_loop_ct','[Access (length rest);','[Access (N.to_nat b);',CT+'; C103','table lookup by a digit of the index')
m('L10',L,'t_a_sigma_matrix','tret (Ok (aji * (s1 - s2 * sji))%sc)','if seqb sji s0 then tret (Ok aji) else ([Branch true], Ok (aji * (s1 - s2 * sji))%sc)',CT+'; C103','branch on the bits of sigma')
m('L11',L,'t_z_response','tbind (emit [Extent (length (combine rho xi_powers))])','tbind (emit [Extent (length (combine rho xi_powers)); Branch (seqb r s0)])',CT+'; C103','branch on the signing key')
m('L12',Q,'rng_events','rekeyed (b_ "l") (le_bytes 4 (w_get_l w))','rekeyed (b_ "l") (repeat 0%N (N.to_nat (w_get_l w)))',CT,'index absorbed in a number of bytes that depends on it')
m('L13',Q,'t_prove_checks','tbind (emit point_check) (fun _ =>\n  t_check','tbind (emit (VartimeMsm [r] [J] :: point_check)) (fun _ =>\n  t_check',CT,'r * J with the variable-time multiplication')
m('L14',L,'t_select_key','| VariableTime => t_index M (N.to_nat l)','| VariableTime => ([], index M (N.to_nat l))','C102: the variable-time prover reveals the index','access not recorded')
m('L15',Q,'t_prove_first_message','(mk_fm A B C D X Y a sigma r_A r_B r_C r_D rho)','(mk_fm A B C D X Y a sigma r_B r_A r_C r_D rho)','C102: the traces belong to the prover','masks swapped in the instrumented prover only')
m('L16',L,'t_sigma_matrix','snd (t_delta lj (N.of_nat i) tm)) (range n)','snd (t_delta lj (N.of_nat (S i)) tm)) (range n)','C102/C103: the traces belong to the prover','sigma shifted in the instrumented prover only')
m('L17',L,'t_X_vector','(t_msm tm (col ++ [snd jr]) (M ++ [G]), msm','(t_msm VariableTime (col ++ [snd jr]) (M ++ [G]), msm',CT+'; C103','X in variable time')
m('L18',PQ,'t_X1_vector','(t_msm tm ','(t_msm VariableTime ','C103','X1 in variable time')
m('L19',PQ,'t_prove_checks','t_select_keys tm M M1 l','t_select_keys VariableTime M M1 l','C103','keys read by index')
m('L20',PQ,'t_select_keys','  | ConstantTime =>\n      (Extent (length (combine M M1)) ::','  | ConstantTime =>\n      (Access (N.to_nat l) :: Extent (length (combine M M1)) ::','C103','one access by index')
m('L21',PQ,'t_prove_response','tout (t_z_response (get_m p) r1 (fm_rho1 fm) xi_powers)','tout (t_z_response (get_m p) r1 (fm_rho fm) xi_powers)','C103: the traces belong to the prover','z1 from rho in the instrumented prover only')
m('L22',PQ,'t_pt_new','TRANSCRIPT_PARALLEL_PROOF','TRANSCRIPT_PROOF','n/a','event only (equivalent up to the length of a label)')
E_='Equality.v'; PE='ParEquality.v'
m('E1',E_,'proof_eqb',' && seqb (pf_z pf) (pf_z pf\')','','C100: == compares all fields','z not compared')
m('E2',E_,'proof_eqb','pts_eqb (pf_Y pf) (pf_Y pf\') && ','','C100','Y not compared')
m('E3',E_,'list_eqb','  | _, _ => false\n','  | [], _ => true\n  | _, _ => false\n','C100','a prefix equals')
m('E4',E_,'statement_eqb',' &&\n  peqb E (st_J st) (st_J st\') && bytes_eqb (st_hash st) (st_hash st\')','','C100','tag and hash not compared')
m('E5',E_,'input_set_eqb','pts_eqb (is_M s) (is_M s\') && bytes_eqb (is_hash s) (is_hash s\')','pts_eqb (is_M s) (is_M s\')','C100: unpadded and padded rings differ','hash of an input set not compared')
m('E6',PE,'statement_eqb','peqb E (st_offset st) (st_offset st\') && peqb E (st_J st) (st_J st\') && bytes_eqb (st_hash st) (st_hash st\')','peqb E (st_J st) (st_J st\')','C101','offset and hash not compared')
m('E7',PE,'proof_eqb',' && seqb (pf_z1 pf) (pf_z1 pf\')','','C101','z1 not compared')
m('E8',PE,'input_set_eqb','pts_eqb (is_M1 s) (is_M1 s\') && bytes_eqb (is_hash s) (is_hash s\')','true','C101','auxiliary keys not compared')
V='Env.v'
m('G1',V,'POINT_G1','b_ "Triptych G1"','b_ "Triptych U"','C96/C97: generators derived from different seeds','G1 and U from one seed')
m('G2',V,'POINT_COMMITMENT_H','b_ "Triptych CommitmentH"','b_ "Triptych U"','C96/C97','CommitmentH and U from one seed')
m('G3','Core.v','default_G1','POINT_G1 ++','POINT_U ++','C97','default G1 is U')
m('G4','Core.v','default_U','POINT_U ++ le_bytes 8 VERSION','POINT_COMMITMENT_H ++ le_bytes 8 VERSION','C96/C02/C03: independent generators','default U is CommitmentH',tightened=['C96_generators_fixed (added)'],note='before C96_generators_fixed no theorem noticed this edit')
m('G5','Witness.v','compute_linking_tag','sinv (w_r w)','w_r w','C12/C22: honest tags','tag is r * U')
m('G6','ParWitness.v','compute_linking_tag','(get_U (w_params w))','(get_G (w_params w))','C60','tag from G')
m('G7','ParWitness.v','compute_auxiliary_verification_key','get_G1','get_G','C60','auxiliary key from G')
m('G8','ParStatement.v','statement_new','map (fun P => psub P offset) (get_auxiliary_keys s)','get_auxiliary_keys s','C59: no auxiliary key equals the offset','offset not subtracted before the identity check')
