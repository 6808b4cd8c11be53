M=[]
def m(id,file,d,old,new,claim,edit,targets,**k):
    M.append(dict(id=id,file=file,definition=d,old=old,new=new,claim=claim,edit=edit,targets=targets,**k))
V='Verifier.v'; PV='ParVerifier.v'
PC=['Properties_ProveCost']; PPC=['Properties_ParProveCost']
VC=['Properties_VerifyCost']
m('G1',V,'weights_loop','''        let (w3, g) := draw (E := E) g in
''','''        let w3 := w2 in
''','C128: as sound as 64 bits allow','third weight reused from the second',['Properties_Search'])
m('G2',V,'weights_loop','if seqb w1 s0 || seqb w2 s0','if seqb w2 s0','C128: weights are nonzero','w1 may be zero',['Properties_Search'])
m('G3',V,'process_proof','let U_scalar := (a_U ac + w4 * ssum products)%sc','let U_scalar := (a_U ac + w3 * ssum products)%sc','C126/C128','tag equation accumulated with the weight of the ring equation',['Properties_Grind','Properties_Search'])
m('G4',V,'process_proof','map (fun x => (- w4) * x)%sc low_powers','map (fun x => (- w3) * x)%sc low_powers','C126: what is wrong','Y accumulated with w3',['Properties_Grind'])
m('G5',V,'challenge_loop','append_u64 tw (b_ "proof") x','append_u64 tw (b_ "proof") 0%N','C126/C128: weights depend on the tag','constant appended to the weight transcript',['Properties_Grind','Properties_Search'])
m('G6',PV,'challenge_loop','append_u64 tw (b_ "proof") x','append_u64 tw (b_ "proof") 0%N','C127/C129: weights depend on the tag','constant appended to the weight transcript',['Properties_ParGrind','Properties_ParSearch'])
m('G7','Env.v','trng_next_u64','trng_fill (E := E) g 8','trng_fill (E := E) g 4','C126/C70: 64-bit tags','tag of 32 bits',['Properties_Grind','Properties_Search'])
m('G8','Core.v','f_full','index xi_powers 1','index xi_powers 0','C126','completed column uses xi^0',['Properties_Grind'])
m('P1','Prover.v','prove_first_message','let (rho, g) := draws (E := E) (N.to_nat (get_m p)) g in','let (rho, _) := draws (E := E) (N.to_nat (get_m p)) (mk_trng (tr_base g) (tr_keys g) (tr_seed g) []) in','C124: fresh masks','masks drawn from the start of the generator again',['Properties_Fresh'])
m('P2','Core.v','X_vector','(col ++ [snd jr])','(col ++ [s0])','C124: challenge unpredictable','masks of X left out',['Properties_Fresh'])
m('P3','Transcript.v','absorb_first_message','let t := append_all t (b_ "X") (map (compress E) X) in\n','','C124: challenge unpredictable','X left out of the transcript',['Properties_Fresh'])
m('P4','ParTranscript.v','absorb_first_message','let t := append_all t (b_ "X") (map (compress E) X) in\n','','C125: challenge unpredictable','X left out of the transcript',['Properties_ParFresh'])
m('P5','Prover.v','prove_first_message','let (rho, g) := draws (E := E) (N.to_nat (get_m p)) g in','let (rho, g) := (let (s, g) := draw (E := E) g in (repeat s (N.to_nat (get_m p)), g)) in','C116/C124','one mask for all positions',['Properties_Fresh','Properties_Nonces'])
m('Q1','Core.v','X_vector','msm tm (col ++ [snd jr])','msm VariableTime (col ++ [snd jr])','C122: cost; C102','X computed in variable time',PC+['Properties_Leakage'])
m('Q2','ProverCost.v','z_response_c','tick ((1 + length (combine rho xi_powers)) * v_mul v)','tick (length (combine rho xi_powers) * v_mul v)','C122: exact cost','a multiplication not counted',PC)
m('Q3','ProverCost.v','f_matrix_c','tick (v_mul v) (cret (sji * xi + aji)%sc)','(cret (sji * xi + aji)%sc)','C122: exact cost','products of f not counted',PC)
m('Q4','ProverCost.v','convolve_c','tick (length shifted_coefficients * v_mul v)\n','','C122: exact cost','degree one portion not counted',PC)
m('Q5','VerifyCost.v','f_products_c','tick (2 * u_mul u)','tick (u_mul u)','C118: exact cost','one of the two multiplications not counted',['Properties_VerifyCost'])
m('Q6','Core.v','poly_coefficients','(seq 1 (N.to_nat m - 1))','(seq 1 (N.to_nat m))','C122/C16','one convolution too many',PC)
m('O1','Transcript.v','pt_commit','challenge_bytes (E := E) t (b_ "xi") 64','challenge_bytes (E := E) t (b_ "xi") 32','C120: uniform challenges','challenge from 32 bytes',['Properties_Oracle'])
m('O2','Transcript.v','pt_init','append_message t (b_ "statement") statement_hash','t','C120: challenge bound to the statement','statement hash left out',['Properties_Oracle'])
m('N1','Transcript.v','build_transcript_rng','; (b_ "r", scalar_to_bytes (w_get_r w))]',']','C116/C20: nonces depend on the key','generator not rekeyed with the key',['Properties_Nonces'])
m('S1','OsRng.v','os_rng','(None, o) => (repeat x00 n, (o, true))','(None, o) => (repeat x00 n, (o, snd s))','C89: a failed read unwinds','failure forgotten, zeroes used',['Properties_Os'])
m('S2','OsRng.v','os_rng','(None, o) => (0%N, (o, true))','(None, o) => (0%N, (o, snd s))','C89: a failed read unwinds (random witness)','failure forgotten, index 0 used',['Properties_Os'])
m('S3','OsRng.v','os_rng','match os (fst s) 8%nat with','match os (fst s) 9%nat with','C89: random witness reads 8 bytes','nine bytes read',['Properties_Os','Properties_ParOs'])
m('S4','ParWitness.v','witness_random','let (r1, rng) := rng_scalar ro rng in','let r1 := r in','C90: random witness','second key equal to the first',['Properties_ParOs'])
