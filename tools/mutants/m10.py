M=[]
def m(id,file,d,old,new,claim,edit,targets,**k):
    M.append(dict(id=id,file=file,definition=d,old=old,new=new,claim=claim,edit=edit,targets=targets,**k))
R=['Properties_Residue'];PR=['Properties_ParResidue'];C=['Properties_Crash'];PC=['Properties_ParCrash']
m('R1','Residue.v','witness_zeroize','mk_witness (w_params w) 0 s0','mk_witness (w_params w) 0 (w_r w)','C130: a wiped witness proves nothing','the key is not wiped',R)
m('R2','Residue.v','witness_zeroize','mk_witness (w_params w) 0 s0','mk_witness (w_params w) (w_l w) s0','C130: a wiped witness is the same for every index','the index is not wiped',R)
m('R3','Residue.v','prove_first_message_left','mk_residue r_A a r_B l_decomposed sigma r_C a_sigma r_D a_square pv','mk_residue r_A a r_B l_decomposed sigma r_D a_sigma r_C a_square pv','C130: what is left is the contents of the variables','r_C and r_D swapped among what is left',R)
m('R4','Residue.v','prove_first_message_left','mk_residue r_A a r_B l_decomposed sigma r_C a_sigma r_D a_square pv','mk_residue r_A a r_B [] sigma r_C a_sigma r_D a_square pv','C130: the digits are left','the digits are wiped',R)
m('R5','Residue.v','prove_first_message_left','mk_residue r_A a r_B l_decomposed sigma r_C a_sigma r_D a_square pv','mk_residue r_A a r_B l_decomposed [] r_C a_sigma r_D a_square pv','C130: sigma is left','sigma is wiped',R)
m('R6','Residue.v','prove_first_message_left','mk_residue r_A a r_B l_decomposed sigma r_C a_sigma r_D a_square pv','mk_residue r_A (rho :: a) r_B l_decomposed sigma r_C a_sigma r_D a_square pv','C130: the masks are not left','the masks are left',R)
m('R7','Residue.v','prove_left','(w_get_r w) fm xi_powers in Ok (pf, res)','(w_get_r w + s1)%sc fm xi_powers in Ok (pf, res)','C130: the same prover','responds with another key',R)
m('R8','Residue.v','prove_first_message_left','  let (rho, g) := draws (E := E) (N.to_nat (get_m p)) g in','  let rho := repeat s0 (N.to_nat (get_m p)) in','C130: masks are drawn','masks are zero',R)
m('R9','ParResidue.v','witness_zeroize','mk_witness (w_params w) 0 s0 s0','mk_witness (w_params w) 0 s0 (w_r1 w)','C131: a wiped witness is the same for every pair of keys','the auxiliary key is not wiped',PR)
m('R10','ParResidue.v','prove_left','(w_get_r w) (w_get_r1 w) fm','(w_get_r1 w) (w_get_r w) fm','C131: the same prover','keys swapped in the response',PR)
m('R11','ParResidue.v','prove_first_message_left','sigma r_A r_B r_C r_D rho rho1,','sigma r_A r_B r_C r_D rho1 rho,','C131: the same prover','masks swapped',PR)
m('K1','CrashOs.v','prove_crash','      | (None, o) => Crashed t o\n      | (Some seed','      | (None, o) => Finished (Err InvalidChallenge) t o\n      | (Some seed','C132: a failing read unwinds','an error instead of unwinding at the first read',C)
m('K2','CrashOs.v','prove_crash','              | (None, o) => Crashed t o','              | (None, o) => Crashed (pt_init t (st_get_hash st)) o','C132: what is left after the second read failed','extra messages are left',C)
m('K3','CrashOs.v','prove_crash','      let t := pt_init t (st_get_hash st) in\n      match os o 32%nat with\n      | (None, o) => Crashed t o','      match os o 32%nat with\n      | (None, o) => Crashed t o','C132: the transcript is touched before the first read','the transcript is not initialised before the first read',C)
m('K4','CrashOs.v','prove_crash','(fm_A fm) (fm_B fm) (fm_C fm)','(fm_B fm) (fm_A fm) (fm_C fm)','C132: the first message is left','A and B swapped',C)
m('K5','CrashOs.v','prove_crash','  | Err e => Finished (Err e) t o\n  | Panic','  | Err e => Crashed t o\n  | Panic','C132: a refused witness never reaches a crash point','refusal unwinds',C)
m('K6','CrashOs.v','prove_crash','              match os o 32%nat with','              match os o 64%nat with','C132: two reads of 32 bytes','the second read is of 64 bytes',C)
m('K7','CrashOs.v','prove_crash','                  let (xi_bytes, t) := challenge_bytes (E := E) t (b_ "xi") 64 in\n','                  let (xi_bytes, t) := challenge_bytes (E := E) t (b_ "x") 64 in\n','C132: same as prove','another label',C)
m('K8','CrashOs.v','prove_crash','              match os o 32%nat with\n              | (None, o) => Crashed t o','              match os o 32%nat with\n              | (None, o) => Crashed (snd (challenge_bytes (E := E) t (b_ "xi") 64)) o','C132: no challenge has been taken','the challenge is taken before the second read',C)
m('K9','ParCrashOs.v','prove_crash','; (b_ "r1", scalar_to_bytes (w_get_r1 w))]',']','C133: same as prove; nonces depend on the auxiliary key','the generator is not rekeyed with r1',PC)
m('K10','ParCrashOs.v','prove_crash','(fm_X fm) (fm_X1 fm) (fm_Y fm)','(fm_X fm) (fm_Y fm) (fm_X1 fm)','C133: the first message is left','X1 and Y swapped',PC)
m('K11','ParCrashOs.v','prove_crash','      | (None, o) => Crashed t o\n      | (Some seed','      | (None, o) => Crashed [] o\n      | (Some seed','C133: what is left','the transcript is emptied',PC)
# deeper: bugs in the modelled code that these claims see
m('K12','Transcript.v','pt_init','  let t := append_u64 t (b_ "version") VERSION in\n','','C132: three messages are left; C37','the version is not appended',['Properties_Crash','Properties_Verifier'])
m('K13','ParTranscript.v','build_transcript_rng','(b_ "r", scalar_to_bytes (w_get_r w))','(b_ "r", scalar_to_bytes (w_get_r1 w))','C61: nonces depend on both keys','rekeyed twice with r1',['Properties_ParCrash'])
