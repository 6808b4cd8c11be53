M=[]
def m(id,file,d,old,new,claim,edit,targets,**k):
    M.append(dict(id=id,file=file,definition=d,old=old,new=new,claim=claim,edit=edit,targets=targets,**k))
V='Verifier.v'; PV='ParVerifier.v'
W=['Properties_Weights']; PW=['Properties_ParWeights']
m('V1',V,'weights_loop','''        let (w2, g) := draw (E := E) g in
''','''        let w2 := w1 in
''','C114: few weight tables accept; four independent weights','second weight reused from the first',W)
m('V2',V,'weights_loop','|| seqb w4 s0 then','then','C114: weights are nonzero','w4 may be zero',W)
m('V3',V,'process_proof','let U_scalar := (a_U ac + w4 * ssum products)%sc','let U_scalar := (a_U ac + w3 * ssum products)%sc','C114','U accumulated with the weight of the ring equation',W)
m('V4',V,'process_all','process_all fuel p pfs rest g ac\n','process_all fuel p pfs rest g ac',"C114",'generator not advanced (all proofs use the same weights)',W,also=[(V,"let* (g, ac) := process_proof fuel p pf xi_powers g ac in","let* (_, ac) := process_proof fuel p pf xi_powers g ac in")])
m('V5',V,'challenge_loop','append_u64 tw (b_ "proof") x','append_u64 tw (b_ "proof") 0%N','C114/C36: weights depend on the proofs','constant appended to the weight transcript',W)
m('V6',PV,'process_proof','let (w5, g) := draw','let (_, g) := draw','C115','fifth weight not drawn',PW)
m('R1','Transcript.v','pt_init','append_message t (b_ "statement") statement_hash','t','C106: proofs cannot be moved to another statement','statement hash left out of the transcript',['Properties_Replay'])
m('R2','Transcript.v','absorb_first_message','let t := append_message t (b_ "A") (compress E A) in\n','','C106: proofs cannot be moved','A left out of the transcript',['Properties_Replay'])
m('R3','Transcript.v','absorb_first_message','append_all t (b_ "Y") (map (compress E) Y)','t','C106: proofs cannot be moved','Y left out of the transcript',['Properties_Replay'])
m('R4','ParTranscript.v','absorb_first_message','let t := append_all t (b_ "X1") (map (compress E) X1) in\n','','C107: proofs cannot be moved','X1 left out of the transcript',['Properties_ParReplay'])
m('U1','Witness.v','witness_random','(x mod get_N p) mod u32_bound','(x mod (get_N p - 1)) mod u32_bound','C108: uniform index','index drawn from N - 1 values',['Properties_Uniform'])
m('U2','Witness.v','witness_random','(x mod get_N p) mod u32_bound','(x mod u32_bound) mod get_N p','C108: exact bias','reduced to 32 bits before the reduction modulo N',['Properties_Uniform'])
m('U3','Env.v','rng_scalar','rng_fill ro r 64','rng_fill ro r 32','C108: bias of the key','key from 32 bytes',['Properties_Uniform'])
m('U4','ParWitness.v','witness_random','let (r1, rng) := rng_scalar ro rng in','let r1 := r in','C109: independent keys','second key equal to the first',['Properties_ParUniform'])
m('D1','Codec.v','from_bytes','if (n <? 2)%N','if (n <? 1)%N','C110: linear decoding','rows without elements accepted',['Properties_DecodeCost'],also=[('Properties_DecodeCost.v','if (n <? 2)%N','if (n <? 1)%N')],note='the edit is made to the decoder and to its instrumented version')
m('D2','ParCodec.v','from_bytes','if (n <? 2)%N','if (n <? 1)%N','C111: linear decoding','rows without elements accepted',['Properties_ParDecodeCost'],also=[('Properties_ParDecodeCost.v','if (n <? 2)%N','if (n <? 1)%N')],note='the edit is made to the decoder and to its instrumented version')
m('F1','Core.v','f_full','index xi_powers 1','index xi_powers 0','C112','completed column uses xi^0',['Properties_Forger'])
m('F2',V,'process_proof','w1 * x + w2 * x * (xi - x)','w1 * x + w2 * x * (xi + x)','C112/C27','C/D check with the wrong sign',['Properties_Forger'])
m('F3',V,'process_proof',"map (fun x => (- w3) * x)%sc low_powers","map (fun x => (- w3) * x)%sc (tl low_powers)",'C112/C27','powers of X shifted',['Properties_Forger'])
