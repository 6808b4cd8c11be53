M=[]
def m(id,file,d,old,new,claim,edit,targets,**k):
    M.append(dict(id=id,file=file,definition=d,old=old,new=new,claim=claim,edit=edit,targets=targets,**k))
E=['Properties_Errors'];PE=['Properties_ParErrors']
m('D1','Display.v','display_proof_error','  | InvalidChallenge => "A transcript challenge was invalid"','  | InvalidChallenge => "Proof deserialization failed"','C134: the message determines the error','message of another error copied',E)
m('D2','Display.v','display_proof_error','  | InvalidParameter reason => "An invalid parameter was provided: " ++ reason','  | InvalidParameter reason => "An invalid parameter was provided"','C134: the message gives the reason','reason not printed',E)
m('D3','Display.v','display_proof_error','  | FailedVerification => "Single proof verification failed"','  | FailedVerification => "Batch proof verification failed"','C134: the message determines the error','a failed verification printed as a failed batch',E+PE)
m('D4','Display.v','display_witness_error','WE_InvalidParameter reason => "An invalid parameter was provided: " ++ reason','WE_InvalidParameter reason => "An invalid parameter was provided: {reason}"','C134: the messages of the constructors give the reason','the braces are printed literally',E)
m('D5','Display.v','display_proof_error','  | FailedBatchVerificationWithFullBlame _ => "Batch proof verification failed"','  | FailedBatchVerificationWithFullBlame [] => "Batch proof verification failed"\n  | FailedBatchVerificationWithFullBlame _ => "Several proofs failed"','C134: the message of a blame does not depend on the indices','message depends on the indices',E+PE)
m('D6','Verifier.v','verify_batch','Ok tt else Err FailedVerification, transcripts)','Ok tt else Err FailedBatchVerification, transcripts)','C134: the failed-batch error is never returned','a failing batch returns the batch error',E)
m('D7','Verifier.v','blame_loop','Err (FailedBatchVerificationWithSingleBlame (Some left))','Err (FailedBatchVerificationWithSingleBlame None)','C134: the index is missing only when the numbers differ','index dropped on the left',E)
m('D8','Verifier.v','blame_loop','              | S right_result => Err (FailedBatchVerificationWithSingleBlame (Some right_result))','              | S right_result => Err (FailedBatchVerificationWithSingleBlame (Some right))','C134: the index is that of a proof','one too large on the right',E)
m('D9','Verifier.v','verify_batch_with_full_blame','Err (FailedBatchVerificationWithFullBlame l)','Err FailedBatchVerification','C134: full blame ends with a list','list dropped',E)
m('D10','Verifier.v','batch_checks','(InvalidParameter "batch size overflowed `u32`")','(InvalidParameter "batch size overflowed")','C134: the list of reasons','another reason',E)
m('D11','Verifier.v','full_blame_loop','index :: l','S index :: l','C134: the indices are those of proofs','indices start at one',E)
m('D12','Codec.v','from_bytes','  if (n <? 2)%N then Err FailedDeserialization','  if (n <? 2)%N then Err (InvalidParameter "n")','C134: the decoder has one error','another error',E)
m('D13','ParVerifier.v','batch_checks','number of statements and proofs does not match','number of statements and proof does not match','C135: the list of reasons','reason of the plain protocol',PE)
m('D14','ParStatement.v','input_set_new_with_padding','(SE_InvalidParameter "`M` was empty")','(SE_InvalidParameter "`M1` was empty")','C135: an empty M1 is never the reason','M1 named instead of M',PE)
m('D15','ParWitness.v','witness_new','"`r1 == 0`"','"r1 was zero"','C135: the list of reasons','another reason',PE)
m('D16','ParVerifier.v','verify_batch','Ok tt else Err FailedVerification','Ok tt else Err InvalidChallenge','C135/C72','another error for a failing batch',PE+['Properties_ParVerdict'])
m('D17','ParProver.v','prove_internal','"`M1[l] - offset != r1 * G1`"','"`M[l] - offset != r1 * G1`"','C135: the list of reasons','another reason',PE)
m('D18','Params.v','new_with_generators','(PE_InvalidParameter "`n**m` overflowed `u32`")','(PE_InvalidParameter "`n*m` overflowed `u32`")','C134: the reasons of the constructor','reason of another check',E)
