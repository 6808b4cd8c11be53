M=[]
TARGETS=["Properties_Leakage"]
def m(id,file,d,old,new,claim,edit,**k):
    M.append(dict(id=id,file=file,definition=d,old=old,new=new,claim=claim,edit=edit,**k))
Q='Leak.v'
CT='C102: the constant-time prover reveals nothing'
N='the edit is made to the prover and to its instrumented version'
m('L1b',Q,'prove_first_message','t_commit p a r_A tm "unable','t_commit p a r_A VariableTime "unable',CT,'A committed with the variable-time multiplication',also=[('Prover.v','(commit_matrix p a r_A tm)','(commit_matrix p a r_A VariableTime)')],note=N)
m('L2b',Q,'prove_first_message','t_commit p sigma r_B tm','t_commit p sigma r_B VariableTime',CT,'B committed with the variable-time multiplication',also=[('Prover.v','(commit_matrix p sigma r_B tm)','(commit_matrix p sigma r_B VariableTime)')],note=N)
m('L3b',Q,'prove_first_message','t_X_vector tm pv','t_X_vector VariableTime pv',CT,'X computed with the variable-time multiplication',also=[('Prover.v','X_vector tm pv','X_vector VariableTime pv')],note=N)
m('L4b',Q,'prove_checks','t_select_key tm M l','t_select_key VariableTime M l',CT,'key of the signer read by index',also=[('Prover.v','select_key tm M l','select_key VariableTime M l')],note=N)
m('L5b',Q,'prove_first_message','t_decompose_index tm','t_decompose_index VariableTime',CT,'index decomposed in variable time',also=[('Prover.v','decompose_index tm','decompose_index VariableTime')],note=N)
m('L6b',Q,'prove_first_message','t_sigma_matrix tm','t_sigma_matrix VariableTime',CT,'sigma built with a branch per element',also=[('Prover.v','sigma_matrix tm','sigma_matrix VariableTime')],note=N)
m('L12b',Q,'rng_events','rekeyed (b_ "l") (le_bytes 4 (w_get_l w))','rekeyed (b_ "l") (le_bytes (N.to_nat (w_get_l w)) (w_get_l w))',CT,'index absorbed in a number of bytes that depends on it')
