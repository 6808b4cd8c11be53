M=[]
def m(id,file,d,old,new,claim,edit,targets,**k):
    M.append(dict(id=id,file=file,definition=d,old=old,new=new,claim=claim,edit=edit,targets=targets,**k))
m('Z1','Core.v','decompose_index','decompose_vartime n m l','decompose_vartime n m (l + 1)','C17: same results','variable-time prover decomposes l + 1',['Properties_Prover'])
m('Z2','Prover.v','prove_internal','  | Err e => (Err e, t, rng)\n','  | Err e => (Err InvalidChallenge, t, rng)\n','C15: exact errors','wrong error',['Properties_Prover'],nth=1)
