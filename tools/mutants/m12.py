M=[]
def m(id,file,d,old,new,claim,edit,targets,**k):
    M.append(dict(id=id,file=file,definition=d,old=old,new=new,claim=claim,edit=edit,targets=targets,**k))
E=['Properties_Collide'];PE=['Properties_ParCollide']
m('F1','Statement.v','statement_transcript','  append_message t (b_ "J") (compress E J).','  t.','C136: statements with different tags have different descriptions and different hashes','tag left out of the statement hash',E)
m('F2','Statement.v','statement_transcript','(b_ "params") params_hash','(b_ "params") input_set_hash','C136','input set hashed twice, parameters not at all',E)
m('F3','Statement.v','input_set_transcript','(le_bytes 4 unpadded_size)','(le_bytes 4 (N.of_nat (length M)))','C136: the unpadded size is hashed','size of the padded ring hashed',E)
m('F4','Statement.v','new_internal','(b_ "hash") TRANSCRIPT_HASH_BYTES','(b_ "hash") 16','C136: hashes of 32 bytes','hash of 16 bytes: collisions after 2^64 questions',E,nth=1)
m('F5','Params.v','params_transcript','(b_ "U") (compress E U)','(b_ "U") (compress E G)','C136: U is hashed','G hashed twice',E)
m('F6','Params.v','params_transcript','(b_ "m") (le_bytes 4 m)','(b_ "m") (le_bytes 1 m)','C136: parameters with different m','only the low byte of m is hashed',E)
m('F7','ParStatement.v','statement_transcript','(b_ "offset") (compress E offset)','(b_ "offset") (compress E J)','C137: the offset is hashed','tag hashed as offset',PE)
m('F8','ParStatement.v','input_set_transcript','  append_all t (b_ "M1") (map (compress E) M1).','  append_all t (b_ "M") (map (compress E) M1).','C137: keys and auxiliary keys are told apart','same label for both lists: the boundary between them is lost',PE)
m('F9','ParStatement.v','input_set_transcript','  append_all t (b_ "M1") (map (compress E) M1).','  t.','C137: the auxiliary keys are hashed','auxiliary keys left out',PE)
m('F10','ParParams.v','params_transcript','(b_ "G1") (compress E G1)','(b_ "G1") (compress E G)','C137: G1 is hashed','G hashed instead of G1',PE)
m('F11','LazyOracle.v','run','Some a, _ => run table (next a) answers','Some a, b :: rest => run table (next b) rest\n      | Some a, [] => run table (next a) []','C136: the oracle answers the same question the same way','oracle forgets',E)
m('F12','SpecCollide.v','hash_of_description','hash_of (E := E) (statement_query','hash_of (E := E) (statement_query' ,'','',E) if False else None
m('F13','Statement.v','statement_new','(b_ "hash") TRANSCRIPT_HASH_BYTES','(b_ "rehash") TRANSCRIPT_HASH_BYTES','C136: the hash of a statement is the hash of its description','another challenge label',E,nth=2)
