M=[]
def m(id,file,d,old,new,claim,edit,**k):
    M.append(dict(id=id,file=file,definition=d,old=old,new=new,claim=claim,edit=edit,**k))
# Gray
m('g1','Gray.v','decompose_vartime','Definition decompose_vartime (base digits v : N) : option (list N) :=\n  if (base <=? 1)','Definition decompose_vartime (base digits v : N) : option (list N) :=\n  if (base <? 1)','C04: base 1 is refused','base <= 1 weakened to base < 1')
m('g2','Gray.v','gray_loop','| Some shift\' => gray_loop base shift\' rest (d :: digits)','| Some shift\' => gray_loop base s rest (d :: digits)','C04: digits are the Gray digits','shift is not reduced by the digit')
m('g3','Gray.v','gray_new','match checked_pow u32_bound base digits with\n       | None => None\n       | Some _ => Some (mk_gray','match checked_pow u64_bound base digits with\n       | None => None\n       | Some _ => Some (mk_gray','C06: iterator refused when n^m overflows u32','iterator creation checks u64 instead of u32')
m('g4','Gray.v','gray_next','if g_i it =? total then (None, it)','if g_i it =? total - 1 then (None, it)','C06: all n^m encodings are enumerated','iterator stops one early')
m('g5','Gray.v','gray_next','(Some (idx, old, new), mk_gray','(Some (idx, new, old), mk_gray','C06: items carry old then new digit','old and new digit swapped in the item')
m('g6','Gray.v','gray_next',"i' next)","i' (g_last it))",'C06','last encoding not updated')
m('g7','Gray.v','gray_loop_ct',"let shift' := saturating_sub (saturating_add u64_bound shift base) d in","let shift' := saturating_add u64_bound (saturating_add u64_bound shift base) d in",'C04: constant and variable time agree','constant-time shift adds the digit')
m('g8','Gray.v','base_loop_ct',"(v mod base) :: base_loop_ct base k' (v / base)","(v mod base) :: base_loop_ct base k' (v / (base + 1))",'C04','constant-time division by base + 1')
m('g9','Gray.v','decompose','else all_u32 (gray_loop_ct base 0 (rev (base_loop_ct base (N.to_nat digits) v)) []).','else all_u32 (gray_loop_ct base 0 (base_loop_ct base (N.to_nat digits) v) []).','C04','constant-time digits processed in the wrong order')
m('g10','Gray.v','decompose','else all_u32 (gray','else if v =? 0 then None else all_u32 (gray','C04: every index below n^m has an encoding','index 0 refused in constant time')
# Params
m('p1','Params.v','new_with_generators','if n <? 2','if n <? 1','C01','n < 2 weakened to n < 1')
m('p2','Params.v','new_with_generators','if m <? 2','if m <? 1','C01','m < 2 weakened to m < 1')
m('p3','Params.v','new_with_generators','checked_pow u32_bound n m','checked_pow u64_bound n m','C01','n^m checked against u64')
m('p4','Params.v','new_with_generators','checked_mul u32_bound n m','checked_add u32_bound n m','C02','n + m commitment generators')
m('p5','Params.v','params_transcript','let t := append_message t (b_ "U") (compress E U) in','','C03','U not hashed')
m('p6','Core.v','commitment_G','le_bytes 8 VERSION ++ le_bytes 4 n ++ le_bytes 4 m in','le_bytes 8 VERSION ++ le_bytes 4 n in','C02','seed of the commitment generators omits m')
m('p7','Core.v','commitment_G','(64 * i) 64','(32 * i) 64','C02','overlapping output slices')
m('p8','Params.v','params_transcript','append_message t (b_ "CommitmentH") (compress E CH)','t','C03','CommitmentH not hashed')
m('p9','Params.v','params_eqb','&& peqb E (p_U p) (p_U q) &&','&&','C15: refusal when parameters differ','comparison ignores U')
m('p10','Core.v','pow_u32','(n ^ m mod u32_bound)','(n * m mod u32_bound)','C02: N = n^m','N = n*m')
m('p11','Params.v','params_new','n m (basepoint E) default_U','n m default_U (basepoint E)','C01 (default generators)','default G and U swapped')
m('p12','Params.v','params_eqb','bytes_eqb (p_hash p) (p_hash q)','true','equivalent on made parameters','comparison ignores the hash')
m('p13','Core.v','commitment_H','POINT_COMMITMENT_H ++ le_bytes 8 VERSION','POINT_COMMITMENT_G ++ le_bytes 8 VERSION','C02','H derived from the domain of G')
m('p14','Params.v','get_U','Definition get_U (p : params) : pt E := p_U p.','Definition get_U (p : params) : pt E := p_G p.','C02 accessors','get_U returns G')
# Statement
m('s1','Statement.v','input_set_transcript','let t := append_message t (b_ "unpadded_size") (le_bytes 4 unpadded_size) in','','C12','unpadded size not hashed')
m('s2','Statement.v','last_opt','match rev l with','match l with','C11','padding with the first key')
m('s3','Statement.v','input_set_new_with_padding','if get_N p <? unpadded_size','if get_N p <=? unpadded_size','C11','full rings refused by padding')
m('s4','Statement.v','input_set_new_with_padding','new_internal M_padded unpadded_size','new_internal M_padded (N.of_nat (length M_padded))','C11/C12','hash of padded size')
m('s5','Statement.v','statement_new','else if existsb (fun P => peqb E P (pid E)) (get_keys s)','else if false','C13','identity keys accepted')
m('s6','Statement.v','statement_new','if negb (N.of_nat (length (get_keys s)) =? get_N p)','if (N.of_nat (length (get_keys s)) <? get_N p)','C13','too long rings accepted')
m('s7','Statement.v','statement_transcript','append_message t (b_ "J") (compress E J)','t','C14','tag not hashed')
m('s8','Statement.v','statement_transcript','let t := append_message t (b_ "input_set") input_set_hash in','','C14','input set not hashed')
m('s9','Statement.v','input_set_transcript','(map (compress E) M)','(map (compress E) (tl M))','C12','first key not hashed')
m('s10','Statement.v','new_internal','(checked u32_bound unpadded_size)','(checked usize_bound unpadded_size)','C12','unpadded size not limited to u32')
# Witness
m('w1','Witness.v','witness_new','else if get_N p <=? l','else if get_N p <? l','C07','l = N accepted')
m('w2','Witness.v','witness_new','if seqb r s0 then','if false then','C07','zero key accepted')
m('w3','Witness.v','witness_random','let (x, rng) := rng_next_u64 ro rng in\n  let l := (x mod get_N p) mod u32_bound in\n  let (r, rng) := rng_scalar ro rng in','let (r, rng) := rng_scalar ro rng in\n  let (x, rng) := rng_next_u64 ro rng in\n  let l := (x mod get_N p) mod u32_bound in','C08','key drawn before the index')
m('w4','Witness.v','compute_linking_tag','pmul E (sinv (w_r w))','pmul E (w_r w)','C09','tag is r*U')
m('w5','Witness.v','compute_verification_key','(get_G (w_params w))','(get_U (w_params w))','C09','key uses U')
m('w6','Witness.v','witness_random','(x mod get_N p)','(x mod (get_N p + 1))','C08','random index may be N')
# Transcript
m('t1','Transcript.v','build_transcript_rng','; (b_ "r", scalar_to_bytes (w_get_r w))]',']','C20','generator not rekeyed with r')
m('t2','Transcript.v','build_transcript_rng','[(b_ "l", le_bytes 4 (w_get_l w)); ','[','C20','generator not rekeyed with l')
m('t3','Transcript.v','pt_init','append_message t (b_ "statement") statement_hash','t','C35','statement not absorbed')
m('t4','Transcript.v','absorb_first_message','let t := append_message t (b_ "D") (compress E D) in','','C35','D not absorbed')
m('t5','Transcript.v','absorb_first_message','append_all t (b_ "Y") (map (compress E) Y)','t','C35','Y not absorbed')
m('t6','Transcript.v','absorb_response','let t := append_message t (b_ "z_A") (scalar_to_bytes z_A) in','','C36','z_A not absorbed before the weights')
m('t7','Transcript.v','absorb_response','(map scalar_to_bytes (concat f))','(map scalar_to_bytes (concat (tl f)))','C36','first row of f not absorbed')
m('t8','Transcript.v','pt_commit','let (xi_bytes, t) := challenge_bytes (E := E) t (b_ "xi") 64 in','let (xi_bytes, t) := challenge_bytes (E := E) t (b_ "xi") 32 in','C35','challenge of 32 bytes')
m('t9','Transcript.v','pt_new','let t := pt_init t (st_get_hash st) in','let t := pt_init [] (st_get_hash st) in','C35','caller transcript ignored')
m('t10','Transcript.v','pt_init','TRANSCRIPT_PROOF','TRANSCRIPT_PARALLEL_PROOF','C52','plain proof uses the parallel domain')
m('t11','Env.v','TRANSCRIPT_PARALLEL_STATEMENT','Definition TRANSCRIPT_PARALLEL_STATEMENT := b_ "Parallel Triptych statement".','Definition TRANSCRIPT_PARALLEL_STATEMENT := b_ "Triptych statement".','C52','statement domains equal')
# Core prover
m('c1','Core.v','challenge_powers','(checked_add usize_bound m 1)','(Some m)','C15/C22','one power too few')
m('c2','Core.v','challenge_powers','(N.to_nat count) xi s1','(N.to_nat count) xi xi','C24','powers start at xi')
m('c3','Core.v','powers_loop','if seqb xi_power s0 then','if false then','C15/C24: zero challenge refused','zero challenge accepted')
m('c4','Core.v','commit_matrix_with','if existsb (fun row => negb (N.of_nat (length row) =? n)%N) matrix','if false','commit_matrix column check','column check dropped')
m('c5','Core.v','select_ct','if (N.of_nat (fst it) =? l)%N then snd it else acc','if (N.of_nat (fst it) <=? l)%N then snd it else acc','equivalent','selection of the last index <= l')
m('c5b','Core.v','select_ct','if (N.of_nat (fst it) =? l)%N then snd it else acc','if (l <=? N.of_nat (fst it))%N then snd it else acc','C15/C17','selection of the last key')
m('c6','Core.v','balance_row','Ok (sopp (ssum rest) :: rest)','Ok (ssum rest :: rest)','C22','sign of the first entry')
m('c7','Core.v','sigma_matrix','delta lj (N.of_nat i) tm','delta lj (N.of_nat i + 1) tm','C22','sigma shifted')
m('c8','Core.v','a_sigma_matrix','(s1 - s2 * sji)','(s1 - sji)','C22','1 - sigma instead of 1 - 2 sigma')
m('c9','Core.v','a_square_matrix','Ok ((- aji) * aji)','Ok (aji * aji)','C22','sign of D')
m('c10','Core.v','convolve','let* shifted_coefficients := rotate_right1 coefficients in','let shifted_coefficients := coefficients in','C22','coefficients not shifted')
m('c11','Core.v','poly_coefficients','vec_set coefficients 1 sigma0','vec_set coefficients 1 a0','C22','wrong initial coefficient')
m('c12','Core.v','p_loop','let* coefficients := poly_coefficients m a sigma k_decomposed in\n          let* rest','let* coefficients := poly_coefficients m a sigma (repeat 0%N (N.to_nat m)) in\n          let* rest','C22','digits not used')
m('c13','Core.v','X_vector','let* col := p_column p (fst jr)','let* col := p_column p (S (fst jr))','C22','wrong column')
m('c14','Core.v','f_matrix','(sji * xi + aji)','(sji * xi - aji)','C22','sign of a in f')
m('c15','Core.v','z_response','(r * xi_m - ssum','(r * xi_m + ssum','C22','sign in z')
m('c16','Core.v','z_response','(N.to_nat m) in\n  Ok (r','(N.to_nat m - 1) in\n  Ok (r','C22','wrong power in z')
m('c17','Env.v','delta','| VariableTime => if (x =? y)%N then s1 else s0','| VariableTime => if (x <=? y)%N then s1 else s0','C17','variable time delta')
