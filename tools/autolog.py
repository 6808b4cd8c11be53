#!/usr/bin/env python3
"""Turns the raw output of the random mutation driver into LOG.jsonl lines (appended after those of mutlog.py).
usage: autolog.py RESULTS.jsonl >> LOG.jsonl.  Edits that do not typecheck are left out.  The claim is looked up by the
edited definition; its theorems are listed when their file needs (transitively) the file in which the build broke."""
import sys, json, re, glob, os
root = os.path.dirname(os.path.dirname(os.path.abspath(__file__)))
th = root + '/rocq/theories/'
deps, thms, text = {}, {}, {}
for f in glob.glob(th + '*.v'):
    n = os.path.basename(f)[:-2]
    s = text[n] = open(f).read()
    deps[n] = set(w for m in re.findall(r'From Verif Require (?:Import |Export )?([^.]*)\.', s) for w in m.split())
    for t in re.findall(r'^Theorem (C\d+_\w+)', s, re.M): thms.setdefault(n, []).append(t)
def dist(a):
    d, q = {a: 0}, [a]
    while q:
        x = q.pop(0)
        for y in deps.get(x, ()):
            if y not in d: d[y] = d[x] + 1; q.append(y)
    return d
D = {n: dist(n) for n in deps}
PLAIN = dict(arith32='C31', checked_add='C01', saturating_add='C04', visit_seq='C91', visit_map='C91', compute_auxiliary_verification_key='C58', slice='C40', u32_bound='C01', borsh_deserialize_reader='C50',
  borsh_serialize='C50', from_bytes='C46/C48', to_bytes='C45', X_vector='C22', a_sigma_matrix='C22', all_equal='C34', challenge_powers='C22',
  check_rows='C33', chunks_loop='C24', chunks_of='C24', commit_matrix_with='C22', commitment_G='C02', commitment_H='C02',
  contains_zero='C15', convolve='C22', convolve_all='C22', decompose_index='C04/C16', default_G1='C96', default_U='C96', f_full='C24',
  f_matrix='C22', f_products='C24', is_ok='C40', p_vector='C22', parse_point='C46', parse_u32='C46', poly_coefficients='C22',
  powers_loop='C22', rotate_right1='C24', select_ct='C17', select_key='C15', zip_add='C25', POINT_G1='C96', TRANSCRIPT_PARALLEL_PROOF='C52',
  append_u64='C35', delta='C22', draw='C20', env_laws='C22', trng_next_u64='C36', list_eqb='C100', proof_eqb='C100', statement_eqb='C100',
  input_set_eqb='C100', params_eqb='C100', decompose='C04', decompose_vartime='C04', first_diff='C06', gray_new='C06', gray_next='C06',
  os_rng='C89', new_with_generators='C01/C02', params_transcript='C03', prove_checks='C15', prove_first_message='C22', prove_internal='C15/C17',
  prove_response='C22', prove_with_rng='C17/C102', select_keys='C61', field_names='C91', proof_fields='C91', deserialize='C91', des_32='C91',
  input_set_new='C11', input_set_new_with_padding='C11', new_internal='C11', input_set_transcript='C12', statement_transcript='C14',
  absorb_first_message='C35', absorb_response='C36', build_transcript_rng='C20', pt_commit='C35', pt_init='C35/C52', acc_start='C24/C71',
  blame_loop='C40/C41', full_blame_loop='C43', batch_checks='C32/C34', challenge_loop='C35/C37', check_dims='C33', final_points='C24',
  final_size='C31', process_proof='C24/C25', verify_batch='C32', verify_batch_with_full_blame='C43', weights_loop='C36/C70',
  witness_new='C07', prove='C89', get_auxiliary_keys='C59', statement_new='C13', witness_random='C08', witness_random_os='C89',
  witness_zeroize='C130', prove_first_message_left='C130', prove_left='C130', prove_crash='C132', verify='C24', verify_batch_with_single_blame='C40',
  process_all='C25', final_scalars='C24', weights_transcript='C36/C70', pt_new='C35/C37', pt_response='C36/C37', prove_vartime='C89',
  prove_with_rng_vartime='C17', compute_linking_tag='C09', compute_verification_key='C09')
PAR = dict(borsh_deserialize_reader='C69', borsh_serialize='C69', from_bytes='C69', to_bytes='C69', list_eqb='C101', proof_eqb='C101',
  statement_eqb='C101', input_set_eqb='C101', params_eqb='C101', new_with_generators='C57', params_transcript='C57', prove_checks='C61',
  prove_first_message='C62', prove_internal='C61', prove_response='C62', field_names='C92', proof_fields='C92', deserialize='C92',
  input_set_new='C59', input_set_new_with_padding='C59', new_internal='C59', input_set_transcript='C59', statement_transcript='C60',
  absorb_first_message='C68', absorb_response='C68', build_transcript_rng='C61/C68', pt_commit='C68', pt_init='C68', acc_start='C63/C72',
  blame_loop='C67', full_blame_loop='C67', batch_checks='C66', challenge_loop='C68', check_dims='C66/C72', final_points='C63', final_size='C72',
  process_proof='C63', verify_batch='C66', verify_batch_with_full_blame='C67', weights_loop='C63/C68', witness_new='C58', prove='C90', statement_new='C60', witness_random='C58', witness_random_os='C90',
  witness_zeroize='C131', prove_first_message_left='C131', prove_left='C131', prove_crash='C133', verify='C63', verify_batch_with_single_blame='C67',
  process_all='C63', final_scalars='C63', weights_transcript='C68', pt_new='C68', pt_response='C68', prove_vartime='C90',
  prove_with_rng_vartime='C61', compute_linking_tag='C58', compute_verification_key='C58')
CLAIM = {}
k = 0
for l in open(sys.argv[1]):
    r = json.loads(l)
    if r['status'] in ('invalid', 'ERR', 'TIMEOUT'): continue
    k += 1
    broken = [x.split('.')[0] for x in r['fails']]
    par = r['file'].startswith('Par') and r['file'] != 'Params.v'
    ids = CLAIM.get((r['file'], r['definition'])) or (PAR if par else PLAIN).get(r['definition']) or PLAIN.get(r['definition'], '')
    ids = [x for x in ids.split('/') if x]
    own = [t for n in sorted(thms) if any(b in D[n] for b in broken) for t in thms[n] if t.split('_')[0] in ids]
    ent = {'id': 'A%d' % k, 'definition': '%s (%s)' % (r['definition'], r['file']),
           'edit': 'line %d: %s -> %s in: %s' % (r['line'], r['old'].strip(), r['new'].strip(), r['context']),
           'claim_broken': '/'.join(ids) or 'none', 'result': 'rejected' if r['status'] == 'killed' else 'SURVIVED',
           'theorems_failed': r['fails'] + own, 'theorems_tightened': r.get('tightened', [])}
    if r.get('note'): ent['note'] = r['note']
    print(json.dumps(ent))
