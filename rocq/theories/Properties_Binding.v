(** Properties C35 to C38, C55, C56 and C70: what the Merlin queries bind, and what the calls leave in the transcripts. *)
From Verif Require Import SpecPlainSound PlainFacts ProverFacts VerifierFacts Completeness Verdict ProverApi Binding VerifierApi Examples.
From Verif Require Import Prime Scalar Algebra.

(** ** C35: the query of the challenge determines, and is determined by, the caller's transcript, the statement hash and the
    whole first message... *)
Theorem C35_challenge_query_binds :
  forall (E : env), env_laws E -> forall t t' (st st' : statement E) (pf pf' : proof E),
    fs_transcript t st pf = fs_transcript t' st' pf' <-> t = t' /\ st_get_hash st = st_get_hash st' /\ same_first_message pf pf'.
Proof. intros E L t t' st st' pf pf'. exact (fs_inj L t t' st st' pf pf'). Qed.
Print Assumptions C35_challenge_query_binds.

(** ... and both parties make it: the prover's transcript ends with it, the verifier's continues it, and the responses of the
    prover are those for its answer. *)
Theorem C35_both_parties_make_it :
  forall (E : env), env_laws E -> forall (R : Type) (ro : rng_ops R) md (w : witness E) (st : statement E) rng t pf t' rng' r t'',
    made_witness w -> made_statement st ->
    prove_with_rng ro w st rng t = (Ok pf, t', rng') -> fits md (st_get_params st) 1 -> verify_returns md pf st t r t'' ->
    t' = fs_transcript t st pf ++ [TChallenge (b_ "xi") 64] /\
    (exists more, t'' = fs_transcript t st pf ++ [TChallenge (b_ "xi") 64] ++ more) /\
    let xi := scalar_from_wide (prf E (fs_transcript t st pf) (b_ "xi") 64) in
    pf = honest_proof st (w_get_l w) (w_get_r w) (prover_coins t st w (fst (rng_fill ro rng 32))) xi /\
    (r = Ok tt -> equations (st_get_params st) (get_keys (st_get_input_set st)) (st_get_J st) pf xi).
Proof.
  intros E L R ro md w st rng t pf t' rng' r t'' Hw Hst Hp Hf Hv.
  destruct (prove_result L ro w st rng t pf t' rng' Hw Hst Hp) as (Hrel & Hx & Hpf & Ht & _).
  assert (Hws : well_shaped (st_get_params st) pf) by (rewrite Hpf; exact (honest_well_shaped st (w_get_l w) (w_get_r w) _ _)).
  split; [rewrite Ht; reflexivity|]. split.
  - destruct (verify_cases L md pf st t r t'' Hst Hv) as (_ & _ & _ & H4 & H5).
    destruct (nondeg_dec [(st, pf, t)]) as [Hd|Hd].
    + destruct (H5 Hws Hf (Forall_inv Hd)) as [-> _]. eexists. unfold verifier_transcript, prover_transcript. rewrite <- app_assoc. reflexivity.
    + assert (Hnd : ~ nondegenerate t st pf) by (intros Hc; apply Hd; constructor; [exact Hc|constructor]).
      destruct (H4 Hws Hf Hx Hnd) as [_ ->]. eexists. unfold verifier_transcript, prover_transcript. rewrite <- app_assoc. reflexivity.
  - cbv zeta. change (scalar_from_wide (prf E (fs_transcript t st pf) (b_ "xi") 64)) with (challenge t st pf).
    split; [exact Hpf|]. intros _. rewrite Hpf at 1.
    apply (honest_equations L st (w_get_l w) (w_get_r w)); [exact (made_statement_good L st Hst)|exact Hrel|exact (prover_coins_good t st w _)].
Qed.
Print Assumptions C35_both_parties_make_it.

(** ** C36: the query behind the weights binds the whole proof. *)
Lemma concat_inj {A} (n : nat) : forall (f g : list (list A)), Forall (fun r => length r = n) f -> Forall (fun r => length r = n) g ->
  length f = length g -> concat f = concat g -> f = g.
Proof.
  induction f as [|r f IH]; intros g Hf Hg Hl Hc; destruct g as [|r' g]; try discriminate; [reflexivity|].
  cbn [concat] in Hc. apply app_eq_app in Hc. pose proof (Forall_inv Hf) as Hr. pose proof (Forall_inv Hg) as Hr'. cbv beta in Hr, Hr'.
  assert (Hx : r = r' /\ concat f = concat g).
  { destruct Hc as (k & [[H1 H2]|[H1 H2]]); assert (k = []) by (apply length_zero_iff_nil; rewrite H1, app_length in *; lia); subst k;
      rewrite app_nil_r in H1; cbn [app] in H2; split; congruence. }
  destruct Hx as [-> Hx]. f_equal. apply IH; [exact (Forall_inv_tail Hf)|exact (Forall_inv_tail Hg)|cbn [length] in Hl; lia|exact Hx].
Qed.

Theorem C36_weight_query_binds :
  forall (E : env), env_laws E -> forall p t t' (st st' : statement E) (pf pf' : proof E),
    well_shaped p pf -> well_shaped p pf' ->
    verifier_transcript t st pf = verifier_transcript t' st' pf' <-> t = t' /\ st_get_hash st = st_get_hash st' /\ pf = pf'.
Proof.
  intros E L p t t' st st' pf pf' (_ & _ & Hf1 & Hf2) (_ & _ & Hg1 & Hg2). rewrite (verifier_transcript_inj L). split.
  - intros (-> & -> & (HA & HB & HC & HD & HX & HY) & Hc & HzA & HzC & Hz). split; [reflexivity|]. split; [reflexivity|].
    apply (concat_inj _ _ _ Hf2 Hg2) in Hc; [|congruence]. destruct pf as [q1 q2 q3 q4 q5 q6 q7 q8 q9 q10], pf' as [u1 u2 u3 u4 u5 u6 u7 u8 u9 u10]; cbn [pf_A pf_B pf_C pf_D pf_X pf_Y pf_f pf_z_A pf_z_C pf_z] in *. congruence.
  - intros (-> & -> & ->). repeat split.
Qed.
Print Assumptions C36_weight_query_binds.

(** The weights of an accepted batch are the ones drawn from the generator seeded with the proofs' tags, each of which is eight
    bytes drawn from a generator seeded with the transcript above: see [C24_verify_exactly] and [weight_rng] for the former. *)
Theorem C36_weights_come_from_it :
  forall (E : env), env_laws E -> forall md (st0 : statement E) sts pfs ts ts',
    made_statement st0 -> verify_batch_returns md (st0 :: sts) pfs ts (Ok tt) ts' ->
    ts' = verified_transcripts (st0 :: sts) pfs ts /\
    exists ws, batch_weights (E := E) 4 (length pfs) (weight_rng (st0 :: sts) pfs ts) ws /\
      weighted_defects (st_get_params st0) (get_keys (st_get_input_set st0)) (st0 :: sts) pfs ts ws = pid E.
Proof.
  intros E L md st0 sts pfs ts ts' Hm H. split.
  - destruct (batch_transcripts L md st0 sts pfs ts (Ok tt) ts' Hm H) as [(_ & [(s & Hc)|(_ & Hc)])|[(a & b & c & d & e & f & g & h & i & _ & _ & _ & _ & _ & Hc & _)|(Ht & _)]]; try discriminate.
    exact Ht.
  - destruct (proj1 (verify_batch_accepts_iff L md st0 sts pfs ts (made_statement_good L st0 Hm)) (ex_intro _ ts' H)) as (_ & _ & _ & _ & _ & _ & Hw). exact Hw.
Qed.
Print Assumptions C36_weights_come_from_it.

(** ** C37: what [verify_batch] leaves in the transcripts. *)
Theorem C37_transcripts_after_verification :
  forall (E : env), env_laws E -> forall md (st0 : statement E) sts pfs ts r ts', made_statement st0 ->
    verify_batch_returns md (st0 :: sts) pfs ts r ts' ->
    (ts' = ts /\ ((exists s, r = Err (InvalidParameter s)) \/ (md = OverflowPanics /\ r = Panic))) \/
    (exists sts1 pfs1 ts1 st pf t sts2 pfs2 ts2,
       st0 :: sts = sts1 ++ st :: sts2 /\ pfs = pfs1 ++ pf :: pfs2 /\ ts = ts1 ++ t :: ts2 /\
       length sts1 = length pfs1 /\ length sts1 = length ts1 /\
       r = Err InvalidChallenge /\ challenge t st pf = s0 /\
       ts' = verified_transcripts sts1 pfs1 ts1 ++ prover_transcript t st pf :: ts2) \/
    (ts' = verified_transcripts (st0 :: sts) pfs ts /\
     (r = Ok tt \/ r = Err FailedVerification \/ r = Err (InvalidParameter "proof `f` matrix contained 0"))).
Proof. intros E L md st0 sts pfs ts r ts' Hm H. exact (batch_transcripts L md st0 sts pfs ts r ts' Hm H). Qed.
Print Assumptions C37_transcripts_after_verification.
(** Verification takes no randomness: result and transcripts are a function of the inputs. *)
Theorem C37_deterministic :
  forall (E : env) md (sts : list (statement E)) pfs ts r1 ts1 r2 ts2,
    verify_batch_returns md sts pfs ts r1 ts1 -> verify_batch_returns md sts pfs ts r2 ts2 -> r1 = r2 /\ ts1 = ts2.
Proof. intros E md sts pfs ts r1 ts1 r2 ts2. apply verify_batch_returns_det. Qed.
Print Assumptions C37_deterministic.

(** ** C38: the two parties do not end with the same transcript. *)
Theorem C38_transcripts_in_sync_refuted :
  forall (E : env), env_laws E -> forall (R : Type) (ro : rng_ops R) md (w : witness E) (st : statement E) rng t pf t' rng' t'',
    made_witness w -> made_statement st ->
    prove_with_rng ro w st rng t = (Ok pf, t', rng') -> verify_returns md pf st t (Ok tt) t'' ->
    t'' <> t' /\ t'' = t' ++ map (fun s => TAppend (b_ "f") (scalar_to_bytes s)) (concat (pf_f pf))
                          ++ [TAppend (b_ "z_A") (scalar_to_bytes (pf_z_A pf));
                              TAppend (b_ "z_C") (scalar_to_bytes (pf_z_C pf));
                              TAppend (b_ "z") (scalar_to_bytes (pf_z pf))].
Proof.
  intros E L R ro md w st rng t pf t' rng' t'' Hw Hst Hp Hv.
  destruct (prove_result L ro w st rng t pf t' rng' Hw Hst Hp) as (_ & _ & _ & -> & _).
  apply verify_returns_batch in Hv.
  destruct (C36_weights_come_from_it E L md st [] [pf] [t] [t''] Hst Hv) as [Ht _].
  assert (Ht2 : t'' = verifier_transcript t st pf) by (unfold verified_transcripts in Ht; cbn [combine map fst snd] in Ht; congruence).
  split; [|exact Ht2]. rewrite Ht2. unfold verifier_transcript. intros Hc.
  apply (f_equal (@length _)) in Hc. rewrite !app_length in Hc. cbn [length] in Hc. lia.
Qed.
Print Assumptions C38_transcripts_in_sync_refuted.

(** Such runs exist. *)
Example C38_example : exists (w : witness E0) st pf t' t'',
  made_witness w /\ made_statement st /\ prove_with_rng counter w st 5%N (x_transcript 1) = (Ok pf, t', 7%N) /\
  verify_returns OverflowPanics pf st (x_transcript 1) (Ok tt) t'' /\ fits OverflowPanics (st_get_params st) 1.
Proof.
  destruct (x_check_ok P0 T0 2 1 x_check_2_1) as [Hx Hz]. destruct (x_proved P0 T0 2 1 ltac:(lia) Hx) as [Hch Hp].
  pose proof (x_witness_made P0 T0 2 ltac:(lia)) as Hw. pose proof (x_statement_made P0 T0 2) as Hs.
  pose proof (x_fits P0 T0 2 OverflowPanics 1 ltac:(lia)) as Hf. pose proof (x_valid P0 T0 2 1 ltac:(lia) x_check_2_1) as (_ & Hv1 & Hv2 & _).
  exists (x_witness P0 T0 2), (x_statement P0 T0 2), (x_proof P0 T0 2 1),
    (prover_transcript (x_transcript 1) (x_statement P0 T0 2) (x_proof P0 T0 2 1)), (verifier_transcript (x_transcript 1) (x_statement P0 T0 2) (x_proof P0 T0 2 1)).
  split; [exact Hw|]. split; [exact Hs|]. split; [exact Hp|]. split; [|exact Hf].
  exact (proj2 (honest_verifies L0 OverflowPanics counter _ _ _ _ _ _ _ Hw Hs Hp Hf) (E0_weights_terminate 4) (conj Hv1 Hv2)).
Qed.

(** ** C55: the challenge query of a proof for one statement is not the query for another: other parameters, another key at any
    position, another ring size or another tag all change it, unless one of the three hashes collides. *)
Theorem C55_ring_bound :
  forall (E : env), env_laws E -> forall (st st' : statement E), made_statement st -> made_statement st' ->
    st_get_params st <> st_get_params st' \/
    (exists i, nth_error (get_keys (st_get_input_set st)) i <> nth_error (get_keys (st_get_input_set st')) i) \/
    st_get_J st <> st_get_J st' ->
    (forall t t' pf pf', fs_transcript t st pf <> fs_transcript t' st' pf') \/
    statements_collide st st' \/ params_collide (st_get_params st) (st_get_params st') \/
    input_sets_collide (st_get_input_set st) (st_get_input_set st').
Proof.
  intros E L st st' Hm Hm' Hd.
  destruct (list_eq_dec Byte.byte_eq_dec (st_get_hash st) (st_get_hash st')) as [He|He].
  - right. destruct (statement_hash_binding L st st' Hm Hm' He) as [(Hp & Hk & HJ)|Hc]; [|exact Hc].
    exfalso. destruct Hd as [Hd|[(i & Hd)|Hd]]; [exact (Hd Hp)|apply Hd; rewrite Hk; reflexivity|exact (Hd HJ)].
  - left. intros t t' pf pf' Hc. apply He. apply (fs_inj L) in Hc. apply Hc.
Qed.
Print Assumptions C55_ring_bound.

(** ** C56: equal hashes mean equal rings and parameters, so that in an accepted batch every proof is checked against its own
    statement. *)
Theorem C56_equal_hashes_equal_rings :
  forall (E : env), env_laws E -> forall (st st' : statement E), made_statement st -> made_statement st' ->
    input_set_get_hash (st_get_input_set st') = input_set_get_hash (st_get_input_set st) ->
    params_get_hash (st_get_params st') = params_get_hash (st_get_params st) ->
    (st_get_params st' = st_get_params st /\ get_keys (st_get_input_set st') = get_keys (st_get_input_set st)) \/
    params_collide (st_get_params st') (st_get_params st) \/ input_sets_collide (st_get_input_set st') (st_get_input_set st).
Proof. intros E L st st' Hm Hm' H1 H2. exact (same_ring_binding L st st' Hm Hm' (conj H1 H2)). Qed.
Print Assumptions C56_equal_hashes_equal_rings.

Theorem C56_checked_against_own_statement :
  forall (E : env), env_laws E -> forall md (st0 : statement E) sts pfs ts ts',
    Forall made_statement (st0 :: sts) -> verify_batch_returns md (st0 :: sts) pfs ts (Ok tt) ts' ->
    (forall st, In st sts -> st_get_params st = st_get_params st0 /\ get_keys (st_get_input_set st) = get_keys (st_get_input_set st0)) \/
    exists st, In st sts /\ (params_collide (st_get_params st) (st_get_params st0) \/ input_sets_collide (st_get_input_set st) (st_get_input_set st0)).
Proof.
  intros E L md st0 sts pfs ts ts' Hm H.
  destruct (accepted_batch L md st0 sts pfs ts ts' Hm H) as (Hl1 & Hl2 & Heach & _).
  assert (Hs : forall st, In st sts -> same_ring st0 st).
  { intros st Hin. apply (@or_intror (st0 = st)) in Hin. change (In st (st0 :: sts)) in Hin.
    destruct (In_nth_error _ _ Hin) as [i Hi]. assert (Hlt : (i < length (st0 :: sts))%nat) by (apply nth_error_Some; congruence).
    destruct (member_exists (st0 :: sts) pfs ts i Hl1 Hl2 ltac:(lia)) as (st1 & pf & t & Hmb).
    assert (st1 = st) by (destruct Hmb as (Ha & _); congruence). subst st1. exact (proj1 (Heach i st pf t Hmb)). }
  clear Heach H Hl1 Hl2. pose proof (Forall_inv Hm) as Hm0. apply Forall_inv_tail in Hm.
  induction sts as [|st sts IH].
  - left. intros st [].
  - destruct (same_ring_binding L st0 st Hm0 (Forall_inv Hm) (Hs st (or_introl eq_refl))) as [Heq|Hc].
    + destruct (IH (Forall_inv_tail Hm) (fun x Hx => Hs x (or_intror Hx))) as [Hall|(x & Hx & Hc)].
      * left. intros x [<-|Hx]; [exact Heq|exact (Hall x Hx)].
      * right. exists x. split; [right; exact Hx|exact Hc].
    + right. exists st. split; [left; reflexivity|exact Hc].
Qed.
Print Assumptions C56_checked_against_own_statement.

(** ** C70: the weights depend on a proof only through a 64-bit tag. *)
Theorem C70_weights_through_tags :
  forall (E : env), env_laws E -> forall (sts sts' : list (statement E)) pfs pfs' ts ts',
    let tags sts pfs ts := map (fun x => proof_tag (E := E) (snd x) (fst (fst x)) (snd (fst x))) (combine (combine sts pfs) ts) in
    (weight_rng sts pfs ts = weight_rng sts' pfs' ts' <-> tags sts pfs ts = tags sts' pfs' ts') /\
    Forall (fun tag => (tag < 2 ^ 64)%N) (tags sts pfs ts).
Proof.
  intros E L sts sts' pfs pfs' ts ts' tags. split; [exact (weight_rng_tags L sts sts' pfs pfs' ts ts')|].
  apply Forall_forall. intros x Hx. apply in_map_iff in Hx. destruct Hx as (y & <- & _). apply (proof_tag_bound L).
Qed.
Print Assumptions C70_weights_through_tags.

Lemma repeated_or_not (l : list N) : NoDup l \/ exists i j, (i < j < length l)%nat /\ nth i l 0%N = nth j l 0%N.
Proof.
  induction l as [|x l IH]; [left; constructor|].
  destruct (in_dec N.eq_dec x l) as [Hin|Hout].
  - right. destruct (In_nth l x 0%N Hin) as (j & Hj & He). exists 0%nat, (S j). cbn [length nth]. split; [lia|symmetry; exact He].
  - destruct IH as [Hn|(i & j & Hij & He)]; [left; constructor; assumption|right]. exists (S i), (S j). cbn [length nth]. split; [lia|exact He].
Qed.
Lemma pigeonhole_N (f : nat -> N) (b : N) : (forall i, (f i < b)%N) -> exists i j, (i < j <= N.to_nat b)%nat /\ f i = f j.
Proof.
  intros H. set (k := N.to_nat b).
  destruct (repeated_or_not (map f (seq 0 (S k)))) as [Hn|(i & j & Hij & He)].
  - exfalso. assert (Hle : (length (map f (seq 0 (S k))) <= length (map N.of_nat (seq 0 k)))%nat).
    { apply NoDup_incl_length; [exact Hn|]. intros x Hx. apply in_map_iff in Hx. destruct Hx as (i & <- & _).
      apply in_map_iff. exists (N.to_nat (f i)). split; [apply N2Nat.id|]. apply in_seq. specialize (H i). unfold k. lia. }
    rewrite !map_length, !seq_length in Hle. lia.
  - rewrite map_length, seq_length in Hij. exists i, j. split; [lia|].
    rewrite !(nth_indep _ 0%N (f 0%nat)) in He by (rewrite map_length, seq_length; lia).
    rewrite !map_nth, !seq_nth in He by lia. exact He.
Qed.

Theorem C70_weights_determine_the_proof_refuted :
  forall (E : env), env_laws E -> forall (st : statement E) (pf : proof E) t,
    exists z z', z <> z' /\
      let with_z z := mk_proof (pf_A pf) (pf_B pf) (pf_C pf) (pf_D pf) (pf_X pf) (pf_Y pf) (pf_f pf) (pf_z_A pf) (pf_z_C pf) z in
      verifier_transcript t st (with_z z) <> verifier_transcript t st (with_z z') /\
      weight_rng [st] [with_z z] [t] = weight_rng [st] [with_z z'] [t].
Proof.
  intros E L st pf t. pose (with_z z := mk_proof (pf_A pf) (pf_B pf) (pf_C pf) (pf_D pf) (pf_X pf) (pf_Y pf) (pf_f pf) (pf_z_A pf) (pf_z_C pf) z).
  destruct (pigeonhole_N (fun i => proof_tag t st (with_z (smk (Z.of_nat i)))) (2 ^ 64)) as (i & j & Hij & He).
  { intros i. apply (proof_tag_bound L). }
  assert (Hne : smk (Z.of_nat i) <> smk (Z.of_nat j)).
  { intros Hc. apply (f_equal sval) in Hc. rewrite !sval_smk in Hc.
    assert (Hb : forall k, (k <= N.to_nat (2 ^ 64))%nat -> (0 <= Z.of_nat k < ell)%Z).
    { intros k Hk. split; [lia|]. apply Z.le_lt_trans with (2 ^ 64)%Z; [|reflexivity].
      rewrite <- (Z2Nat.id (2 ^ 64)) by discriminate. apply Nat2Z.inj_le. etransitivity; [exact Hk|].
      rewrite <- Z_N_nat. reflexivity. }
    rewrite !Z.mod_small in Hc by (apply Hb; lia). lia. }
  exists (smk (Z.of_nat i)), (smk (Z.of_nat j)). split; [exact Hne|]. cbv zeta. split.
  - intros Hc. apply (verifier_transcript_inj L) in Hc. apply Hne. apply Hc.
  - apply (weight_rng_tags L). cbn [combine map fst snd]. f_equal. exact He.
Qed.
Print Assumptions C70_weights_determine_the_proof_refuted.
