(** What the hashes, the challenge, the weights and the nonces are bound to. *)
From Verif Require Export Labels SpecPlainSound PlainFacts.


Section Binding.
Context {E : env} (L : env_laws E).

Lemma params_query_spec n m (G U : pt E) CG CH : params_transcript n m G U CG CH = params_query n m G U CG CH.
Proof.
  unfold params_transcript, params_query, transcript_new, append_u64, append_message. rewrite append_all_spec, map_map.
  rewrite <- !app_assoc. reflexivity.
Qed.
Lemma input_set_query_spec (M : list (pt E)) k : input_set_transcript M k = input_set_query M k.
Proof.
  unfold input_set_transcript, input_set_query, transcript_new, append_u64, append_message. rewrite append_all_spec, map_map.
  rewrite <- !app_assoc. reflexivity.
Qed.
Lemma statement_query_spec h1 h2 (J : pt E) : statement_transcript h1 h2 J = statement_query h1 h2 J.
Proof. reflexivity. Qed.

Lemma made_params_hash (p : params E) : made_params p -> params_get_hash p = hash_of (E := E) (query_of_params p).
Proof. intros H. unfold params_get_hash. rewrite (gp_hash p (made_good p H)), params_query_spec. reflexivity. Qed.

Lemma made_input_set_hash (s : input_set E) : made_input_set s ->
  exists k, (k <= N.of_nat (length (get_keys s)))%N /\ (k < 2 ^ 32)%N /\ input_set_get_hash s = hash_of (E := E) (input_set_query (get_keys s) k).
Proof.
  intros H. destruct (input_set_hash_spec s H) as (k & H1 & H2 & H3). exists k. unfold get_keys, input_set_get_hash.
  split; [lia|]. split; [exact H1|]. rewrite H2, input_set_query_spec. reflexivity.
Qed.

Lemma made_statement_hash (st : statement E) : made_statement st -> st_get_hash st = hash_of (E := E) (query_of_statement st).
Proof. intros H. unfold st_get_hash. rewrite (gs_hash st (made_statement_good L st H)). reflexivity. Qed.

Lemma params_query_inj n m (G U : pt E) CG CH n' m' G' U' CG' CH' :
  (n < 2 ^ 32)%N -> (m < 2 ^ 32)%N -> (n' < 2 ^ 32)%N -> (m' < 2 ^ 32)%N ->
  params_query n m G U CG CH = params_query n' m' G' U' CG' CH' -> n = n' /\ m = m' /\ G = G' /\ U = U' /\ CG = CG' /\ CH = CH'.
Proof.
  intros Hn Hm Hn' Hm' H. unfold params_query in H. rewrite !app_assoc in H. apply snoc_inj in H. destruct H as [H HCH].
  apply (compress_inj L) in HCH. apply (labelled_tail_inj (b_ "CommitmentG") (compress E) (compress_inj L)) in H;
    [|cbn; intros (? & Hx); discriminate Hx|cbn; intros (? & Hx); discriminate Hx].
  destruct H as [H HCG].
  assert (H1 : le_bytes 4 n = le_bytes 4 n') by congruence. assert (H2 : le_bytes 4 m = le_bytes 4 m') by congruence.
  assert (H3 : compress E G = compress E G') by congruence. assert (H4 : compress E U = compress E U') by congruence.
  apply le4_u32_inj in H1; [|assumption|assumption]. apply le4_u32_inj in H2; [|assumption|assumption].
  apply (compress_inj L) in H3, H4. repeat split; assumption.
Qed.

Lemma input_set_query_inj (M M' : list (pt E)) k k' : (k < 2 ^ 32)%N -> (k' < 2 ^ 32)%N ->
  input_set_query M k = input_set_query M' k' -> M = M' /\ k = k'.
Proof.
  intros Hk Hk' H. unfold input_set_query in H.
  apply (labelled_tail_inj (b_ "M") (compress E) (compress_inj L)) in H;
    [|cbn; intros (? & Hx); discriminate Hx|cbn; intros (? & Hx); discriminate Hx].
  destruct H as [H HM]. split; [exact HM|]. assert (H1 : le_bytes 4 k = le_bytes 4 k') by congruence.
  apply le4_u32_inj; assumption.
Qed.

Lemma statement_query_inj h1 h2 (J : pt E) h1' h2' J' : statement_query h1 h2 J = statement_query h1' h2' J' -> h1 = h1' /\ h2 = h2' /\ J = J'.
Proof.
  intros H. unfold statement_query in H. assert (HJ : compress E J = compress E J') by congruence. apply (compress_inj L) in HJ.
  repeat split; congruence.
Qed.

Lemma transcript_op_dec (x y : transcript_op) : {x = y} + {x <> y}.
Proof.
  assert (Hb : forall a b : bytes, {a = b} + {a <> b}) by (apply list_eq_dec; exact Byte.byte_eq_dec).
  decide equality; apply Nat.eq_dec.
Qed.
Lemma transcript_dec (x y : transcript) : {x = y} + {x <> y}.
Proof. apply list_eq_dec. apply transcript_op_dec. Qed.

Lemma made_nm_u32 (p : params E) : made_params p -> (get_n p < 2 ^ 32)%N /\ (get_m p < 2 ^ 32)%N.
Proof.
  intros H. apply made_good in H. split; [|apply good_m_u32; exact H]. pose proof (gp_n p H). pose proof (gp_m p H). pose proof (gp_pow p H).
  assert (p_n p <= p_n p ^ p_m p)%N by (apply n_le_pow; lia). unfold u32_bound in *. unfold get_n. lia.
Qed.

Lemma params_hash_binding (p p' : params E) : made_params p -> made_params p' -> params_get_hash p = params_get_hash p' ->
  p = p' \/ params_collide p p'.
Proof.
  intros Hp Hp' Hh. pose proof (made_params_hash p Hp) as H. pose proof (made_params_hash p' Hp') as H'.
  destruct (transcript_dec (query_of_params p) (query_of_params p')) as [He|Hne].
  - left. destruct (made_nm_u32 p Hp), (made_nm_u32 p' Hp').
    unfold query_of_params in He. apply params_query_inj in He; try assumption. destruct p, p'. cbn in *. intuition congruence.
  - right. split; [exact Hne|congruence].
Qed.

Lemma input_set_hash_binding (s s' : input_set E) : made_input_set s -> made_input_set s' ->
  input_set_get_hash s = input_set_get_hash s' -> get_keys s = get_keys s' \/ input_sets_collide s s'.
Proof.
  intros Hs Hs' Hh. destruct (made_input_set_hash s Hs) as (k & K1 & K2 & K3). destruct (made_input_set_hash s' Hs') as (k' & K1' & K2' & K3').
  destruct (transcript_dec (input_set_query (get_keys s) k) (input_set_query (get_keys s') k')) as [He|Hne].
  - left. apply input_set_query_inj in He; [apply He|assumption|assumption].
  - right. exists k, k'. split; [exact K1|]. split; [exact K1'|]. split; [exact Hne|congruence].
Qed.

Lemma made_statement_parts (st : statement E) : made_statement st -> made_params (st_get_params st) /\ made_input_set (st_get_input_set st).
Proof.
  intros (p & s & J & Hp & Hs & Hst). apply (statement_new_inv L) in Hst. destruct Hst as (_ & _ & ->). split; assumption.
Qed.

Lemma statement_hash_binding (st st' : statement E) : made_statement st -> made_statement st' -> st_get_hash st = st_get_hash st' ->
  (st_get_params st = st_get_params st' /\ get_keys (st_get_input_set st) = get_keys (st_get_input_set st') /\ st_get_J st = st_get_J st') \/
  statements_collide st st' \/ params_collide (st_get_params st) (st_get_params st') \/
  input_sets_collide (st_get_input_set st) (st_get_input_set st').
Proof.
  intros Hs Hs' Hh. pose proof (made_statement_hash st Hs) as H. pose proof (made_statement_hash st' Hs') as H'.
  destruct (made_statement_parts st Hs) as [P1 P2]. destruct (made_statement_parts st' Hs') as [P1' P2'].
  destruct (transcript_dec (query_of_statement st) (query_of_statement st')) as [He|Hne].
  - unfold query_of_statement in He. apply statement_query_inj in He. destruct He as (E1 & E2 & E3).
    destruct (params_hash_binding _ _ P1 P1' E1) as [Hp|Hp]; [|right; right; left; exact Hp].
    destruct (input_set_hash_binding _ _ P2 P2' E2) as [Hk|Hk]; [|right; right; right; exact Hk].
    left. repeat split; assumption.
  - right. left. split; [exact Hne|congruence].
Qed.

Lemma same_ring_binding (st st' : statement E) : made_statement st -> made_statement st' -> same_ring st st' ->
  (st_get_params st' = st_get_params st /\ get_keys (st_get_input_set st') = get_keys (st_get_input_set st)) \/
  params_collide (st_get_params st') (st_get_params st) \/ input_sets_collide (st_get_input_set st') (st_get_input_set st).
Proof.
  intros Hs Hs' [H1 H2]. destruct (made_statement_parts st Hs) as [P1 P2]. destruct (made_statement_parts st' Hs') as [P1' P2'].
  destruct (params_hash_binding _ _ P1' P1 H2) as [Hp|Hp]; [|right; left; exact Hp].
  destruct (input_set_hash_binding _ _ P2' P2 H1) as [Hk|Hk]; [|right; right; exact Hk].
  left. split; assumption.
Qed.

(** * Fiat-Shamir *)

Lemma fs_inj t t' (st st' : statement E) pf pf' : fs_transcript t st pf = fs_transcript t' st' pf' <->
  t = t' /\ st_get_hash st = st_get_hash st' /\ same_first_message pf pf'.
Proof.
  split.
  - intros H. unfold fs_transcript in H. rewrite !app_assoc in H.
    change (?a ++ [?x1; ?x2; ?x3; ?x4; ?x5; ?x6; ?x7]) with (a ++ ([x1; x2; x3; x4; x5; x6] ++ [x7])) in H. rewrite !app_assoc in H.
    apply (labelled_tail_inj (b_ "Y") (compress E) (compress_inj L)) in H;
      [|apply starts_other_map; [discriminate|apply starts_other_snoc; discriminate]
       |apply starts_other_map; [discriminate|apply starts_other_snoc; discriminate]].
    destruct H as [H HY].
    apply (labelled_tail_inj (b_ "X") (compress E) (compress_inj L)) in H; [|apply starts_other_snoc; discriminate|apply starts_other_snoc; discriminate].
    destruct H as [H HX]. apply snoc_inj in H. destruct H as [H HD]. apply (compress_inj L) in HD.
    change [?x1; ?x2; ?x3; ?x4; ?x5; ?x6] with ([x1; x2; x3; x4; x5] ++ [x6]) in H. rewrite !app_assoc in H.
    apply snoc_inj in H. destruct H as [H HC]. apply (compress_inj L) in HC.
    change [?x1; ?x2; ?x3; ?x4; ?x5] with ([x1; x2; x3; x4] ++ [x5]) in H. rewrite !app_assoc in H.
    apply snoc_inj in H. destruct H as [H HB]. apply (compress_inj L) in HB.
    change [?x1; ?x2; ?x3; ?x4] with ([x1; x2; x3] ++ [x4]) in H. rewrite !app_assoc in H.
    apply snoc_inj in H. destruct H as [H HA]. apply (compress_inj L) in HA.
    change [?x1; ?x2; ?x3] with ([x1; x2] ++ [x3]) in H. rewrite !app_assoc in H.
    apply snoc_inj in H. destruct H as [H Hh]. apply app_inv_tail in H.
    repeat split; assumption.
  - intros (-> & Hh & HA & HB & HC & HD & HX & HY). unfold fs_transcript. rewrite Hh, HA, HB, HC, HD, HX, HY. reflexivity.
Qed.

Lemma verifier_transcript_inj t t' (st st' : statement E) pf pf' : verifier_transcript t st pf = verifier_transcript t' st' pf' <->
  t = t' /\ st_get_hash st = st_get_hash st' /\ same_first_message pf pf' /\
  concat (pf_f pf) = concat (pf_f pf') /\ pf_z_A pf = pf_z_A pf' /\ pf_z_C pf = pf_z_C pf' /\ pf_z pf = pf_z pf'.
Proof.
  split.
  - intros H. unfold verifier_transcript in H.
    change [?x1; ?x2; ?x3] with ([x1; x2] ++ [x3]) in H. rewrite !app_assoc in H.
    apply snoc_inj in H. destruct H as [H Hz]. apply scalar_to_bytes_inj in Hz.
    change [?x1; ?x2] with ([x1] ++ [x2]) in H. rewrite !app_assoc in H.
    apply snoc_inj in H. destruct H as [H HzC]. apply scalar_to_bytes_inj in HzC.
    apply snoc_inj in H. destruct H as [H HzA]. apply scalar_to_bytes_inj in HzA.
    apply (labelled_tail_inj (b_ "f") scalar_to_bytes scalar_to_bytes_inj) in H; [|apply starts_other_challenge|apply starts_other_challenge].
    destruct H as [H Hf]. unfold prover_transcript in H. apply app_inv_tail in H. apply fs_inj in H. destruct H as (H1 & H2 & H3).
    repeat split; try assumption; apply H3.
  - intros (H1 & H2 & H3 & H4 & H5 & H6 & H7). unfold verifier_transcript, prover_transcript.
    rewrite (proj2 (fs_inj t t' st st' pf pf') (conj H1 (conj H2 H3))), H4, H5, H6, H7. reflexivity.
Qed.

(** * Nonces *)
Lemma prover_rng_inj t t' (st st' : statement E) w w' seed seed' :
  (w_get_l w < 2 ^ 32)%N -> (w_get_l w' < 2 ^ 32)%N ->
  prover_rng t st w seed = prover_rng t' st' w' seed' <->
  t = t' /\ st_get_hash st = st_get_hash st' /\ w_get_l w = w_get_l w' /\ w_get_r w = w_get_r w' /\ seed = seed'.
Proof.
  intros Hl Hl'. split.
  - intros H. unfold prover_rng in H.
    pose proof (f_equal tr_base H) as H1. pose proof (f_equal tr_keys H) as H2. pose proof (f_equal tr_seed H) as H3.
    cbn [tr_base tr_keys tr_seed] in *. clear H.
    change [?x1; ?x2; ?x3] with ([x1; x2] ++ [x3]) in H1. rewrite !app_assoc in H1. apply snoc_inj in H1. destruct H1 as [H1 Hh].
    apply app_inv_tail in H1.
    assert (Ha : le_bytes 4 (w_get_l w) = le_bytes 4 (w_get_l w')) by congruence.
    assert (Hb : scalar_to_bytes (w_get_r w) = scalar_to_bytes (w_get_r w')) by congruence.
    apply le4_u32_inj in Ha; [|assumption|assumption]. apply scalar_to_bytes_inj in Hb. repeat split; assumption.
  - intros (-> & Hh & H1 & H2 & ->). unfold prover_rng. rewrite Hh, H1, H2. reflexivity.
Qed.

(** * Weights *)
Lemma weight_rng_tags (sts sts' : list (statement E)) pfs pfs' ts ts' :
  weight_rng sts pfs ts = weight_rng sts' pfs' ts' <->
  map (fun x => proof_tag (snd x) (fst (fst x)) (snd (fst x))) (combine (combine sts pfs) ts) =
  map (fun x => proof_tag (snd x) (fst (fst x)) (snd (fst x))) (combine (combine sts' pfs') ts').
Proof.
  unfold weight_rng. set (tg := fun x : statement E * proof E * transcript => proof_tag (snd x) (fst (fst x)) (snd (fst x))).
  assert (Hb : forall x, (tg x < 256 ^ N.of_nat 8)%N).
  { intros x. unfold tg, proof_tag. eapply N.lt_le_trans; [apply le_val_bound|].
    rewrite (trng_prf_length E L). reflexivity. }
  split.
  - intros H. pose proof (f_equal tr_base H) as H1. cbn [tr_base] in H1. apply app_inv_head in H1. clear H.
    revert H1. generalize (combine (combine sts' pfs') ts'). induction (combine (combine sts pfs) ts) as [|x l IH]; intros [|y l'] H; try discriminate H; [reflexivity|].
    cbn [map] in H |- *. assert (H1 : le_bytes 8 (tg x) = le_bytes 8 (tg y)) by (unfold tg; congruence).
    apply le_bytes_inj in H1; [|apply Hb|apply Hb]. f_equal; [exact H1|]. apply IH. unfold tg in *. congruence.
  - intros H. f_equal. f_equal.
    assert (Hm : forall l : list (statement E * proof E * transcript),
      map (fun x => TAppend (b_ "proof") (le_bytes 8 (proof_tag (snd x) (fst (fst x)) (snd (fst x))))) l =
      map (fun v => TAppend (b_ "proof") (le_bytes 8 v)) (map tg l)) by (intros l; rewrite map_map; reflexivity).
    rewrite !Hm. rewrite H. reflexivity.
Qed.

Lemma proof_tag_bound t (st : statement E) pf : (proof_tag t st pf < 2 ^ 64)%N.
Proof. unfold proof_tag. eapply N.lt_le_trans; [apply le_val_bound|]. rewrite (trng_prf_length E L). reflexivity. Qed.

End Binding.
