(** Properties C07 to C14: witnesses, linking tags, input sets and statements. *)
From Verif Require Import SpecPlainSound PlainFacts Binding Algebra ToyEnv Examples.

Lemma made_N (E : env) (p : params E) : made_params p -> get_N p = (get_n p ^ get_m p)%N.
Proof. intros H. exact (good_N p (made_good p H)). Qed.

(** C07 *)
Theorem C07_witness_accepted_exactly :
  forall (E : env) (p : params E) (l : N) (r : scalar), made_params p ->
    (r <> s0 -> (l < get_n p ^ get_m p)%N ->
       exists w, witness_new p l r = Ok w /\ w_get_params w = p /\ w_get_l w = l /\ w_get_r w = r) /\
    (r = s0 -> witness_new p l r = Err (WE_InvalidParameter "`r == 0`")) /\
    (r <> s0 -> (get_n p ^ get_m p <= l)%N -> witness_new p l r = Err (WE_InvalidParameter "`l >= N`")).
Proof.
  intros E p l r Hp. pose proof (made_N E p Hp) as HN. unfold witness_new. split; [|split].
  - intros Hr Hl. eexists. rewrite (proj2 (seqb_neq r s0) Hr). rewrite HN. rewrite (proj2 (N.leb_gt _ _) Hl). repeat split; reflexivity.
  - intros ->. rewrite seqb_refl. reflexivity.
  - intros Hr Hl. rewrite (proj2 (seqb_neq r s0) Hr). rewrite HN. rewrite (proj2 (N.leb_le _ _) Hl). reflexivity.
Qed.
Print Assumptions C07_witness_accepted_exactly.

(** A set of parameters for the examples of this file. *)
Lemma example_params : exists p : params E0, made_params p /\ get_n p = 3%N /\ get_m p = 2%N /\ get_G p = s1 /\ get_U p = smk 777.
Proof.
  eexists. split; [eexists _, _, _, _; apply new_with_generators_ok; unfold valid_nm; repeat split; [| |instantiate (1 := 2%N); instantiate (1 := 3%N)]; vm_compute; congruence|].
  repeat split; reflexivity.
Qed.
Example C07_example : exists (p : params E0) w, made_params p /\ witness_new p 8 (smk 5) = Ok w.
Proof.
  destruct example_params as (p & Hp & Hn & Hm & _).
  destruct (proj1 (C07_witness_accepted_exactly E0 p 8 (smk 5) Hp)) as (w & Hw & _).
  - intros H. apply (f_equal sval) in H. vm_compute in H. discriminate.
  - rewrite Hn, Hm. vm_compute. reflexivity.
  - exists p, w. split; assumption.
Qed.

(** C08: what [random] returns: a 64-bit draw modulo [N], then a 64-byte draw modulo the group order. *)
Theorem C08_random_witness :
  forall (E : env) (R : Type) (ro : rng_ops R) (rng : R) (p : params E), made_params p ->
    let (w, rng') := witness_random ro p rng in
    let (x, rng1) := rng_next_u64 ro rng in
    let (bs, rng2) := rng_fill ro rng1 64 in
    w_get_params w = p /\ w_get_l w = (x mod get_n p ^ get_m p)%N /\ (w_get_l w < get_n p ^ get_m p)%N /\
    w_get_r w = scalar_from_wide bs /\ rng' = rng2.
Proof.
  intros E R ro rng p Hp. pose proof (made_good p Hp) as Hg. pose proof (made_N E p Hp) as HN.
  unfold witness_random, rng_scalar. destruct (rng_next_u64 ro rng) as [x rng1]. destruct (rng_fill ro rng1 64) as [bs rng2].
  cbn [w_get_params w_get_l w_get_r w_params w_l w_r]. rewrite HN.
  assert (Hlt : (x mod get_n p ^ get_m p < get_n p ^ get_m p)%N).
  { apply N.mod_lt. pose proof (gp_n p Hg) as H2. apply N.pow_nonzero. change (get_n p) with (p_n p). lia. }
  assert (Hb : (get_n p ^ get_m p < u32_bound)%N) by (exact (gp_pow p Hg)).
  rewrite (N.mod_small (x mod _) u32_bound) by lia. repeat split; assumption.
Qed.
Print Assumptions C08_random_witness.
Example C08_example : exists (p : params E0) w, made_params p /\ fst (witness_random counter p 1000%N) = w /\ w_get_l w = 1%N.
Proof.
  destruct example_params as (p & Hp & Hn & Hm & _). exists p. eexists. split; [exact Hp|]. split; [reflexivity|].
  pose proof (C08_random_witness E0 N counter 1000%N p Hp) as H. destruct (witness_random counter p 1000%N) as [w rng'] eqn:Ew.
  cbn [rng_next_u64 counter rng_fill] in H. destruct H as (_ & H & _). cbn [fst]. rewrite H, Hn, Hm. reflexivity.
Qed.

(** C08, refuted part: the key of a random witness can be zero, which [new] refuses.  The generator is the crate's own
    [NullRng]-like one: it outputs zeroes. *)
Theorem C08_random_key_nonzero_refuted :
  exists (E : env), env_laws E /\ exists (p : params E), made_params p /\
    let (w, _) := witness_random null_rng p tt in
    w_get_r w = s0 /\ witness_new p (w_get_l w) (w_get_r w) = Err (WE_InvalidParameter "`r == 0`").
Proof.
  exists E0. split; [exact L0|]. destruct example_params as (p & Hp & _). exists p. split; [exact Hp|].
  cbn [witness_random null_rng rng_next_u64 rng_scalar rng_fill]. unfold witness_random, rng_scalar. cbn [null_rng rng_next_u64 rng_fill].
  cbn [w_get_r w_r w_get_l w_l].
  assert (Hz : scalar_from_wide (repeat x00 64) = s0) by (apply scalar_ext; vm_compute; reflexivity).
  rewrite Hz. split; [reflexivity|]. unfold witness_new. rewrite seqb_refl. reflexivity.
Qed.
Print Assumptions C08_random_key_nonzero_refuted.

(** C09: tags and verification keys satisfy the relation that the prover checks. *)
Theorem C09_tag_and_key :
  forall (E : env), env_laws E -> forall w : witness E, w_get_r w <> s0 ->
    pmul E (w_get_r w) (compute_linking_tag w) = get_U (w_get_params w) /\
    compute_verification_key w = pmul E (w_get_r w) (get_G (w_get_params w)) /\
    forall st : statement E, st_get_params st = w_get_params w -> st_get_J st = compute_linking_tag w ->
      nth_error (get_keys (st_get_input_set st)) (N.to_nat (w_get_l w)) = Some (compute_verification_key w) ->
      relation st (w_get_l w) (w_get_r w).
Proof.
  intros E L w Hr.
  assert (H1 : pmul E (w_get_r w) (compute_linking_tag w) = get_U (w_get_params w)).
  { unfold compute_linking_tag. change (w_r w) with (w_get_r w). change (w_params w) with (w_get_params w).
    rewrite (pmul_assoc E L). replace (w_get_r w * sinv (w_get_r w))%sc with s1 by (field; exact Hr).
    apply (pmul_1_l E L). }
  split; [exact H1|]. split; [reflexivity|].
  intros st Hp HJ Hk. unfold relation. rewrite Hp, HJ. split; [exact Hk|exact H1].
Qed.
Print Assumptions C09_tag_and_key.
(** The witness for position 2 of a ring of four keys, and the statement with its tag. *)
Lemma tag_cancels {E : env} (L : env_laws E) (r : scalar) (J : pt E) : r <> s0 -> pmul E (sinv r) (pmul E r J) = J.
Proof. intros Hr. rewrite (pmul_assoc E L). replace (sinv r * r)%sc with s1 by (field; exact Hr). apply (pmul_1_l E L). Qed.
Example C09_example : exists (w : witness E0) (st : statement E0), made_witness w /\ made_statement st /\ w_get_l w = 2%N /\
  w_get_r w <> s0 /\ st_get_params st = w_get_params w /\ st_get_J st = compute_linking_tag w /\
  nth_error (get_keys (st_get_input_set st)) (N.to_nat (w_get_l w)) = Some (compute_verification_key w).
Proof.
  exists (x_witness P0 T0 2), (x_statement P0 T0 2).
  split; [exact (x_witness_made P0 T0 2 ltac:(lia))|]. split; [exact (x_statement_made P0 T0 2)|].
  split; [reflexivity|]. split; [exact x_r_nonzero|]. split; [reflexivity|].
  split; [exact (eq_sym (tag_cancels L0 x_r (x_J P0 T0) x_r_nonzero))|].
  exact (proj1 (x_relation P0 T0 2 ltac:(lia))).
Qed.

(** C10: with a common [U], not the identity, tags identify keys whatever the rest of the two witnesses is. *)
Theorem C10_tags_identify_keys :
  forall (E : env), env_laws E -> forall w w' : witness E, w_get_r w <> s0 -> w_get_r w' <> s0 ->
    (get_U (w_get_params w) = get_U (w_get_params w') -> get_U (w_get_params w) <> pid E ->
       (compute_linking_tag w = compute_linking_tag w' <-> w_get_r w = w_get_r w')) /\
    (get_G (w_get_params w) = get_G (w_get_params w') -> get_G (w_get_params w) <> pid E ->
       (compute_verification_key w = compute_verification_key w' <-> w_get_r w = w_get_r w')).
Proof.
  intros E L w w' Hr Hr'.
  unfold compute_linking_tag, compute_verification_key, w_get_r, w_get_params in *. split.
  - intros HU HUn. split.
    + intros H. rewrite <- HU in H. apply (pmul_inj_l L) in H; [|exact HUn].
      transitivity (w_r w * sinv (w_r w') * w_r w')%sc; [field; exact Hr'|]. rewrite <- H. field. exact Hr.
    + intros ->. rewrite HU. reflexivity.
  - intros HG HGn. split.
    + intros H. rewrite <- HG in H. apply (pmul_inj_l L) in H; [exact H|exact HGn].
    + intros ->. rewrite HG. reflexivity.
Qed.
Print Assumptions C10_tags_identify_keys.

(** The hypotheses of C09 and C10 are met by any two accepted witnesses over parameters whose [U] is not the identity. *)
Example C10_example : exists w w' : witness E0, w_get_r w <> s0 /\ w_get_r w' <> s0 /\ w_get_r w <> w_get_r w' /\
  get_U (w_get_params w) = get_U (w_get_params w') /\ get_U (w_get_params w) <> pid E0 /\ get_G (w_get_params w) <> pid E0.
Proof.
  destruct example_params as (p & Hp & Hn & Hm & HG & HU).
  exists (mk_witness p 0 (smk 5)), (mk_witness p 3 (smk 6)). cbn [w_get_r w_r w_get_params w_params].
  rewrite HU, HG. repeat split; intros H; apply (f_equal sval) in H; vm_compute in H; discriminate.
Qed.

(** C11 *)
Theorem C11_padding :
  forall (E : env) (p : params E) (M : list (pt E)), made_params p ->
    let N := N.to_nat (get_n p ^ get_m p) in
    (forall last, (1 <= length M <= N)%nat -> nth_error M (length M - 1) = Some last ->
       exists s, input_set_new_with_padding M p = Ok s /\ get_keys s = M ++ repeat last (N - length M) /\
         length (get_keys s) = N /\
         input_set_get_hash s = hash_of (E := E) (input_set_query (M ++ repeat last (N - length M)) (N.of_nat (length M)))) /\
    (M = [] -> input_set_new_with_padding M p = Err (SE_InvalidParameter "`M` is empty")) /\
    ((N < length M)%nat -> input_set_new_with_padding M p = Err (SE_InvalidParameter "unpadded size exceeded `N`")) /\
    (length M = N -> input_set_new_with_padding M p = input_set_new M).
Proof.
  intros E p M Hp N. pose proof (made_good p Hp) as Hg. pose proof (made_N E p Hp) as HN.
  assert (HNn : N.to_nat (get_N p) = N) by (rewrite HN; reflexivity).
  assert (HNb : (get_N p < u32_bound)%N) by (rewrite HN; exact (gp_pow p Hg)).
  assert (HNpos : (1 <= N)%nat).
  { assert (Hx : (get_n p ^ get_m p <> 0)%N) by (apply N.pow_nonzero; pose proof (gp_n p Hg) as H2; change (get_n p) with (p_n p); lia). unfold N. lia. }
  assert (Hlast : forall last, nth_error M (length M - 1) = Some last -> (1 <= length M)%nat -> last_opt M = Some last).
  { intros last Hl H1. unfold last_opt. destruct (rev M) as [|x r] eqn:Er.
    - apply (f_equal (@length _)) in Er. rewrite rev_length in Er. simpl in Er. lia.
    - assert (HM : M = rev r ++ [x]) by (rewrite <- (rev_involutive M), Er; reflexivity).
      rewrite HM in Hl. rewrite app_length in Hl. cbn [length] in Hl. rewrite nth_error_app2 in Hl by lia.
      replace (length (rev r) + 1 - 1 - length (rev r))%nat with 0%nat in Hl by lia. cbn in Hl. congruence. }
  assert (Hok : forall last, (1 <= length M <= N)%nat -> nth_error M (length M - 1) = Some last ->
     input_set_new_with_padding M p = new_internal (M ++ repeat last (N - length M)) (N.of_nat (length M))).
  { intros last HM Hl. unfold input_set_new_with_padding. rewrite (proj2 (N.ltb_ge _ _)) by lia.
    rewrite (Hlast last Hl ltac:(lia)). cbn [ok_or obind]. rewrite HNn. unfold resize. rewrite firstn_all2 by lia. reflexivity. }
  split; [|split; [|split]].
  - intros last HM Hl. rewrite (Hok last HM Hl). unfold new_internal, checked.
    rewrite (proj2 (N.ltb_lt _ _)) by lia. cbn [ok_or obind challenge_bytes]. eexists. split; [reflexivity|].
    cbn [get_keys is_M input_set_get_hash is_hash]. split; [reflexivity|]. split.
    + rewrite app_length, repeat_length. lia.
    + unfold hash_of. rewrite <- input_set_query_spec. reflexivity.
  - intros ->. unfold input_set_new_with_padding. cbn [length]. rewrite (proj2 (N.ltb_ge _ _)) by lia. reflexivity.
  - intros HM. unfold input_set_new_with_padding. rewrite (proj2 (N.ltb_lt _ _)) by lia. reflexivity.
  - intros HM. destruct (nth_error M (length M - 1)) as [last|] eqn:El.
    + rewrite (Hok last ltac:(lia) eq_refl). replace (N - length M)%nat with 0%nat by lia. cbn [repeat]. rewrite app_nil_r. reflexivity.
    + apply nth_error_None in El. lia.
Qed.
Print Assumptions C11_padding.
Example C11_example : exists (p : params E0) s, made_params p /\ input_set_new_with_padding (E := E0) [smk 4; smk 5] p = Ok s /\
  get_keys s = smk 4 :: repeat (smk 5) 8.
Proof.
  destruct example_params as (p & Hp & Hn & Hm & _).
  destruct (proj1 (C11_padding E0 p [smk 4; smk 5] Hp) (smk 5)) as (s & Hs & Hk & _).
  - rewrite Hn, Hm. cbn [length]. change (N.to_nat (3 ^ 2)) with 9%nat. lia.
  - reflexivity.
  - exists p, s. rewrite Hk, Hn, Hm. split; [exact Hp|]. split; [exact Hs|reflexivity].
Qed.

(** C12: the hash of an input set is the answer to a query that determines the keys, their order and the unpadded size;
    equal hashes mean equal keys or an explicit collision. *)
Theorem C12_input_set_hash_binds :
  forall (E : env), env_laws E ->
    (forall (M M' : list (pt E)) (k k' : N), (k < 2 ^ 32)%N -> (k' < 2 ^ 32)%N ->
       input_set_query M k = input_set_query M' k' -> M = M' /\ k = k') /\
    (forall M : list (pt E), (N.of_nat (length M) < 2 ^ 32)%N ->
       exists s, input_set_new M = Ok s /\ get_keys s = M /\
         input_set_get_hash s = hash_of (E := E) (input_set_query M (N.of_nat (length M)))) /\
    (forall M : list (pt E), (2 ^ 32 <= N.of_nat (length M))%N ->
       input_set_new M = Err (SE_InvalidParameter "unpadded size overflowed `u32`")) /\
    (forall s s' : input_set E, made_input_set s -> made_input_set s' ->
       input_set_get_hash s = input_set_get_hash s' -> get_keys s = get_keys s' \/ input_sets_collide s s').
Proof.
  intros E L. split; [|split; [|split]].
  - intros M M' k k' Hk Hk' H. apply (input_set_query_inj L); assumption.
  - intros M HM. unfold input_set_new, new_internal, checked. change u32_bound with (2 ^ 32)%N.
    rewrite (proj2 (N.ltb_lt _ _) HM). cbn [ok_or obind challenge_bytes]. eexists. split; [reflexivity|].
    split; [reflexivity|]. cbn [input_set_get_hash is_hash]. unfold hash_of. rewrite <- input_set_query_spec. reflexivity.
  - intros M HM. unfold input_set_new, new_internal, checked. change u32_bound with (2 ^ 32)%N.
    rewrite (proj2 (N.ltb_ge _ _) HM). reflexivity.
  - intros s s' Hs Hs' H. apply (input_set_hash_binding L); assumption.
Qed.
Print Assumptions C12_input_set_hash_binds.
(** A padded set and the explicitly repeated one have the same keys but different queries. *)
Example C12_example : @input_set_query E0 [smk 4; smk 5; smk 5] 2 <> @input_set_query E0 [smk 4; smk 5; smk 5] 3.
Proof. intros H. apply (input_set_query_inj L0) in H; [|vm_compute; reflexivity|vm_compute; reflexivity]. destruct H as [_ H]. discriminate. Qed.

(** C13 *)
Theorem C13_statement_accepted_exactly :
  forall (E : env), env_laws E -> forall (p : params E) (s : input_set E) (J : pt E), made_params p ->
    let N := (get_n p ^ get_m p)%N in
    (N.of_nat (length (get_keys s)) = N -> ~ In (pid E) (get_keys s) ->
       exists st, statement_new p s J = Ok st /\ st_get_params st = p /\ st_get_input_set st = s /\ st_get_J st = J) /\
    (N.of_nat (length (get_keys s)) <> N ->
       statement_new p s J = Err (SE_InvalidParameter "input vector length was not `N`")) /\
    (N.of_nat (length (get_keys s)) = N -> In (pid E) (get_keys s) ->
       statement_new p s J = Err (SE_InvalidParameter "input vector contained the identity point")).
Proof.
  intros E L p s J Hp N. pose proof (made_N E p Hp) as HN. fold N in HN.
  unfold statement_new. rewrite HN. split; [|split].
  - intros Hl Hid. rewrite (proj2 (N.eqb_eq _ _) Hl). cbn [negb].
    destruct (existsb _ (get_keys s)) eqn:Ee; [apply (existsb_peqb L) in Ee; contradiction|].
    eexists. split; [reflexivity|]. repeat split; reflexivity.
  - intros Hl. rewrite (proj2 (N.eqb_neq _ _) Hl). reflexivity.
  - intros Hl Hid. rewrite (proj2 (N.eqb_eq _ _) Hl). cbn [negb].
    rewrite (proj2 (existsb_peqb L _ _) Hid). reflexivity.
Qed.
Print Assumptions C13_statement_accepted_exactly.
(** An accepted ring, one with three keys and one that contains the identity. *)
Example C13_example : made_params (x_params P0 T0) /\
  (exists st, statement_new (x_params P0 T0) (x_set P0 T0 2) (smk 31) = Ok st) /\
  (exists s, input_set_new (E := E0) [smk 4; smk 5; smk 6] = Ok s /\
     statement_new (x_params P0 T0) s (smk 31) = Err (SE_InvalidParameter "input vector length was not `N`")) /\
  (exists s, input_set_new (E := E0) [smk 4; smk 5; pid E0; smk 6] = Ok s /\
     statement_new (x_params P0 T0) s (smk 31) = Err (SE_InvalidParameter "input vector contained the identity point")).
Proof.
  pose proof (x_params_made P0 T0) as Hp. split; [exact Hp|]. split; [|split].
  - destruct (proj1 (C13_statement_accepted_exactly E0 L0 (x_params P0 T0) (x_set P0 T0 2) (smk 31) Hp) eq_refl (x_ring_no_identity P0 T0 2)) as (st & Hst & _).
    exists st. exact Hst.
  - destruct (proj1 (proj2 (C12_input_set_hash_binds E0 L0)) [smk 4; smk 5; smk 6] eq_refl) as (s & Hs & Hk & _).
    exists s. split; [exact Hs|]. apply (C13_statement_accepted_exactly E0 L0 (x_params P0 T0) s (smk 31) Hp).
    rewrite Hk. discriminate.
  - destruct (proj1 (proj2 (C12_input_set_hash_binds E0 L0)) [smk 4; smk 5; pid E0; smk 6] eq_refl) as (s & Hs & Hk & _).
    exists s. split; [exact Hs|]. apply (C13_statement_accepted_exactly E0 L0 (x_params P0 T0) s (smk 31) Hp).
    + rewrite Hk. reflexivity.
    + rewrite Hk. right. right. left. reflexivity.
Qed.

(** C14: the statement hash binds the two hashes and the tag, hence everything in the statement, up to explicit collisions. *)
Theorem C14_statement_hash_binds :
  forall (E : env), env_laws E -> forall st st' : statement E, made_statement st -> made_statement st' ->
    st_get_hash st = hash_of (E := E) (query_of_statement st) /\
    (query_of_statement st = query_of_statement st' ->
       params_get_hash (st_get_params st) = params_get_hash (st_get_params st') /\
       input_set_get_hash (st_get_input_set st) = input_set_get_hash (st_get_input_set st') /\
       st_get_J st = st_get_J st') /\
    (st_get_hash st = st_get_hash st' ->
       (st_get_params st = st_get_params st' /\ get_keys (st_get_input_set st) = get_keys (st_get_input_set st') /\
        st_get_J st = st_get_J st') \/
       statements_collide st st' \/ params_collide (st_get_params st) (st_get_params st') \/
       input_sets_collide (st_get_input_set st) (st_get_input_set st')).
Proof.
  intros E L st st' Hst Hst'. split; [apply made_statement_hash; assumption|]. split.
  - intros H. unfold query_of_statement in H. apply (statement_query_inj L) in H. exact H.
  - apply (statement_hash_binding L); assumption.
Qed.
Print Assumptions C14_statement_hash_binds.
(** Two statements over different rings whose hashes agree: with a constant hash function the theorem finds the collision. *)
Example C14_example : exists st st' : statement (toy (fun _ _ => 0%N) T0), made_statement st /\ made_statement st' /\
  st_get_hash st = st_get_hash st' /\ get_keys (st_get_input_set st) <> get_keys (st_get_input_set st').
Proof.
  exists (x_statement (fun _ _ => 0%N) T0 1), (x_statement (fun _ _ => 0%N) T0 2).
  split; [apply x_statement_made|]. split; [apply x_statement_made|]. split; [reflexivity|].
  intros H. apply (f_equal (fun k => option_map sval (nth_error k 1))) in H. revert H. vm_compute. discriminate.
Qed.
