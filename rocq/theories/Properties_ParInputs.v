(** Properties C58 to C60, parallel protocol: witnesses, linking tags, input sets and statements. *)
From Verif Require Import ParSpecSound ParFacts ParBinding Algebra ToyEnv ParExamples.

Lemma made_N (E : env) (p : params E) : made_params p -> get_N p = (get_n p ^ get_m p)%N.
Proof. intros H. exact (good_N p (made_good p H)). Qed.

(** As C07 *)
Theorem C58_witness_accepted_exactly :
  forall (E : env) (p : params E) (l : N) (r r1 : scalar), made_params p ->
    (r <> s0 -> r1 <> s0 -> (l < get_n p ^ get_m p)%N ->
       exists w, witness_new p l r r1 = Ok w /\ w_get_params w = p /\ w_get_l w = l /\ w_get_r w = r /\ w_get_r1 w = r1) /\
    (r = s0 -> witness_new p l r r1 = Err (WE_InvalidParameter "`r == 0`")) /\
    (r <> s0 -> r1 = s0 -> witness_new p l r r1 = Err (WE_InvalidParameter "`r1 == 0`")) /\
    (r <> s0 -> r1 <> s0 -> (get_n p ^ get_m p <= l)%N -> witness_new p l r r1 = Err (WE_InvalidParameter "`l >= N`")).
Proof.
  intros E p l r r1 Hp. pose proof (made_N E p Hp) as HN. unfold witness_new. split; [|split; [|split]].
  - intros Hr Hr1 Hl. eexists. rewrite (proj2 (seqb_neq r s0) Hr), (proj2 (seqb_neq r1 s0) Hr1). rewrite HN. rewrite (proj2 (N.leb_gt _ _) Hl). repeat split; reflexivity.
  - intros ->. rewrite seqb_refl. reflexivity.
  - intros Hr ->. rewrite (proj2 (seqb_neq r s0) Hr). rewrite seqb_refl. reflexivity.
  - intros Hr Hr1 Hl. rewrite (proj2 (seqb_neq r s0) Hr), (proj2 (seqb_neq r1 s0) Hr1). rewrite HN. rewrite (proj2 (N.leb_le _ _) Hl). reflexivity.
Qed.
Print Assumptions C58_witness_accepted_exactly.

(** A set of parameters for the examples of this file. *)
Lemma example_params : exists p : params E0, made_params p /\ get_n p = 3%N /\ get_m p = 2%N /\ get_G p = s1 /\ get_G1 p = smk 31 /\ get_U p = smk 777.
Proof.
  eexists. split; [eexists _, _, _, _, _; apply new_with_generators_ok; unfold valid_nm; repeat split; [| |instantiate (1 := 2%N); instantiate (1 := 3%N)]; vm_compute; congruence|].
  repeat split; reflexivity.
Qed.
Example C58_example_07 : exists (p : params E0) w, made_params p /\ witness_new p 8 (smk 5) (smk 6) = Ok w.
Proof.
  destruct example_params as (p & Hp & Hn & Hm & _).
  destruct (proj1 (C58_witness_accepted_exactly E0 p 8 (smk 5) (smk 6) Hp)) as (w & Hw & _).
  - intros H. apply (f_equal sval) in H. vm_compute in H. discriminate.
  - intros H. apply (f_equal sval) in H. vm_compute in H. discriminate.
  - rewrite Hn, Hm. vm_compute. reflexivity.
  - exists p, w. split; assumption.
Qed.

(** As C08: what [random] returns: a 64-bit draw modulo [N], then two 64-byte draws modulo the group order. *)
Theorem C58_random_witness :
  forall (E : env) (R : Type) (ro : rng_ops R) (rng : R) (p : params E), made_params p ->
    let (w, rng') := witness_random ro p rng in
    let (x, rng1) := rng_next_u64 ro rng in
    let (bs, rng2) := rng_fill ro rng1 64 in
    let (bs1, rng3) := rng_fill ro rng2 64 in
    w_get_params w = p /\ w_get_l w = (x mod get_n p ^ get_m p)%N /\ (w_get_l w < get_n p ^ get_m p)%N /\
    w_get_r w = scalar_from_wide bs /\ w_get_r1 w = scalar_from_wide bs1 /\ rng' = rng3.
Proof.
  intros E R ro rng p Hp. pose proof (made_good p Hp) as Hg. pose proof (made_N E p Hp) as HN.
  unfold witness_random, rng_scalar. destruct (rng_next_u64 ro rng) as [x rng1]. destruct (rng_fill ro rng1 64) as [bs rng2]. destruct (rng_fill ro rng2 64) as [bs1 rng3].
  cbn [w_get_params w_get_l w_get_r w_get_r1 w_params w_l w_r w_r1]. rewrite HN.
  assert (Hlt : (x mod get_n p ^ get_m p < get_n p ^ get_m p)%N).
  { apply N.mod_lt. pose proof (gp_n p Hg) as H2. apply N.pow_nonzero. change (get_n p) with (p_n p). lia. }
  assert (Hb : (get_n p ^ get_m p < u32_bound)%N) by (exact (gp_pow p Hg)).
  rewrite (N.mod_small (x mod _) u32_bound) by lia. repeat split; assumption.
Qed.
Print Assumptions C58_random_witness.
Example C58_example_08 : exists (p : params E0) w, made_params p /\ fst (witness_random counter p 1000%N) = w /\ w_get_l w = 1%N.
Proof.
  destruct example_params as (p & Hp & Hn & Hm & _). exists p. eexists. split; [exact Hp|]. split; [reflexivity|].
  pose proof (C58_random_witness E0 N counter 1000%N p Hp) as H. destruct (witness_random counter p 1000%N) as [w rng'] eqn:Ew.
  cbn [rng_next_u64 counter rng_fill] in H. destruct H as (_ & H & _). cbn [fst]. rewrite H, Hn, Hm. reflexivity.
Qed.

(** As C08, refuted part: the keys of a random witness can be zero, which [new] refuses.  The generator is the crate's own
    [NullRng]-like one: it outputs zeroes. *)
Theorem C58_random_key_nonzero_refuted :
  exists (E : env), env_laws E /\ exists (p : params E), made_params p /\
    let (w, _) := witness_random null_rng p tt in
    w_get_r w = s0 /\ w_get_r1 w = s0 /\ witness_new p (w_get_l w) (w_get_r w) (w_get_r1 w) = Err (WE_InvalidParameter "`r == 0`").
Proof.
  exists E0. split; [exact L0|]. destruct example_params as (p & Hp & _). exists p. split; [exact Hp|].
  cbn [witness_random null_rng rng_next_u64 rng_scalar rng_fill]. unfold witness_random, rng_scalar. cbn [null_rng rng_next_u64 rng_fill].
  cbn [w_get_r w_r w_get_l w_l w_get_r1 w_r1].
  assert (Hz : scalar_from_wide (repeat x00 64) = s0) by (apply scalar_ext; vm_compute; reflexivity).
  rewrite Hz. split; [reflexivity|]. split; [reflexivity|]. unfold witness_new. rewrite seqb_refl. reflexivity.
Qed.
Print Assumptions C58_random_key_nonzero_refuted.

(** As C09: tags and verification keys satisfy the relation that the prover checks. *)
Theorem C58_tag_and_key :
  forall (E : env), env_laws E -> forall w : witness E, w_get_r w <> s0 ->
    pmul E (w_get_r w) (compute_linking_tag w) = get_U (w_get_params w) /\
    compute_verification_key w = pmul E (w_get_r w) (get_G (w_get_params w)) /\
    compute_auxiliary_verification_key w = pmul E (w_get_r1 w) (get_G1 (w_get_params w)) /\
    forall st : statement E, st_get_params st = w_get_params w -> st_get_J st = compute_linking_tag w ->
      nth_error (get_keys (st_get_input_set st)) (N.to_nat (w_get_l w)) = Some (compute_verification_key w) ->
      nth_error (get_auxiliary_keys (st_get_input_set st)) (N.to_nat (w_get_l w))
        = Some (padd E (compute_auxiliary_verification_key w) (st_get_offset st)) ->
      relation st (w_get_l w) (w_get_r w) (w_get_r1 w).
Proof.
  intros E L w Hr.
  assert (H1 : pmul E (w_get_r w) (compute_linking_tag w) = get_U (w_get_params w)).
  { unfold compute_linking_tag. change (w_r w) with (w_get_r w). change (w_params w) with (w_get_params w).
    rewrite (pmul_assoc E L). replace (w_get_r w * sinv (w_get_r w))%sc with s1 by (field; exact Hr).
    apply (pmul_1_l E L). }
  split; [exact H1|]. split; [reflexivity|]. split; [reflexivity|].
  intros st Hp HJ Hk Hk1. unfold relation. rewrite Hp, HJ. split; [exact Hk|]. split; [|exact H1].
  eexists. split; [exact Hk1|]. change (compute_auxiliary_verification_key w) with (pmul E (w_get_r1 w) (get_G1 (w_get_params w))).
  unfold psub. module L.
Qed.
Print Assumptions C58_tag_and_key.
(** The witness for position 2 of a ring of four keys, and the statement with its tag. *)
Lemma tag_cancels {E : env} (L : env_laws E) (r : scalar) (J : pt E) : r <> s0 -> pmul E (sinv r) (pmul E r J) = J.
Proof. intros Hr. rewrite (pmul_assoc E L). replace (sinv r * r)%sc with s1 by (field; exact Hr). apply (pmul_1_l E L). Qed.
Example C58_relation_example : exists (w : witness E0) (st : statement E0), made_witness w /\ made_statement st /\ w_get_l w = 2%N /\
  w_get_r w <> s0 /\ st_get_params st = w_get_params w /\ st_get_J st = compute_linking_tag w /\
  nth_error (get_keys (st_get_input_set st)) (N.to_nat (w_get_l w)) = Some (compute_verification_key w) /\
  relation st (w_get_l w) (w_get_r w) (w_get_r1 w).
Proof.
  exists (x_witness P0 T0 2), (x_statement P0 T0 2).
  split; [exact (x_witness_made P0 T0 2 ltac:(lia))|]. split; [exact (x_statement_made P0 T0 2)|].
  split; [reflexivity|]. split; [exact x_r_nonzero|]. split; [reflexivity|].
  split; [exact (eq_sym (tag_cancels L0 x_r (x_J P0 T0) x_r_nonzero))|].
  split; [exact (proj1 (x_relation P0 T0 2 ltac:(lia)))|exact (x_relation P0 T0 2 ltac:(lia))].
Qed.

(** As C10: with a common [U], not the identity, tags identify keys whatever the rest of the two witnesses is. *)
Theorem C58_tags_identify_keys :
  forall (E : env), env_laws E -> forall w w' : witness E, w_get_r w <> s0 -> w_get_r w' <> s0 ->
    (get_U (w_get_params w) = get_U (w_get_params w') -> get_U (w_get_params w) <> pid E ->
       (compute_linking_tag w = compute_linking_tag w' <-> w_get_r w = w_get_r w')) /\
    (get_G (w_get_params w) = get_G (w_get_params w') -> get_G (w_get_params w) <> pid E ->
       (compute_verification_key w = compute_verification_key w' <-> w_get_r w = w_get_r w')) /\
    (get_G1 (w_get_params w) = get_G1 (w_get_params w') -> get_G1 (w_get_params w) <> pid E ->
       (compute_auxiliary_verification_key w = compute_auxiliary_verification_key w' <-> w_get_r1 w = w_get_r1 w')).
Proof.
  intros E L w w' Hr Hr'.
  unfold compute_linking_tag, compute_verification_key, compute_auxiliary_verification_key, w_get_r, w_get_r1, w_get_params in *. split; [|split].
  - intros HU HUn. split.
    + intros H. rewrite <- HU in H. apply (pmul_inj_l L) in H; [|exact HUn].
      transitivity (w_r w * sinv (w_r w') * w_r w')%sc; [field; exact Hr'|]. rewrite <- H. field. exact Hr.
    + intros ->. rewrite HU. reflexivity.
  - intros HG HGn. split.
    + intros H. rewrite <- HG in H. apply (pmul_inj_l L) in H; [exact H|exact HGn].
    + intros ->. rewrite HG. reflexivity.
  - intros HG HGn. split.
    + intros H. rewrite <- HG in H. apply (pmul_inj_l L) in H; [exact H|exact HGn].
    + intros ->. rewrite HG. reflexivity.
Qed.
Print Assumptions C58_tags_identify_keys.

(** The hypotheses of these two are met by any two accepted witnesses over parameters whose [U] is not the identity. *)
Example C58_example_10 : exists w w' : witness E0, w_get_r w <> s0 /\ w_get_r w' <> s0 /\ w_get_r w <> w_get_r w' /\
  get_U (w_get_params w) = get_U (w_get_params w') /\ get_U (w_get_params w) <> pid E0 /\ get_G (w_get_params w) <> pid E0 /\ get_G1 (w_get_params w) <> pid E0.
Proof.
  destruct example_params as (p & Hp & Hn & Hm & HG & HG1 & HU).
  exists (mk_witness p 0 (smk 5) (smk 8)), (mk_witness p 3 (smk 6) (smk 9)). cbn [w_get_r w_r w_get_params w_params].
  rewrite HU, HG, HG1. repeat split; intros H; apply (f_equal sval) in H; vm_compute in H; discriminate.
Qed.

(** As C11 *)
Theorem C59_padding :
  forall (E : env) (p : params E) (M M1 : list (pt E)), made_params p ->
    let N := N.to_nat (get_n p ^ get_m p) in
    (forall last last1, length M1 = length M -> (1 <= length M <= N)%nat ->
       nth_error M (length M - 1) = Some last -> nth_error M1 (length M - 1) = Some last1 ->
       exists s, input_set_new_with_padding M M1 p = Ok s /\
         get_keys s = M ++ repeat last (N - length M) /\ get_auxiliary_keys s = M1 ++ repeat last1 (N - length M) /\
         length (get_keys s) = N /\ length (get_auxiliary_keys s) = N /\
         input_set_get_hash s = hash_of (E := E) (input_set_query (M ++ repeat last (N - length M)) (M1 ++ repeat last1 (N - length M)) (N.of_nat (length M)))) /\
    (length M <> length M1 ->
       input_set_new_with_padding M M1 p = Err (SE_InvalidParameter "`M` and `M1` did not have matching lengths") /\
       input_set_new M M1 = Err (SE_InvalidParameter "`M` and `M1` did not have matching lengths")) /\
    (M = [] -> M1 = [] -> input_set_new_with_padding M M1 p = Err (SE_InvalidParameter "`M` was empty")) /\
    (length M1 = length M -> (N < length M)%nat -> input_set_new_with_padding M M1 p = Err (SE_InvalidParameter "unpadded size exceeded `N`")) /\
    (length M = N -> length M1 = N -> input_set_new_with_padding M M1 p = input_set_new M M1).
Proof.
  intros E p M M1 Hp N. pose proof (made_good p Hp) as Hg. pose proof (made_N E p Hp) as HN.
  assert (HNn : N.to_nat (get_N p) = N) by (rewrite HN; reflexivity).
  assert (HNb : (get_N p < u32_bound)%N) by (rewrite HN; exact (gp_pow p Hg)).
  assert (HNpos : (1 <= N)%nat).
  { assert (Hx : (get_n p ^ get_m p <> 0)%N) by (apply N.pow_nonzero; pose proof (gp_n p Hg) as H2; change (get_n p) with (p_n p); lia). unfold N. lia. }
  assert (Hlast : forall (l : list (pt E)) last, nth_error l (length l - 1) = Some last -> (1 <= length l)%nat -> last_opt l = Some last).
  { intros l last Hl H1. unfold last_opt. destruct (rev l) as [|x r] eqn:Er.
    - apply (f_equal (@length _)) in Er. rewrite rev_length in Er. simpl in Er. lia.
    - assert (HM : l = rev r ++ [x]) by (rewrite <- (rev_involutive l), Er; reflexivity).
      rewrite HM in Hl. rewrite app_length in Hl. cbn [length] in Hl. rewrite nth_error_app2 in Hl by lia.
      replace (length (rev r) + 1 - 1 - length (rev r))%nat with 0%nat in Hl by lia. cbn in Hl. congruence. }
  assert (Hok : forall last last1, length M1 = length M -> (1 <= length M <= N)%nat ->
     nth_error M (length M - 1) = Some last -> nth_error M1 (length M - 1) = Some last1 ->
     input_set_new_with_padding M M1 p = new_internal (M ++ repeat last (N - length M)) (M1 ++ repeat last1 (N - length M)) (N.of_nat (length M))).
  { intros last last1 Hle HM Hl Hl1. unfold input_set_new_with_padding. rewrite (proj2 (Nat.eqb_eq _ _)) by lia. cbn [negb].
    rewrite (proj2 (N.ltb_ge _ _)) by lia.
    rewrite (Hlast M last Hl ltac:(lia)). rewrite <- Hle in Hl1. rewrite (Hlast M1 last1 Hl1 ltac:(lia)). cbn [ok_or obind]. rewrite HNn.
    unfold resize. rewrite !firstn_all2 by lia. rewrite Hle. reflexivity. }
  split; [|split; [|split; [|split]]].
  - intros last last1 Hle HM Hl Hl1. rewrite (Hok last last1 Hle HM Hl Hl1). unfold new_internal, checked.
    rewrite (proj2 (N.ltb_lt _ _)) by lia. cbn [ok_or obind challenge_bytes]. eexists. split; [reflexivity|].
    cbn [get_keys is_M get_auxiliary_keys is_M1 input_set_get_hash is_hash]. split; [reflexivity|]. split; [reflexivity|].
    split; [rewrite app_length, repeat_length; lia|]. split; [rewrite app_length, repeat_length; lia|].
    unfold hash_of. rewrite <- input_set_query_spec. reflexivity.
  - intros Hd. unfold input_set_new_with_padding, input_set_new. rewrite (proj2 (Nat.eqb_neq _ _) Hd). split; reflexivity.
  - intros -> ->. unfold input_set_new_with_padding. cbn [length Nat.eqb negb]. rewrite (proj2 (N.ltb_ge _ _)) by lia. reflexivity.
  - intros Hle HM. unfold input_set_new_with_padding. rewrite (proj2 (Nat.eqb_eq _ _)) by lia. cbn [negb]. rewrite (proj2 (N.ltb_lt _ _)) by lia. reflexivity.
  - intros HM HM1. destruct (nth_error M (length M - 1)) as [last|] eqn:El; [|apply nth_error_None in El; lia].
    destruct (nth_error M1 (length M - 1)) as [last1|] eqn:El1; [|apply nth_error_None in El1; lia].
    rewrite (Hok last last1 ltac:(lia) ltac:(lia) eq_refl eq_refl). replace (N - length M)%nat with 0%nat by lia. cbn [repeat]. rewrite !app_nil_r.
    unfold input_set_new. rewrite (proj2 (Nat.eqb_eq _ _)) by lia. reflexivity.
Qed.
Print Assumptions C59_padding.
Example C59_padding_example : exists (p : params E0) s, made_params p /\
  input_set_new_with_padding (E := E0) [smk 4; smk 5] [smk 6; smk 7] p = Ok s /\
  get_keys s = smk 4 :: repeat (smk 5) 8 /\ get_auxiliary_keys s = smk 6 :: repeat (smk 7) 8.
Proof.
  destruct example_params as (p & Hp & Hn & Hm & _).
  destruct (proj1 (C59_padding E0 p [smk 4; smk 5] [smk 6; smk 7] Hp) (smk 5) (smk 7)) as (s & Hs & Hk & Hk1 & _).
  - reflexivity.
  - rewrite Hn, Hm. cbn [length]. change (N.to_nat (3 ^ 2)) with 9%nat. lia.
  - reflexivity.
  - reflexivity.
  - exists p, s. rewrite Hk, Hk1, Hn, Hm. split; [exact Hp|]. split; [exact Hs|]. split; reflexivity.
Qed.

(** As C12: the hash of an input set is the answer to a query that determines both vectors, their order and the unpadded size;
    equal hashes mean equal vectors or an explicit collision. *)
Theorem C59_input_set_hash_binds :
  forall (E : env), env_laws E ->
    (forall (M M1 M' M1' : list (pt E)) (k k' : N), (k < 2 ^ 32)%N -> (k' < 2 ^ 32)%N ->
       input_set_query M M1 k = input_set_query M' M1' k' -> M = M' /\ M1 = M1' /\ k = k') /\
    (forall M M1 : list (pt E), length M1 = length M -> (N.of_nat (length M) < 2 ^ 32)%N ->
       exists s, input_set_new M M1 = Ok s /\ get_keys s = M /\ get_auxiliary_keys s = M1 /\
         input_set_get_hash s = hash_of (E := E) (input_set_query M M1 (N.of_nat (length M)))) /\
    (forall M M1 : list (pt E), length M1 = length M -> (2 ^ 32 <= N.of_nat (length M))%N ->
       input_set_new M M1 = Err (SE_InvalidParameter "unpadded size overflowed `u32`")) /\
    (forall s s' : input_set E, made_input_set s -> made_input_set s' ->
       input_set_get_hash s = input_set_get_hash s' ->
       (get_keys s = get_keys s' /\ get_auxiliary_keys s = get_auxiliary_keys s') \/ input_sets_collide s s').
Proof.
  intros E L. split; [|split; [|split]].
  - intros M M1 M' M1' k k' Hk Hk' H. apply (input_set_query_inj L); assumption.
  - intros M M1 Hle HM. unfold input_set_new, new_internal, checked. rewrite (proj2 (Nat.eqb_eq _ _)) by lia. cbn [negb]. change u32_bound with (2 ^ 32)%N.
    rewrite (proj2 (N.ltb_lt _ _) HM). cbn [ok_or obind challenge_bytes]. eexists. split; [reflexivity|].
    split; [reflexivity|]. split; [reflexivity|]. cbn [input_set_get_hash is_hash]. unfold hash_of. rewrite <- input_set_query_spec. reflexivity.
  - intros M M1 Hle HM. unfold input_set_new, new_internal, checked. rewrite (proj2 (Nat.eqb_eq _ _)) by lia. cbn [negb]. change u32_bound with (2 ^ 32)%N.
    rewrite (proj2 (N.ltb_ge _ _) HM). reflexivity.
  - intros s s' Hs Hs' H. apply (input_set_hash_binding L); assumption.
Qed.
Print Assumptions C59_input_set_hash_binds.
(** A key moved from one vector to the other changes the query, and so does the unpadded size. *)
Example C59_hash_example : @input_set_query E0 [smk 4; smk 5] [smk 6] 2 <> @input_set_query E0 [smk 4] [smk 5; smk 6] 2 /\
  @input_set_query E0 [smk 4; smk 5] [smk 6; smk 7] 2 <> @input_set_query E0 [smk 4; smk 5] [smk 6; smk 7] 1.
Proof.
  split; intros H; (apply (input_set_query_inj L0) in H; [|vm_compute; reflexivity|vm_compute; reflexivity]).
  - destruct H as [H _]. discriminate.
  - destruct H as (_ & _ & H). discriminate.
Qed.

(** As C13 *)
Theorem C60_statement_accepted_exactly :
  forall (E : env), env_laws E -> forall (p : params E) (s : input_set E) (offset J : pt E), made_params p ->
    let N := (get_n p ^ get_m p)%N in
    (N.of_nat (length (get_keys s)) = N -> ~ In (pid E) (get_keys s) -> ~ In offset (get_auxiliary_keys s) ->
       exists st, statement_new p s offset J = Ok st /\ st_get_params st = p /\ st_get_input_set st = s /\
         st_get_offset st = offset /\ st_get_J st = J) /\
    (N.of_nat (length (get_keys s)) <> N ->
       statement_new p s offset J = Err (SE_InvalidParameter "input vector size was not `N`")) /\
    (N.of_nat (length (get_keys s)) = N -> In (pid E) (get_keys s) \/ In offset (get_auxiliary_keys s) ->
       statement_new p s offset J = Err (SE_InvalidParameter "input vector contained the identity point")).
Proof.
  intros E L p s offset J Hp N. pose proof (made_N E p Hp) as HN. fold N in HN.
  assert (Ho : existsb (fun P => peqb E P (pid E)) (map (fun P => psub P offset) (get_auxiliary_keys s)) = true <-> In offset (get_auxiliary_keys s)).
  { rewrite (existsb_peqb L). rewrite in_map_iff. split.
    - intros (x & Hx & Hin). apply (proj1 (psub_0 L x offset)) in Hx. subst x. exact Hin.
    - intros Hin. exists offset. split; [apply (proj2 (psub_0 L offset offset)); reflexivity|exact Hin]. }
  unfold statement_new. rewrite HN. split; [|split].
  - intros Hl Hid Hoff. rewrite (proj2 (N.eqb_eq _ _) Hl). cbn [negb].
    destruct (existsb _ (get_keys s)) eqn:Ee; [apply (existsb_peqb L) in Ee; contradiction|].
    destruct (existsb _ (map _ (get_auxiliary_keys s))) eqn:Ee1; [destruct (Hoff (proj1 Ho eq_refl))|].
    eexists. split; [reflexivity|]. repeat split; reflexivity.
  - intros Hl. rewrite (proj2 (N.eqb_neq _ _) Hl). reflexivity.
  - intros Hl Hid. rewrite (proj2 (N.eqb_eq _ _) Hl). cbn [negb].
    destruct (existsb _ (get_keys s)) eqn:Ee; [reflexivity|].
    destruct Hid as [Hid|Hid]; [apply (existsb_peqb L) in Hid; congruence|].
    rewrite (proj2 Ho Hid). reflexivity.
Qed.
Print Assumptions C60_statement_accepted_exactly.
(** An accepted ring; one with three keys; one that contains the identity; and one whose auxiliary keys contain the offset. *)
Lemma set_of (M M1 : list (pt E0)) : length M = length M1 -> (N.of_nat (length M) < 2 ^ 32)%N ->
  exists s, input_set_new M M1 = Ok s /\ get_keys s = M /\ get_auxiliary_keys s = M1.
Proof.
  intros Hl Hb. destruct (proj1 (proj2 (C59_input_set_hash_binds E0 L0)) M M1 (eq_sym Hl) Hb) as (s & Hs & Hk & Hk1 & _). exists s. repeat split; assumption.
Qed.
Example C60_example : made_params (x_params P0 T0) /\
  (exists st, statement_new (x_params P0 T0) (x_set P0 T0 2) (smk 777) (smk 31) = Ok st) /\
  (exists s, input_set_new (E := E0) [smk 4; smk 5; smk 6] [smk 1; smk 2; smk 3] = Ok s /\
     statement_new (x_params P0 T0) s (smk 777) (smk 31) = Err (SE_InvalidParameter "input vector size was not `N`")) /\
  (exists s, input_set_new (E := E0) [smk 4; smk 5; pid E0; smk 6] [smk 1; smk 2; smk 3; smk 4] = Ok s /\
     statement_new (x_params P0 T0) s (smk 777) (smk 31) = Err (SE_InvalidParameter "input vector contained the identity point")) /\
  (exists s, input_set_new (E := E0) [smk 4; smk 5; smk 9; smk 6] [smk 1; smk 2; smk 777; smk 4] = Ok s /\
     statement_new (x_params P0 T0) s (smk 777) (smk 31) = Err (SE_InvalidParameter "input vector contained the identity point")).
Proof.
  pose proof (x_params_made P0 T0) as Hp. split; [exact Hp|]. split; [|split; [|split]].
  - destruct (proj1 (C60_statement_accepted_exactly E0 L0 (x_params P0 T0) (x_set P0 T0 2) (smk 777) (smk 31) Hp) eq_refl (x_ring_no_identity P0 T0 2)
      (x_ring1_no_offset P0 T0 2)) as (st & Hst & _).
    exists st. exact Hst.
  - destruct (set_of [smk 4; smk 5; smk 6] [smk 1; smk 2; smk 3] eq_refl eq_refl) as (s & Hs & Hk & _).
    exists s. split; [exact Hs|]. apply (C60_statement_accepted_exactly E0 L0 (x_params P0 T0) s (smk 777) (smk 31) Hp).
    rewrite Hk. discriminate.
  - destruct (set_of [smk 4; smk 5; pid E0; smk 6] [smk 1; smk 2; smk 3; smk 4] eq_refl eq_refl) as (s & Hs & Hk & _).
    exists s. split; [exact Hs|]. apply (C60_statement_accepted_exactly E0 L0 (x_params P0 T0) s (smk 777) (smk 31) Hp).
    + rewrite Hk. reflexivity.
    + left. rewrite Hk. right. right. left. reflexivity.
  - destruct (set_of [smk 4; smk 5; smk 9; smk 6] [smk 1; smk 2; smk 777; smk 4] eq_refl eq_refl) as (s & Hs & Hk & Hk1).
    exists s. split; [exact Hs|]. apply (C60_statement_accepted_exactly E0 L0 (x_params P0 T0) s (smk 777) (smk 31) Hp).
    + rewrite Hk. reflexivity.
    + right. rewrite Hk1. right. right. left. reflexivity.
Qed.

(** As C14: the statement hash binds the two hashes, the offset and the tag, hence everything in the statement, up to explicit collisions. *)
Theorem C60_statement_hash_binds :
  forall (E : env), env_laws E -> forall st st' : statement E, made_statement st -> made_statement st' ->
    st_get_hash st = hash_of (E := E) (query_of_statement st) /\
    (query_of_statement st = query_of_statement st' ->
       params_get_hash (st_get_params st) = params_get_hash (st_get_params st') /\
       input_set_get_hash (st_get_input_set st) = input_set_get_hash (st_get_input_set st') /\
       st_get_offset st = st_get_offset st' /\ st_get_J st = st_get_J st') /\
    (st_get_hash st = st_get_hash st' ->
       (st_get_params st = st_get_params st' /\ get_keys (st_get_input_set st) = get_keys (st_get_input_set st') /\
        get_auxiliary_keys (st_get_input_set st) = get_auxiliary_keys (st_get_input_set st') /\
        st_get_offset st = st_get_offset st' /\ st_get_J st = st_get_J st') \/
       statements_collide st st' \/ params_collide (st_get_params st) (st_get_params st') \/
       input_sets_collide (st_get_input_set st) (st_get_input_set st')).
Proof.
  intros E L st st' Hst Hst'. split; [apply made_statement_hash; assumption|]. split.
  - intros H. unfold query_of_statement in H. apply (statement_query_inj L) in H. exact H.
  - apply (statement_hash_binding L); assumption.
Qed.
Print Assumptions C60_statement_hash_binds.
(** Two statements over different rings whose hashes agree: with a constant hash function the theorem finds the collision. *)
Example C60_hash_example : exists st st' : statement (toy (fun _ _ => 0%N) T0), made_statement st /\ made_statement st' /\
  st_get_hash st = st_get_hash st' /\ get_keys (st_get_input_set st) <> get_keys (st_get_input_set st').
Proof.
  exists (x_statement (fun _ _ => 0%N) T0 1), (x_statement (fun _ _ => 0%N) T0 2).
  split; [apply x_statement_made|]. split; [apply x_statement_made|]. split; [reflexivity|].
  intros H. apply (f_equal (fun k => option_map sval (nth_error k 1))) in H. revert H. vm_compute. discriminate.
Qed.
