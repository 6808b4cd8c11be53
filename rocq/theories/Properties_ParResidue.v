(** Property C131, parallel protocol: what is wiped from memory, and what is left. *)
From Verif Require Import ParResidueFacts GrayFacts ParFacts ParProverFacts ParCompleteness ParExamples Properties_ParProver.
From Verif Require Import Algebra.

(** ** C131.  A wiped witness is the same for every index and pair of keys; its keys and tag are the identity, and it proves nothing: every call
    refuses at once, without touching transcript or generator. *)
Theorem C131_wiped_witness :
  forall (E : env), env_laws E -> forall (w w' : witness E),
    (w_get_params w = w_get_params w' -> witness_zeroize w = witness_zeroize w') /\
    w_get_params (witness_zeroize w) = w_get_params w /\
    compute_verification_key (witness_zeroize w) = pid E /\ compute_auxiliary_verification_key (witness_zeroize w) = pid E /\
    compute_linking_tag (witness_zeroize w) = pid E /\
    forall (R : Type) (ro : rng_ops R) (st : statement E) (rng : R) (t : transcript), made_statement st ->
      let reason := if params_eqb (w_get_params w) (st_get_params st) then "`M[l] != r * G`"%string
                    else "witness and statement parameters did not match"%string in
      prove_with_rng ro (witness_zeroize w) st rng t = (Err (InvalidParameter reason), t, rng) /\
      prove_with_rng_vartime ro (witness_zeroize w) st rng t = (Err (InvalidParameter reason), t, rng).
Proof.
  intros E L w w'. split; [|split; [|split; [|split; [|split]]]].
  - unfold w_get_params, witness_zeroize. intros ->. reflexivity.
  - reflexivity.
  - unfold compute_verification_key. cbn [witness_zeroize w_r]. apply (pmul_0_l L).
  - unfold compute_auxiliary_verification_key. cbn [witness_zeroize w_r1]. apply (pmul_0_l L).
  - unfold compute_linking_tag. cbn [witness_zeroize w_r]. rewrite sinv_0.
    apply (pmul_0_l L).
  - intros R ro st rng t Hst reason. pose proof (made_statement_good L st Hst) as Hg.
    assert (H : forall tm, prove_checks tm (witness_zeroize w) st = Err (InvalidParameter reason)).
    { intros tm. unfold prove_checks, reason. change (w_get_params (witness_zeroize w)) with (w_get_params w).
      destruct (params_eqb (w_get_params w) (st_get_params st)); [|reflexivity]. cbn [negb].
      change (w_get_l (witness_zeroize w)) with 0%N. change (w_get_r (witness_zeroize w)) with s0. change (w_get_r1 (witness_zeroize w)) with s0.
      unfold st_get_input_set, get_keys, get_auxiliary_keys. pose proof (good_len_nat st Hg) as Hlen.
      assert (Hpos : (0 < length (is_M (st_input_set st)))%nat).
      { rewrite Hlen. pose proof (gp_n _ (gs_params st Hg)). apply Nat.neq_0_lt_0. apply Nat.pow_nonzero. lia. }
      rewrite select_keys_spec by (exact (gs_len1 st Hg) || exact (eq_sym (gs_len1 st Hg)) || exact Hpos). cbn [obind]. rewrite (pmul_0_l L).
      destruct (peqb E (nth (N.to_nat 0) (is_M (st_input_set st)) (pid E)) (pid E)) eqn:He; [|reflexivity].
      apply (peqb_eq E L) in He. exfalso. apply (gs_nonid st Hg). rewrite <- He. apply nth_In. exact Hpos. }
    unfold prove_with_rng, prove_with_rng_vartime, prove_internal. rewrite !H. split; reflexivity.
Qed.
Print Assumptions C131_wiped_witness.

(** The prover that keeps its variables returns what the prover returns. *)
Theorem C131_same_prover :
  forall (E : env) (R : Type) (ro : rng_ops R) (w : witness E) (st : statement E) (rng : R) (t : transcript) (tm : timing),
    let '(r, t', rng') := prove_left ro w st rng t tm in
    prove_internal ro w st rng t tm =
      (match r with Ok (pf, _) => Ok pf | Err e => Err e | Panic => Panic | OutOfFuel => OutOfFuel end, t', rng').
Proof.
  intros E R ro w st rng t tm. pose proof (prove_erase ro w st rng t tm) as H.
  destruct (prove_left ro w st rng t tm) as [[r t'] rng']. cbn [fst snd] in H. rewrite <- H.
  destruct r as [[pf res]|e| |]; reflexivity.
Qed.
Print Assumptions C131_same_prover.

(** The index is left behind: the matrix [sigma] tells it, and so does [a] together with the proof. *)
Theorem C131_index_is_left :
  forall (E : env), env_laws E ->
  forall (R R' : Type) (ro : rng_ops R) (ro' : rng_ops R') (w w' : witness E) (st st' : statement E) (rng : R) (rng' : R')
    (t t' : transcript) (tm tm' : timing) pf pf' res res' t1 t1' rng1 rng1',
    made_witness w -> made_witness w' -> made_statement st -> made_statement st' -> st_get_params st = st_get_params st' ->
    prove_left ro w st rng t tm = (Ok (pf, res), t1, rng1) -> prove_left ro' w' st' rng' t' tm' = (Ok (pf', res'), t1', rng1') ->
    (left_digits res = left_digits res' \/ left_sigma res = left_sigma res' \/
     left_a res = left_a res' /\ pf_f pf = pf_f pf' /\ challenge t st pf = challenge t' st' pf') ->
    w_get_l w = w_get_l w'.
Proof.
  intros E L R R' ro ro' w w' st st' rng rng' t t' tm tm' pf pf' res res' t1 t1' rng1 rng1' Hw Hw' Hst Hst' Hpp H H' Hsame.
  assert (Hrun : forall (R : Type) (ro : rng_ops R) w (st : statement E) rng t tm pf res t1 rng1, made_witness w -> made_statement st ->
     prove_left ro w st rng t tm = (Ok (pf, res), t1, rng1) ->
     (w_l w < get_n (st_get_params st) ^ get_m (st_get_params st))%N /\ challenge t st pf <> s0 /\
     exists c, good_coins st c /\ res = unwiped st (w_l w) c /\ pf = honest_proof st (w_l w) (w_r w) (w_r1 w) c (challenge t st pf)).
  { clear - L. intros R ro w st rng t tm pf res t1 rng1 Hw Hst H.
    pose proof (prove_left_unwiped L ro w st rng t tm pf res t1 rng1 Hw Hst H) as Hres.
    pose proof (C131_same_prover E R ro w st rng t tm) as Hs. rewrite H in Hs.
    assert (Hp : prove_with_rng ro w st rng t = (Ok pf, t1, rng1)).
    { destruct tm; [exact Hs|]. rewrite (C61_timing_equivalence E L R ro w st rng t Hw Hst). exact Hs. }
    destruct (proj1 (prove_ok_iff L ro w st rng t Hw Hst)) as (Hpar & _ & _). { rewrite Hp. eexists. reflexivity. }
    destruct (prove_result L ro w st rng t pf t1 rng1 Hw Hst Hp) as (_ & Hx & Hpf & _).
    pose proof (made_statement_good L st Hst) as Hg. destruct (made_witness_index w Hw) as [_ Hl].
    unfold w_get_params, st_get_params in Hpar. rewrite Hpar, (good_N _ (gs_params st Hg)) in Hl.
    split; [exact Hl|]. split; [exact Hx|]. eexists. split; [apply prover_coins_good|]. split; [exact Hres|exact Hpf]. }
  destruct (Hrun _ _ _ _ _ _ _ _ _ _ _ Hw Hst H) as (Hl & Hx & c & Hc & Hres & Hpf).
  destruct (Hrun _ _ _ _ _ _ _ _ _ _ _ Hw' Hst' H') as (Hl' & Hx' & c' & Hc' & Hres' & Hpf').
  clear Hrun H H'. pose proof (made_statement_good L st Hst) as Hg. pose proof (gp_n _ (gs_params st Hg)) as Hn.
  change (p_n (st_params st)) with (get_n (st_get_params st)) in Hn.
  unfold w_get_l. rewrite <- Hpp in Hl'.
  assert (Hcode : gray_code (get_n (st_get_params st)) (N.to_nat (get_m (st_get_params st))) (w_l w) =
                  gray_code (get_n (st_get_params st)) (N.to_nat (get_m (st_get_params st))) (w_l w') -> w_l w = w_l w').
  { apply gray_code_inj; [lia| |]; rewrite N2Nat.id; assumption. }
  assert (Hdig : (forall j, (j < N.to_nat (get_m (st_get_params st)))%nat ->
                   gray_digit (get_n (st_get_params st)) (w_l w) j = gray_digit (get_n (st_get_params st)) (w_l w') j) -> w_l w = w_l w').
  { intros Hd. apply Hcode. unfold gray_code. apply map_ext_in. intros j Hj. apply in_seq in Hj. apply Hd. lia. }
  assert (Hlt : forall v j, (N.to_nat (gray_digit (get_n (st_get_params st)) v j) < N.to_nat (get_n (st_get_params st)))%nat).
  { intros v j. pose proof (gray_digit_lt (get_n (st_get_params st)) v j ltac:(lia)). lia. }
  assert (Hsig : (forall j i, (j < N.to_nat (get_m (st_get_params st)))%nat -> (1 <= i < N.to_nat (get_n (st_get_params st)))%nat ->
                   sigma_at (get_n (st_get_params st)) (w_l w) j i = sigma_at (get_n (st_get_params st)) (w_l w') j i) -> w_l w = w_l w').
  { intros Hs. apply Hdig. intros j Hj.
    assert (Hone : forall v v', (forall i, (1 <= i < N.to_nat (get_n (st_get_params st)))%nat ->
                     sigma_at (get_n (st_get_params st)) v j i = sigma_at (get_n (st_get_params st)) v' j i) ->
                     (0 < N.to_nat (gray_digit (get_n (st_get_params st)) v j))%nat ->
                     gray_digit (get_n (st_get_params st)) v j = gray_digit (get_n (st_get_params st)) v' j).
    { intros v v' Hvv Hpos. specialize (Hvv _ (conj Hpos (Hlt v j))). unfold sigma_at in Hvv. rewrite Nat.eqb_refl in Hvv.
      destruct (Nat.eqb_spec (N.to_nat (gray_digit (get_n (st_get_params st)) v j)) (N.to_nat (gray_digit (get_n (st_get_params st)) v' j))) as [He|He].
      - apply N2Nat.inj. exact He.
      - exfalso. exact (s1_neq_s0 Hvv). }
    destruct (Nat.eq_dec (N.to_nat (gray_digit (get_n (st_get_params st)) (w_l w) j)) 0) as [Hz|Hz].
    - destruct (Nat.eq_dec (N.to_nat (gray_digit (get_n (st_get_params st)) (w_l w') j)) 0) as [Hz'|Hz'].
      + apply N2Nat.inj. congruence.
      + symmetry. apply Hone; [|lia]. intros i Hi. symmetry. apply Hs; assumption.
    - apply Hone; [|lia]. intros i Hi. apply Hs; assumption. }
  destruct Hsame as [Hd|[Hs|(Ha & Hf & Hch)]].
  - apply Hcode. rewrite Hres, Hres' in Hd. unfold unwiped in Hd. cbn [left_digits] in Hd. rewrite <- Hpp in Hd. exact Hd.
  - apply Hsig. intros j i Hj Hi. rewrite Hres, Hres' in Hs. unfold unwiped in Hs. cbn [left_sigma] in Hs. rewrite <- Hpp in Hs.
    apply (f_equal (fun x => mat x j i)) in Hs. rewrite !mat_mkmat in Hs by lia. exact Hs.
  - apply Hsig. intros j i Hj Hi. rewrite Hres, Hres' in Ha. unfold unwiped in Ha. cbn [left_a] in Ha.
    rewrite Hpf, Hpf' in Hf. unfold honest_proof in Hf. cbn [pf_f] in Hf. rewrite <- Hpp, <- Hch in Hf.
    apply (f_equal (fun x => mat x j (i - 1))) in Hf. rewrite !mat_mkmat in Hf by lia.
    replace (S (i - 1)) with i in Hf by lia. rewrite <- Ha in Hf.
    assert (Hcancel : forall x a s s' : scalar, x <> s0 -> (s * x + a)%sc = (s' * x + a)%sc -> s = s').
    { clear. intros x a s s' Hx Hf. replace s with (sinv x * ((s * x + a) - a))%sc by (field; exact Hx). rewrite Hf. field. exact Hx. }
    exact (Hcancel _ _ _ _ Hx Hf).
Qed.
Print Assumptions C131_index_is_left.

(** What a proof says in scalars. *)
Definition responses {E : env} (pf : proof E) := (pf_f pf, pf_z_A pf, pf_z_C pf, pf_z pf, pf_z1 pf).
(** The coins with other masks. *)
Definition with_rho (c : coins) (rho rho1 : list scalar) : coins := mk_coins (c_r_A c) (c_a c) (c_r_B c) (c_r_C c) (c_r_D c) rho rho1.

(** The keys are not: what is left and the responses agree with every pair of keys, each with equally many masks (all but the first mask
    of each kind can be chosen, and then there is one pair of first masks that fits). *)
Theorem C131_keys_are_not_left :
  forall (E : env), env_laws E ->
  forall (R : Type) (ro : rng_ops R) (w : witness E) (st : statement E) (rng : R) (t : transcript) (tm : timing) pf res t1 rng1,
    made_witness w -> made_statement st -> prove_left ro w st rng t tm = (Ok (pf, res), t1, rng1) ->
    let c := prover_coins t st w (fst (rng_fill ro rng 32)) in
    let xi := challenge t st pf in
    res = unwiped st (w_get_l w) c /\ pf = honest_proof st (w_get_l w) (w_get_r w) (w_get_r1 w) c xi /\
    forall (r r1 : scalar) (others others1 : list scalar),
      N.of_nat (S (length others)) = get_m (st_get_params st) -> N.of_nat (S (length others1)) = get_m (st_get_params st) ->
      exists! firsts : scalar * scalar,
        let c' := with_rho c (fst firsts :: others) (snd firsts :: others1) in
        unwiped st (w_get_l w) c' = res /\ responses (honest_proof st (w_get_l w) r r1 c' xi) = responses pf.
Proof.
  intros E L R ro w st rng t tm pf res t1 rng1 Hw Hst H c xi.
  pose proof (prove_left_unwiped L ro w st rng t tm pf res t1 rng1 Hw Hst H) as Hres.
  pose proof (C131_same_prover E R ro w st rng t tm) as Hs. rewrite H in Hs.
  assert (Hp : prove_with_rng ro w st rng t = (Ok pf, t1, rng1)).
  { destruct tm; [exact Hs|]. rewrite (C61_timing_equivalence E L R ro w st rng t Hw Hst). exact Hs. }
  destruct (prove_result L ro w st rng t pf t1 rng1 Hw Hst Hp) as (_ & Hx & Hpf & _).
  fold c in Hres, Hpf. fold xi in Hx, Hpf. split; [exact Hres|]. split; [exact Hpf|].
  intros r r1 others others1 Hlen Hlen1.
  assert (Hm : N.to_nat (get_m (st_get_params st)) = S (length others)) by lia.
  assert (Hm1 : N.to_nat (get_m (st_get_params st)) = S (length others1)) by lia.
  assert (Hd : forall first others, sdot (first :: others) (powers xi (S (length others))) = (first + sdot others (map (spow xi) (seq 1 (length others))))%sc).
  { clear. intros first others. unfold powers. cbn [seq map]. unfold sdot. cbn [combine map fst snd].
    change (spow xi 0) with s1. unfold ssum. cbn [fold_right]. ring. }
  assert (Hz : forall a b, pf_z (honest_proof st (w_get_l w) r r1 (with_rho c (a :: others) (b :: others1)) xi) =
    (r * spow xi (S (length others)) - (a + sdot others (map (spow xi) (seq 1 (length others)))))%sc).
  { intros a b. unfold honest_proof. cbn [pf_z with_rho c_rho]. rewrite Hm, Hd. reflexivity. }
  assert (Hz1 : forall a b, pf_z1 (honest_proof st (w_get_l w) r r1 (with_rho c (a :: others) (b :: others1)) xi) =
    (r1 * spow xi (S (length others1)) - (b + sdot others1 (map (spow xi) (seq 1 (length others1)))))%sc).
  { intros a b. unfold honest_proof. cbn [pf_z1 with_rho c_rho1]. rewrite Hm1, Hd. reflexivity. }
  exists ((r * spow xi (S (length others)) - sdot others (map (spow xi) (seq 1 (length others))) - pf_z pf)%sc,
          (r1 * spow xi (S (length others1)) - sdot others1 (map (spow xi) (seq 1 (length others1))) - pf_z1 pf)%sc). cbn [fst snd]. split.
  - split; [rewrite Hres; reflexivity|]. unfold responses. rewrite Hz, Hz1. apply f_equal2; [apply f_equal2; [|cbn [fst snd]; ring]|cbn [fst snd]; ring].
    rewrite Hpf. reflexivity.
  - intros [a b] [_ Hr]. cbn [fst snd] in Hr. unfold responses in Hr.
    assert (Ha : pf_z (honest_proof st (w_get_l w) r r1 (with_rho c (a :: others) (b :: others1)) xi) = pf_z pf)
      by exact (f_equal (fun x => snd (fst x)) Hr).
    assert (Hb : pf_z1 (honest_proof st (w_get_l w) r r1 (with_rho c (a :: others) (b :: others1)) xi) = pf_z1 pf)
      by exact (f_equal snd Hr).
    rewrite Hz in Ha. rewrite Hz1 in Hb. rewrite <- Ha, <- Hb. apply f_equal2; ring.
Qed.
Print Assumptions C131_keys_are_not_left.

(** The masks are what had to be wiped: with them the proof tells both keys. *)
Theorem C131_masks_would_tell :
  forall (E : env), env_laws E ->
  forall (R : Type) (ro : rng_ops R) (w : witness E) (st : statement E) (rng : R) (t : transcript) (tm : timing) pf res t1 rng1,
    made_witness w -> made_statement st -> prove_left ro w st rng t tm = (Ok (pf, res), t1, rng1) ->
    let rho := c_rho (prover_coins t st w (fst (rng_fill ro rng 32))) in
    let rho1 := c_rho1 (prover_coins t st w (fst (rng_fill ro rng 32))) in
    let xi := challenge t st pf in
    let m := N.to_nat (get_m (st_get_params st)) in
    w_get_r w = (sinv (spow xi m) * (pf_z pf + sdot rho (powers xi m)))%sc /\
    w_get_r1 w = (sinv (spow xi m) * (pf_z1 pf + sdot rho1 (powers xi m)))%sc.
Proof.
  intros E L R ro w st rng t tm pf res t1 rng1 Hw Hst H rho rho1 xi m.
  pose proof (C131_same_prover E R ro w st rng t tm) as Hs. rewrite H in Hs.
  assert (Hp : prove_with_rng ro w st rng t = (Ok pf, t1, rng1)).
  { destruct tm; [exact Hs|]. rewrite (C61_timing_equivalence E L R ro w st rng t Hw Hst). exact Hs. }
  destruct (prove_result L ro w st rng t pf t1 rng1 Hw Hst Hp) as (_ & Hx & Hpf & _).
  fold xi in Hx, Hpf. pose proof (f_equal (fun q => pf_z q) Hpf) as Hz. pose proof (f_equal (fun q => pf_z1 q) Hpf) as Hz1. clear Hpf.
  unfold honest_proof in Hz, Hz1. cbn [pf_z] in Hz. cbn [pf_z1] in Hz1. fold rho m in Hz. fold rho1 m in Hz1.
  split; [rewrite Hz|rewrite Hz1]; field; apply spow_nonzero; exact Hx.
Qed.
Print Assumptions C131_masks_would_tell.

(** A run that meets the hypotheses, and a witness before and after wiping. *)
Example C131_example :
  made_witness (x_witness P0 T0 2) /\ made_statement (x_statement P0 T0 2) /\
  (exists res t1, prove_left counter (x_witness P0 T0 2) (x_statement P0 T0 2) 5%N (x_transcript 1) ConstantTime
     = (Ok (x_proof P0 T0 2 1, res), t1, 7%N)) /\
  witness_zeroize (x_witness P0 T0 2) <> x_witness P0 T0 2.
Proof.
  pose proof (x_witness_made P0 T0 2 ltac:(lia)) as Hw. pose proof (x_statement_made P0 T0 2) as Hst.
  split; [exact Hw|]. split; [exact Hst|]. split.
  - destruct (x_check_ok P0 T0 2 1 x_check_2_1) as [Hx _]. destruct (x_proved P0 T0 2 1 ltac:(lia) Hx) as [_ Hp].
    pose proof (C131_same_prover E0 N counter (x_witness P0 T0 2) (x_statement P0 T0 2) 5%N (x_transcript 1) ConstantTime) as Hs.
    unfold prove_with_rng in Hp. rewrite Hp in Hs.
    destruct (prove_left counter (x_witness P0 T0 2) (x_statement P0 T0 2) 5%N (x_transcript 1) ConstantTime) as [[r t'] rng'].
    destruct r as [[pf res]|e| |]; try discriminate Hs. injection Hs as H1 H2 H3. exists res, t'.
    rewrite H1, H3. reflexivity.
  - intros H. apply (f_equal (fun w => w_get_l w)) in H. discriminate H.
Qed.
