(** The parallel prover: closed form of its output, no panics, and the verification equations of an honest proof. *)
From Verif Require Export CoreProver ParFacts.

Lemma s2_eq : s2 = (s1 + s1)%sc.
Proof. apply scalar_ext. reflexivity. Qed.

Section ProverFacts.
Context {E : env} (L : env_laws E).

Lemma params_eqb_eq (p q : params E) : params_eqb p q = true <-> p = q.
Proof.
  destruct p as [n m G G1 U CG CH h], q as [n' m' G' G1' U' CG' CH' h']. unfold params_eqb.
  cbn [p_n p_m p_G p_G1 p_U p_CommitmentG p_CommitmentH p_hash].
  assert (Hpts : forall a b : list (pt E), pts_eqb a b = true <-> a = b).
  { induction a as [|x a IH]; intros [|y b]; cbn [pts_eqb]; split; intros H; try reflexivity; try discriminate.
    - apply andb_true_iff in H. destruct H as [H1 H2]. apply (peqb_eq E L) in H1. apply IH in H2. subst. reflexivity.
    - injection H as <- <-. apply andb_true_iff. split; [apply (peqb_eq E L); reflexivity|apply IH; reflexivity]. }
  rewrite !andb_true_iff, !N.eqb_eq, !(peqb_eq E L), Hpts, bytes_eqb_eq.
  split.
  - intros (((((((-> & ->) & ->) & ->) & ->) & ->) & ->) & ->). reflexivity.
  - intros H. injection H as -> -> -> -> -> -> -> ->. repeat split.
Qed.

(** * The checks *)

Lemma map_fst_combine {A B} : forall (a : list A) (b : list B), length a = length b -> map fst (combine a b) = a.
Proof. induction a as [|x a IH]; intros [|y b] H; cbn in *; try discriminate; [reflexivity|]. rewrite IH by lia. reflexivity. Qed.
Lemma map_snd_combine {A B} : forall (a : list A) (b : list B), length a = length b -> map snd (combine a b) = b.
Proof. induction a as [|x a IH]; intros [|y b] H; cbn in *; try discriminate; [reflexivity|]. rewrite IH by lia. reflexivity. Qed.

Lemma select_keys_spec tm (M M1 : list (pt E)) l : length M = length M1 -> (N.to_nat l < length M)%nat ->
  select_keys tm M M1 l = Ok (nth (N.to_nat l) M (pid E), nth (N.to_nat l) M1 (pid E)).
Proof.
  intros Hlen Hl. unfold select_keys. destruct tm.
  - rewrite map_fst_combine, map_snd_combine by exact Hlen. rewrite !select_ct_spec by lia. reflexivity.
  - unfold index. rewrite (nth_error_nth' M (pid E)) by lia. rewrite (nth_error_nth' M1 (pid E)) by lia. reflexivity.
Qed.

Lemma prove_checks_cases tm (w : witness E) (st : statement E) : good_statement st -> (w_l w < get_N (w_params w))%N ->
  (w_params w = st_params st /\ relation st (w_l w) (w_r w) (w_r1 w) /\ prove_checks tm w st = Ok tt) \/
  (w_params w <> st_params st /\
   prove_checks tm w st = Err (InvalidParameter "witness and statement parameters did not match")) \/
  (w_params w = st_params st /\
   nth_error (is_M (st_input_set st)) (N.to_nat (w_l w)) <> Some (pmul E (w_r w) (p_G (st_params st))) /\
   prove_checks tm w st = Err (InvalidParameter "`M[l] != r * G`")) \/
  (w_params w = st_params st /\
   nth_error (is_M (st_input_set st)) (N.to_nat (w_l w)) = Some (pmul E (w_r w) (p_G (st_params st))) /\
   (forall M1_l, nth_error (is_M1 (st_input_set st)) (N.to_nat (w_l w)) = Some M1_l ->
      psub M1_l (st_offset st) <> pmul E (w_r1 w) (p_G1 (st_params st))) /\
   prove_checks tm w st = Err (InvalidParameter "`M1[l] - offset != r1 * G1`")) \/
  (w_params w = st_params st /\
   nth_error (is_M (st_input_set st)) (N.to_nat (w_l w)) = Some (pmul E (w_r w) (p_G (st_params st))) /\
   (exists M1_l, nth_error (is_M1 (st_input_set st)) (N.to_nat (w_l w)) = Some M1_l /\
      psub M1_l (st_offset st) = pmul E (w_r1 w) (p_G1 (st_params st))) /\
   pmul E (w_r w) (st_J st) <> p_U (st_params st) /\
   prove_checks tm w st = Err (InvalidParameter "`r * J != U`")).
Proof.
  intros Hg Hlt. unfold prove_checks, relation, w_get_params, w_get_l, w_get_r, w_get_r1, st_get_params, st_get_input_set, st_get_J,
    st_get_offset, get_keys, get_auxiliary_keys, get_G, get_G1, get_U.
  destruct (params_eqb (w_params w) (st_params st)) eqn:Hp; cbn [negb].
  2:{ right; left. split; [|reflexivity]. intros He. apply params_eqb_eq in He. congruence. }
  apply params_eqb_eq in Hp. rewrite Hp, <- (gs_len st Hg) in Hlt.
  assert (Hl : (N.to_nat (w_l w) < length (is_M (st_input_set st)))%nat) by lia.
  pose proof (gs_len1 st Hg) as Hlen.
  assert (Hl1 : (N.to_nat (w_l w) < length (is_M1 (st_input_set st)))%nat) by lia.
  rewrite select_keys_spec by (congruence || exact Hl). cbn [obind].
  rewrite (nth_error_nth' _ (pid E) Hl), (nth_error_nth' _ (pid E) Hl1).
  destruct (peqb E (nth (N.to_nat (w_l w)) (is_M _) _) _) eqn:H1; cbn [negb].
  2:{ right; right; left. split; [exact Hp|]. split; [|reflexivity]. intros He. injection He as He.
      apply (peqb_eq E L) in He. congruence. }
  apply (peqb_eq E L) in H1. rewrite H1.
  destruct (peqb E (psub _ _) _) eqn:H3; cbn [negb].
  2:{ right; right; right; left. split; [exact Hp|]. split; [reflexivity|]. split; [|reflexivity].
      intros M1_l He Hc. injection He as He. rewrite He in H3. apply (peqb_eq E L) in Hc. congruence. }
  apply (peqb_eq E L) in H3.
  destruct (peqb E (pmul E (w_r w) (st_J st)) _) eqn:H2; cbn [negb].
  2:{ right; right; right; right. split; [exact Hp|]. split; [reflexivity|]. split; [eauto|].
      split; [|reflexivity]. intros He. apply (peqb_eq E L) in He. congruence. }
  apply (peqb_eq E L) in H2. left. split; [exact Hp|]. split; [|reflexivity]. split; [reflexivity|]. split; [eauto|exact H2].
Qed.

(** * The vector [X1] *)

Lemma lincomb_shifted : forall (c : list scalar) (M1 : list (pt E)) (offset : pt E), length c = length M1 ->
  lincomb c (shifted M1 offset) = psub (lincomb c M1) (pmul E (ssum c) offset).
Proof.
  induction c as [|x c IH]; intros [|P M1] offset H; try discriminate.
  - unfold shifted. cbn [map]. rewrite !(lincomb_nil_l), ssum_nil. module L.
  - unfold shifted in *. cbn [map]. rewrite !(lincomb_cons), ssum_cons, IH by (cbn in H; lia). module L.
Qed.

Lemma X1_vector_spec tm p (M1 : list (pt E)) (G1 offset : pt E) rho1 k :
  length p = length M1 -> (forall row, In row p -> (length rho1 <= length row)%nat) -> length rho1 = k ->
  X1_vector tm p M1 G1 offset rho1 =
  Ok (map (fun j => padd E (lincomb (map (fun row => nth j row s0) p) (shifted M1 offset)) (pmul E (nth j rho1 s0) G1)) (seq 0 k)).
Proof.
  intros Hp Hrow Hk. unfold X1_vector.
  rewrite (mapM_pure _ (fun jr => padd E (lincomb (map (fun row => nth (fst jr) row s0) p) (shifted M1 offset)) (pmul E (snd jr) G1))).
  - f_equal. subst k. rewrite <- (map_nth_seq rho1 s0) at 2.
    assert (Hc : forall a k (h : nat -> scalar), combine (seq a k) (map h (seq a k)) = map (fun j => (j, h j)) (seq a k)).
    { clear. intros a k h. revert a. induction k as [|k IH]; intros a; [reflexivity|]. cbn [seq map combine]. rewrite IH. reflexivity. }
    rewrite Hc, map_map. reflexivity.
  - intros [j r] Hin. cbn [fst snd]. cbv zeta.
    assert (Hj : (j < length rho1)%nat).
    { apply in_combine_l in Hin. apply in_seq in Hin. lia. }
    unfold p_column. rewrite (mapM_pure _ (fun row => nth j row s0)).
    2:{ intros row Hr. apply index_nth. specialize (Hrow row Hr). lia. }
    cbn [obind]. unfold msm, multiscalar_mul, vartime_multiscalar_mul.
    rewrite !app_length, map_length, Hp. cbn [length]. rewrite Nat.eqb_refl.
    rewrite (lincomb_app L) by (rewrite !app_length, map_length, Hp; reflexivity).
    rewrite (lincomb_app L) by (rewrite map_length; exact Hp). rewrite !(lincomb_single L).
    rewrite lincomb_shifted by (rewrite map_length; exact Hp).
    replace (padd E (psub (lincomb (map (fun row => nth j row s0) p) M1)
                          (pmul E (ssum (map (fun row => nth j row s0) p)) offset)) (pmul E r G1))
      with (padd E (padd E (lincomb (map (fun row => nth j row s0) p) M1) (pmul E r G1))
                   (pmul E (ssum (map (fun row => nth j row s0) p)) (popp E offset))) by module L.
    destruct tm; reflexivity.
Qed.

(** * The first message *)

Definition honest_fm (st : statement E) (l : N) (c : coins) : first_message E :=
  let pf := honest_proof st l s0 s0 c s0 in
  mk_fm (pf_A pf) (pf_B pf) (pf_C pf) (pf_D pf) (pf_X pf) (pf_X1 pf) (pf_Y pf)
    (map balance (c_a c)) (mkmat (N.to_nat (p_m (st_params st))) (N.to_nat (p_n (st_params st))) (sigma_at (p_n (st_params st)) l))
    (c_r_A c) (c_r_B c) (c_r_C c) (c_r_D c) (c_rho c) (c_rho1 c).

Lemma map_seq_nth {A} (h : scalar -> A) (l : list scalar) : map h l = map (fun j => h (nth j l s0)) (seq 0 (length l)).
Proof. rewrite <- (map_map (fun j => nth j l s0) h), map_nth_seq. reflexivity. Qed.

Lemma prove_first_message_spec tm (w : witness E) (st : statement E) g : good_statement st ->
  (w_l w < get_N (st_params st))%N ->
  prove_first_message tm w st g =
  Ok (honest_fm st (w_l w) (read_coins (E := E) (N.to_nat (p_n (st_params st))) (N.to_nat (p_m (st_params st))) g)).
Proof.
  intros Hg Hl. pose proof (gs_params st Hg) as Hp. pose proof (gp_n _ Hp) as Hn. pose proof (gp_m _ Hp) as Hm.
  pose proof (gp_pow _ Hp) as Hb. pose proof (gp_CG _ Hp) as HCG. rewrite (good_N _ Hp) in Hl.
  unfold prove_first_message, read_coins, w_get_l, st_get_params, st_get_input_set, st_get_J, st_get_offset, get_keys, get_auxiliary_keys, get_m, get_n, get_G, get_G1.
  destruct (draw g) as [r_A g1] eqn:E1.
  pose proof (@draw_rows_shape E (N.to_nat (p_m (st_params st))) (N.to_nat (p_n (st_params st))) g1) as Ha.
  destruct (draw_rows (N.to_nat (p_m (st_params st))) (N.to_nat (p_n (st_params st))) g1) as [a g2] eqn:E2. cbn [fst] in Ha.
  pose proof (balance_shape _ _ _ Ha) as Hb'.
  rewrite (balance_rows _ (N.to_nat (p_n (st_params st))) a ltac:(lia) Ha). cbn [obind]. unfold commit_matrix.
  rewrite (commit_matrix_spec L) by assumption. cbn [omap_err obind].
  destruct (draw g2) as [r_B g3] eqn:E3.
  rewrite decompose_index_spec by (assumption || lia). cbn [obind].
  rewrite sigma_matrix_spec. cbn [obind].
  pose proof (mkmat_shape (N.to_nat (p_m (st_params st))) (N.to_nat (p_n (st_params st))) (sigma_at (p_n (st_params st)) (w_l w))) as Hs.
  rewrite (commit_matrix_spec L) by assumption. cbn [omap_err obind].
  destruct (draw g3) as [r_C g4] eqn:E4.
  rewrite a_sigma_spec by assumption. cbn [obind].
  rewrite (commit_matrix_spec L) by (apply mkmat_shape || assumption). cbn [omap_err obind].
  destruct (draw g4) as [r_D g5] eqn:E5.
  rewrite a_square_spec by assumption. cbn [obind].
  rewrite (commit_matrix_spec L) by (apply mkmat_shape || assumption). cbn [omap_err obind].
  pose proof (@draws_length E (N.to_nat (p_m (st_params st))) g5) as Hrho.
  destruct (draws (N.to_nat (p_m (st_params st))) g5) as [rho g6] eqn:E6. cbn [fst] in Hrho.
  pose proof (@draws_length E (N.to_nat (p_m (st_params st))) g6) as Hrho1.
  destruct (draws (N.to_nat (p_m (st_params st))) g6) as [rho1 g7] eqn:E7. cbn [fst] in Hrho1.
  rewrite p_vector_spec by (assumption || lia). cbn [obind].
  rewrite (X_vector_spec L _ _ _ _ _ (N.to_nat (p_m (st_params st)))).
  2:{ rewrite map_length, seq_length, (good_len_nat _ Hg), <- pow_nat_N, N2Nat.id. reflexivity. }
  2:{ intros row Hrow. apply in_map_iff in Hrow. destruct Hrow as (k & <- & _).
      destruct (poly_position (p_n (st_params st)) (N.to_nat (p_m (st_params st))) (mat (map balance a))
        (mat (mkmat (N.to_nat (p_m (st_params st))) (N.to_nat (p_n (st_params st))) (sigma_at (p_n (st_params st)) (w_l w)))) k) as [Hlen _].
      rewrite Hlen. lia. }
  2:{ exact Hrho. }
  cbn [obind]. rewrite (X1_vector_spec _ _ _ _ _ _ (N.to_nat (p_m (st_params st)))).
  2:{ rewrite map_length, seq_length, (gs_len1 _ Hg), (good_len_nat _ Hg), <- pow_nat_N, N2Nat.id. reflexivity. }
  2:{ intros row Hrow. apply in_map_iff in Hrow. destruct Hrow as (k & <- & _).
      destruct (poly_position (p_n (st_params st)) (N.to_nat (p_m (st_params st))) (mat (map balance a))
        (mat (mkmat (N.to_nat (p_m (st_params st))) (N.to_nat (p_n (st_params st))) (sigma_at (p_n (st_params st)) (w_l w)))) k) as [Hlen _].
      rewrite Hlen. lia. }
  2:{ exact Hrho1. }
  cbn [obind]. unfold honest_fm, honest_proof, st_get_params, st_get_input_set, st_get_J, st_get_offset, get_keys, get_auxiliary_keys, get_m, get_n, get_G, get_G1, get_CommitmentG, get_CommitmentH.
  cbn [pf_A pf_B pf_C pf_D pf_X pf_X1 pf_Y c_r_A c_a c_r_B c_r_C c_r_D c_rho c_rho1].
  f_equal. f_equal.
  - rewrite mkmat_mat by exact Hb'. reflexivity.
  - f_equal. apply mkmat_ext. intros j i Hj Hi. rewrite mat_mkmat by assumption. rewrite s2_eq. reflexivity.
  - f_equal. apply mkmat_ext. intros j i Hj Hi. ring.
  - apply map_ext_in. intros j Hj. f_equal. f_equal. rewrite map_map.
    rewrite (good_len_nat _ Hg), <- pow_nat_N, N2Nat.id.
    apply map_ext. intros k. f_equal. f_equal. unfold position_factors. apply map_ext_in. intros i Hi. apply in_seq in Hi.
    f_equal. apply mat_mkmat; [lia|].
    pose proof (gray_digit_lt (p_n (st_params st)) (N.of_nat k) i ltac:(lia)). lia.
  - apply map_ext_in. intros j Hj. f_equal. f_equal. rewrite map_map.
    rewrite (good_len_nat _ Hg), <- pow_nat_N, N2Nat.id.
    apply map_ext. intros k. f_equal. f_equal. unfold position_factors. apply map_ext_in. intros i Hi. apply in_seq in Hi.
    f_equal. apply mat_mkmat; [lia|].
    pose proof (gray_digit_lt (p_n (st_params st)) (N.of_nat k) i ltac:(lia)). lia.
  - rewrite (map_seq_nth (fun rh => pmul E rh (st_J st)) rho), Hrho. reflexivity.
Qed.

(** * The whole prover *)

Lemma honest_first_message (st : statement E) l r r1 c xi r' r1' xi' t :
  fs_transcript t st (honest_proof st l r r1 c xi) = fs_transcript t st (honest_proof st l r' r1' c xi').
Proof. reflexivity. Qed.

Definition honest_challenge (t : transcript) (st : statement E) (l : N) (c : coins) : scalar :=
  challenge t st (honest_proof st l s0 s0 c s0).

Lemma coins_shape n m g : shape m n (c_a (read_coins (E := E) n m g)) /\ length (c_rho (read_coins (E := E) n m g)) = m /\
  length (c_rho1 (read_coins (E := E) n m g)) = m.
Proof.
  unfold read_coins. destruct (draw g) as [r_A g1].
  pose proof (@draw_rows_shape E m n g1) as Ha. destruct (draw_rows m n g1) as [a g2]. cbn [fst] in Ha.
  destruct (draw g2) as [r_B g3]. destruct (draw g3) as [r_C g4]. destruct (draw g4) as [r_D g5].
  pose proof (@draws_length E m g5) as Hrho. destruct (draws m g5) as [rho g6]. cbn [fst] in Hrho.
  pose proof (@draws_length E m g6) as Hrho1. destruct (draws m g6) as [rho1 g7]. cbn [fst] in Hrho1.
  cbn [c_a c_rho c_rho1]. auto.
Qed.

Lemma prove_response_spec (st : statement E) l r r1 c xi : good_statement st ->
  shape (N.to_nat (p_m (st_params st))) (N.to_nat (p_n (st_params st))) (c_a c) ->
  length (c_rho c) = N.to_nat (p_m (st_params st)) ->
  length (c_rho1 c) = N.to_nat (p_m (st_params st)) ->
  prove_response (st_params st) r r1 (honest_fm st l c) (powers xi (S (N.to_nat (p_m (st_params st))))) = Ok (honest_proof st l r r1 c xi).
Proof.
  intros Hg Ha Hrho Hrho1. pose proof (gs_params st Hg) as Hp. pose proof (gp_n _ Hp) as Hn. pose proof (gp_m _ Hp) as Hm.
  pose proof (balance_shape _ _ _ Ha) as Hb.
  pose proof (mkmat_shape (N.to_nat (p_m (st_params st))) (N.to_nat (p_n (st_params st))) (sigma_at (p_n (st_params st)) l)) as Hs.
  unfold prove_response, get_n, get_m. cbn [fm_a fm_sigma fm_r_A fm_r_B fm_r_C fm_r_D fm_rho fm_rho1 honest_fm].
  rewrite f_matrix_spec by (assumption || lia). cbn [obind].
  assert (Hx : @index proof_error _ (powers xi (S (N.to_nat (p_m (st_params st))))) 1 = Ok xi).
  { apply index_Ok. rewrite powers_nth by lia. cbn [spow]. f_equal. ring. }
  rewrite Hx. cbn [obind]. rewrite z_response_spec by exact Hrho. cbn [obind].
  rewrite z_response_spec by exact Hrho1. cbn [obind].
  f_equal. unfold honest_proof, st_get_params, st_get_input_set, st_get_J, get_n, get_m.
  cbn [fm_A fm_B fm_C fm_D fm_X fm_X1 fm_Y honest_fm honest_proof pf_A pf_B pf_C pf_D pf_X pf_X1 pf_Y].
  f_equal. apply mkmat_ext. intros j i Hj Hi. rewrite mat_mkmat by lia. reflexivity.
Qed.

Lemma prove_internal_ok {R} (ro : rng_ops R) (w : witness E) (st : statement E) rng t tm :
  good_statement st -> (w_l w < get_N (w_params w))%N -> prove_checks tm w st = Ok tt ->
  w_params w = st_params st ->
  let seed := fst (rng_fill ro rng 32) in
  let rng1 := snd (rng_fill ro rng 32) in
  let c := read_coins (E := E) (N.to_nat (p_n (st_params st))) (N.to_nat (p_m (st_params st))) (prover_rng t st w seed) in
  let xi := honest_challenge t st (w_l w) c in
  prove_internal ro w st rng t tm =
  (if seqb xi s0 then Err InvalidChallenge else Ok (honest_proof st (w_l w) (w_r w) (w_r1 w) c xi),
   prover_transcript t st (honest_proof st (w_l w) s0 s0 c s0),
   snd (rng_fill ro rng1 32)).
Proof.
  intros Hg Hl Hc Hpp seed rng1 c xi. pose proof (gs_params st Hg) as Hp. pose proof (gp_m _ Hp) as Hm.
  unfold prove_internal. rewrite Hc. unfold pt_new, build_transcript_rng, finalize_rng.
  destruct (rng_fill ro rng 32) as [seed' rng1'] eqn:Hf. cbn [fst snd] in seed, rng1.
  rewrite Hpp in Hl. rewrite prove_first_message_spec by assumption.
  assert (Hrng : mk_trng (pt_init t (st_get_hash st)) [(b_ "l", le_bytes 4 (w_get_l w)); (b_ "r", scalar_to_bytes (w_get_r w)); (b_ "r1", scalar_to_bytes (w_get_r1 w))] seed' []
                 = prover_rng t st w seed).
  { unfold prover_rng, pt_init, append_u64, append_message, VERSION, TRANSCRIPT_PARALLEL_PROOF. rewrite <- !app_assoc. reflexivity. }
  rewrite Hrng. fold c.
  destruct (coins_shape (N.to_nat (p_n (st_params st))) (N.to_nat (p_m (st_params st))) (prover_rng t st w seed)) as (Ha & Hrho & Hrho1).
  fold c in Ha, Hrho, Hrho1.
  unfold pt_commit, build_transcript_rng, finalize_rng. cbn [fm_A fm_B fm_C fm_D fm_X fm_X1 fm_Y honest_fm].
  rewrite fs_transcript_spec. destruct (rng_fill ro rng1' 32) as [seed2 rng2] eqn:Hf2.
  unfold challenge_bytes.
  change (scalar_from_wide (prf E (fs_transcript t st (honest_proof st (w_l w) s0 s0 c s0)) (b_ "xi") 64)) with xi.
  unfold st_get_params, get_m, w_get_r, w_get_r1.
  unfold rng1. rewrite Hf2. cbn [snd].
  destruct (seqb xi s0) eqn:Hx.
  - apply seqb_eq in Hx. pose proof (good_m_u32 _ Hp). rewrite Hx, challenge_powers_zero by (assumption || lia). reflexivity.
  - rewrite challenge_powers_ok.
    + cbn [obind]. rewrite prove_response_spec by assumption. reflexivity.
    + apply good_m_u32; assumption.
    + intros He. rewrite He, seqb_refl in Hx. discriminate.
Qed.

End ProverFacts.
