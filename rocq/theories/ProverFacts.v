(** The prover: closed form of its output, no panics, and the verification equations of an honest proof. *)
From Verif Require Export CoreProver PlainFacts.

Lemma s2_eq : s2 = (s1 + s1)%sc.
Proof. apply scalar_ext. reflexivity. Qed.

Section ProverFacts.
Context {E : env} (L : env_laws E).

Lemma params_eqb_eq (p q : params E) : params_eqb p q = true <-> p = q.
Proof.
  destruct p as [n m G U CG CH h], q as [n' m' G' U' CG' CH' h']. unfold params_eqb.
  cbn [p_n p_m p_G p_U p_CommitmentG p_CommitmentH p_hash].
  assert (Hpts : forall a b : list (pt E), pts_eqb a b = true <-> a = b).
  { induction a as [|x a IH]; intros [|y b]; cbn [pts_eqb]; split; intros H; try reflexivity; try discriminate.
    - apply andb_true_iff in H. destruct H as [H1 H2]. apply (peqb_eq E L) in H1. apply IH in H2. subst. reflexivity.
    - injection H as <- <-. apply andb_true_iff. split; [apply (peqb_eq E L); reflexivity|apply IH; reflexivity]. }
  rewrite !andb_true_iff, !N.eqb_eq, !(peqb_eq E L), Hpts, bytes_eqb_eq.
  split.
  - intros ((((((-> & ->) & ->) & ->) & ->) & ->) & ->). reflexivity.
  - intros H. injection H as -> -> -> -> -> -> ->. repeat split.
Qed.

(** * The checks *)

Lemma prove_checks_cases tm (w : witness E) (st : statement E) : good_statement st -> (w_l w < get_N (w_params w))%N ->
  (w_params w = st_params st /\ relation st (w_l w) (w_r w) /\ prove_checks tm w st = Ok tt) \/
  (w_params w <> st_params st /\
   prove_checks tm w st = Err (InvalidParameter "witness and statement parameters did not match")) \/
  (w_params w = st_params st /\
   nth_error (is_M (st_input_set st)) (N.to_nat (w_l w)) <> Some (pmul E (w_r w) (p_G (st_params st))) /\
   prove_checks tm w st = Err (InvalidParameter "`M[l] != r * G`")) \/
  (w_params w = st_params st /\
   nth_error (is_M (st_input_set st)) (N.to_nat (w_l w)) = Some (pmul E (w_r w) (p_G (st_params st))) /\
   pmul E (w_r w) (st_J st) <> p_U (st_params st) /\
   prove_checks tm w st = Err (InvalidParameter "`r * J != U`")).
Proof.
  intros Hg Hlt. unfold prove_checks, relation, w_get_params, w_get_l, w_get_r, st_get_params, st_get_input_set, st_get_J, get_keys, get_G, get_U.
  destruct (params_eqb (w_params w) (st_params st)) eqn:Hp; cbn [negb].
  2:{ right; left. split; [|reflexivity]. intros He. apply params_eqb_eq in He. congruence. }
  apply params_eqb_eq in Hp. rewrite Hp, <- (gs_len st Hg) in Hlt.
  assert (Hl : (N.to_nat (w_l w) < length (is_M (st_input_set st)))%nat) by lia.
  rewrite select_key_spec by exact Hl. cbn [obind].
  rewrite (nth_error_nth' _ (pid E) Hl).
  destruct (peqb E (nth (N.to_nat (w_l w)) _ _) _) eqn:H1; cbn [negb].
  2:{ right; right; left. split; [exact Hp|]. split; [|reflexivity]. intros He. injection He as He.
      apply (peqb_eq E L) in He. congruence. }
  apply (peqb_eq E L) in H1. rewrite H1.
  destruct (peqb E (pmul E (w_r w) (st_J st)) _) eqn:H2; cbn [negb].
  2:{ right; right; right. repeat split; try assumption. intros He. apply (peqb_eq E L) in He. congruence. }
  apply (peqb_eq E L) in H2. left. repeat split; assumption.
Qed.

(** * The first message *)

Definition honest_fm (st : statement E) (l : N) (c : coins) : first_message E :=
  let pf := honest_proof st l s0 c s0 in
  mk_fm (pf_A pf) (pf_B pf) (pf_C pf) (pf_D pf) (pf_X pf) (pf_Y pf)
    (map balance (c_a c)) (mkmat (N.to_nat (p_m (st_params st))) (N.to_nat (p_n (st_params st))) (sigma_at (p_n (st_params st)) l))
    (c_r_A c) (c_r_B c) (c_r_C c) (c_r_D c) (c_rho c).

Lemma map_seq_nth {A} (h : scalar -> A) (l : list scalar) : map h l = map (fun j => h (nth j l s0)) (seq 0 (length l)).
Proof. rewrite <- (map_map (fun j => nth j l s0) h), map_nth_seq. reflexivity. Qed.

Lemma prove_first_message_spec tm (w : witness E) (st : statement E) g : good_statement st ->
  (w_l w < get_N (st_params st))%N ->
  prove_first_message tm w st g =
  Ok (honest_fm st (w_l w) (read_coins (E := E) (N.to_nat (p_n (st_params st))) (N.to_nat (p_m (st_params st))) g)).
Proof.
  intros Hg Hl. pose proof (gs_params st Hg) as Hp. pose proof (gp_n _ Hp) as Hn. pose proof (gp_m _ Hp) as Hm.
  pose proof (gp_pow _ Hp) as Hb. pose proof (gp_CG _ Hp) as HCG. rewrite (good_N _ Hp) in Hl.
  unfold prove_first_message, read_coins, w_get_l, st_get_params, st_get_input_set, st_get_J, get_keys, get_m, get_n, get_G.
  destruct (draw g) as [r_A g1] eqn:E1.
  pose proof (@draw_rows_shape E (N.to_nat (p_m (st_params st))) (N.to_nat (p_n (st_params st))) g1) as Ha.
  destruct (draw_rows (N.to_nat (p_m (st_params st))) (N.to_nat (p_n (st_params st))) g1) as [a g2] eqn:E2. cbn [fst] in Ha.
  pose proof (balance_shape _ _ _ Ha) as Hb'.
  rewrite (balance_rows _ (N.to_nat (p_n (st_params st))) a ltac:(lia) Ha). cbn [obind]. unfold commit_matrix.
  rewrite (commit_matrix_spec L) by assumption. cbn [omap_err obind].
  destruct (draw g2) as [r_B g3] eqn:E3.
  rewrite decompose_index_spec by (assumption || lia). cbn [obind].
  rewrite sigma_matrix_spec. cbn [obind].
  pose proof (mkmat_shape (N.to_nat (p_m (st_params st))) (N.to_nat (p_n (st_params st))) (sigma_at (p_n (st_params st)) (w_l w))) as Hs.
  rewrite (commit_matrix_spec L) by assumption. cbn [omap_err obind].
  destruct (draw g3) as [r_C g4] eqn:E4.
  rewrite a_sigma_spec by assumption. cbn [obind].
  rewrite (commit_matrix_spec L) by (apply mkmat_shape || assumption). cbn [omap_err obind].
  destruct (draw g4) as [r_D g5] eqn:E5.
  rewrite a_square_spec by assumption. cbn [obind].
  rewrite (commit_matrix_spec L) by (apply mkmat_shape || assumption). cbn [omap_err obind].
  pose proof (@draws_length E (N.to_nat (p_m (st_params st))) g5) as Hrho.
  destruct (draws (N.to_nat (p_m (st_params st))) g5) as [rho g6] eqn:E6. cbn [fst] in Hrho.
  rewrite p_vector_spec by (assumption || lia). cbn [obind].
  rewrite (X_vector_spec L _ _ _ _ _ (N.to_nat (p_m (st_params st)))).
  2:{ rewrite map_length, seq_length, (good_len_nat _ Hg), <- pow_nat_N, N2Nat.id. reflexivity. }
  2:{ intros row Hrow. apply in_map_iff in Hrow. destruct Hrow as (k & <- & _).
      destruct (poly_position (p_n (st_params st)) (N.to_nat (p_m (st_params st))) (mat (map balance a))
        (mat (mkmat (N.to_nat (p_m (st_params st))) (N.to_nat (p_n (st_params st))) (sigma_at (p_n (st_params st)) (w_l w)))) k) as [Hlen _].
      rewrite Hlen. lia. }
  2:{ exact Hrho. }
  cbn [obind]. unfold honest_fm, honest_proof, st_get_params, st_get_input_set, st_get_J, get_keys, get_m, get_n, get_G, get_CommitmentG, get_CommitmentH.
  cbn [pf_A pf_B pf_C pf_D pf_X pf_Y c_r_A c_a c_r_B c_r_C c_r_D c_rho].
  f_equal. f_equal.
  - rewrite mkmat_mat by exact Hb'. reflexivity.
  - f_equal. apply mkmat_ext. intros j i Hj Hi. rewrite mat_mkmat by assumption. rewrite s2_eq. reflexivity.
  - f_equal. apply mkmat_ext. intros j i Hj Hi. ring.
  - apply map_ext_in. intros j Hj. f_equal. f_equal. rewrite map_map.
    rewrite (good_len_nat _ Hg), <- pow_nat_N, N2Nat.id.
    apply map_ext. intros k. f_equal. f_equal. unfold position_factors. apply map_ext_in. intros i Hi. apply in_seq in Hi.
    f_equal. apply mat_mkmat; [lia|].
    pose proof (gray_digit_lt (p_n (st_params st)) (N.of_nat k) i ltac:(lia)). lia.
  - rewrite (map_seq_nth (fun rh => pmul E rh (st_J st)) rho), Hrho. reflexivity.
Qed.

(** * The whole prover *)

Lemma honest_first_message (st : statement E) l r c xi r' xi' t :
  fs_transcript t st (honest_proof st l r c xi) = fs_transcript t st (honest_proof st l r' c xi').
Proof. reflexivity. Qed.

Definition honest_challenge (t : transcript) (st : statement E) (l : N) (c : coins) : scalar :=
  challenge t st (honest_proof st l s0 c s0).

Lemma coins_shape n m g : shape m n (c_a (read_coins (E := E) n m g)) /\ length (c_rho (read_coins (E := E) n m g)) = m.
Proof.
  unfold read_coins. destruct (draw g) as [r_A g1].
  pose proof (@draw_rows_shape E m n g1) as Ha. destruct (draw_rows m n g1) as [a g2]. cbn [fst] in Ha.
  destruct (draw g2) as [r_B g3]. destruct (draw g3) as [r_C g4]. destruct (draw g4) as [r_D g5].
  pose proof (@draws_length E m g5) as Hrho. destruct (draws m g5) as [rho g6]. cbn [fst] in Hrho.
  cbn [c_a c_rho]. auto.
Qed.

Lemma prove_response_spec (st : statement E) l r c xi : good_statement st ->
  shape (N.to_nat (p_m (st_params st))) (N.to_nat (p_n (st_params st))) (c_a c) ->
  length (c_rho c) = N.to_nat (p_m (st_params st)) ->
  prove_response (st_params st) r (honest_fm st l c) (powers xi (S (N.to_nat (p_m (st_params st))))) = Ok (honest_proof st l r c xi).
Proof.
  intros Hg Ha Hrho. pose proof (gs_params st Hg) as Hp. pose proof (gp_n _ Hp) as Hn. pose proof (gp_m _ Hp) as Hm.
  pose proof (balance_shape _ _ _ Ha) as Hb.
  pose proof (mkmat_shape (N.to_nat (p_m (st_params st))) (N.to_nat (p_n (st_params st))) (sigma_at (p_n (st_params st)) l)) as Hs.
  unfold prove_response, get_n, get_m. cbn [fm_a fm_sigma fm_r_A fm_r_B fm_r_C fm_r_D fm_rho honest_fm].
  rewrite f_matrix_spec by (assumption || lia). cbn [obind].
  assert (Hx : @index proof_error _ (powers xi (S (N.to_nat (p_m (st_params st))))) 1 = Ok xi).
  { apply index_Ok. rewrite powers_nth by lia. cbn [spow]. f_equal. ring. }
  rewrite Hx. cbn [obind]. rewrite z_response_spec by exact Hrho. cbn [obind].
  f_equal. unfold honest_proof, st_get_params, st_get_input_set, st_get_J, get_n, get_m.
  cbn [fm_A fm_B fm_C fm_D fm_X fm_Y honest_fm honest_proof pf_A pf_B pf_C pf_D pf_X pf_Y].
  f_equal. apply mkmat_ext. intros j i Hj Hi. rewrite mat_mkmat by lia. reflexivity.
Qed.

Lemma prove_internal_ok {R} (ro : rng_ops R) (w : witness E) (st : statement E) rng t tm :
  good_statement st -> (w_l w < get_N (w_params w))%N -> prove_checks tm w st = Ok tt ->
  w_params w = st_params st ->
  let seed := fst (rng_fill ro rng 32) in
  let rng1 := snd (rng_fill ro rng 32) in
  let c := read_coins (E := E) (N.to_nat (p_n (st_params st))) (N.to_nat (p_m (st_params st))) (prover_rng t st w seed) in
  let xi := honest_challenge t st (w_l w) c in
  prove_internal ro w st rng t tm =
  (if seqb xi s0 then Err InvalidChallenge else Ok (honest_proof st (w_l w) (w_r w) c xi),
   prover_transcript t st (honest_proof st (w_l w) s0 c s0),
   snd (rng_fill ro rng1 32)).
Proof.
  intros Hg Hl Hc Hpp seed rng1 c xi. pose proof (gs_params st Hg) as Hp. pose proof (gp_m _ Hp) as Hm.
  unfold prove_internal. rewrite Hc. unfold pt_new, build_transcript_rng, finalize_rng.
  destruct (rng_fill ro rng 32) as [seed' rng1'] eqn:Hf. cbn [fst snd] in seed, rng1.
  rewrite Hpp in Hl. rewrite prove_first_message_spec by assumption.
  assert (Hrng : mk_trng (pt_init t (st_get_hash st)) [(b_ "l", le_bytes 4 (w_get_l w)); (b_ "r", scalar_to_bytes (w_get_r w))] seed' []
                 = prover_rng t st w seed).
  { unfold prover_rng, pt_init, append_u64, append_message, VERSION, TRANSCRIPT_PROOF. rewrite <- !app_assoc. reflexivity. }
  rewrite Hrng. fold c.
  destruct (coins_shape (N.to_nat (p_n (st_params st))) (N.to_nat (p_m (st_params st))) (prover_rng t st w seed)) as [Ha Hrho].
  fold c in Ha, Hrho.
  unfold pt_commit, build_transcript_rng, finalize_rng. cbn [fm_A fm_B fm_C fm_D fm_X fm_Y honest_fm].
  rewrite fs_transcript_spec. destruct (rng_fill ro rng1' 32) as [seed2 rng2] eqn:Hf2.
  unfold challenge_bytes.
  change (scalar_from_wide (prf E (fs_transcript t st (honest_proof st (w_l w) s0 c s0)) (b_ "xi") 64)) with xi.
  unfold st_get_params, get_m, w_get_r.
  unfold rng1. rewrite Hf2. cbn [snd].
  destruct (seqb xi s0) eqn:Hx.
  - apply seqb_eq in Hx. pose proof (good_m_u32 _ Hp). rewrite Hx, challenge_powers_zero by (assumption || lia). reflexivity.
  - rewrite challenge_powers_ok.
    + cbn [obind]. rewrite prove_response_spec by assumption. reflexivity.
    + apply good_m_u32; assumption.
    + intros He. rewrite He, seqb_refl in Hx. discriminate.
Qed.

End ProverFacts.
