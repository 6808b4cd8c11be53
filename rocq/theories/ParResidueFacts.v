(** The prover that keeps its variables is the prover, and what it keeps in closed form. *)
From Verif Require Export ParResidue ParSpec ParProverFacts ParProverApi.
From Verif Require Import Algebra.

Section ResidueFacts.
Context {E : env} (L : env_laws E).

Definition omap {A B} (f : A -> B) (x : outcome proof_error A) : outcome proof_error B := let* a := x in Ok (f a).

Lemma omap_bind {A B C} (f : B -> C) (x : outcome proof_error A) (k : A -> outcome proof_error B) :
  omap f (let* a := x in k a) = let* a := x in omap f (k a).
Proof. destruct x; reflexivity. Qed.

Lemma obind_ext {A B} (x : outcome proof_error A) (k k' : A -> outcome proof_error B) :
  (forall a, k a = k' a) -> obind x k = obind x k'.
Proof. intros H. destruct x; cbn [obind]; auto. Qed.

Lemma first_message_erase tm (w : witness E) (st : statement E) g :
  omap fst (prove_first_message_left tm w st g) = prove_first_message tm w st g.
Proof.
  unfold prove_first_message_left, prove_first_message.
  destruct (draw g) as [r_A g1]. destruct (draw_rows _ _ g1) as [a g2].
  rewrite omap_bind. apply obind_ext. intros a'.
  rewrite omap_bind. apply obind_ext. intros A. destruct (draw g2) as [r_B g3].
  rewrite omap_bind. apply obind_ext. intros ds.
  rewrite omap_bind. apply obind_ext. intros sigma.
  rewrite omap_bind. apply obind_ext. intros B. destruct (draw g3) as [r_C g4].
  rewrite omap_bind. apply obind_ext. intros a_sigma.
  rewrite omap_bind. apply obind_ext. intros C. destruct (draw g4) as [r_D g5].
  rewrite omap_bind. apply obind_ext. intros a_square.
  rewrite omap_bind. apply obind_ext. intros D. destruct (draws _ g5) as [rho g6]. destruct (draws _ g6) as [rho1 g7].
  rewrite omap_bind. apply obind_ext. intros pv.
  rewrite omap_bind. apply obind_ext. intros X.
  rewrite omap_bind. apply obind_ext. intros X1. reflexivity.
Qed.

Lemma prove_erase {R} (ro : rng_ops R) (w : witness E) (st : statement E) rng t tm :
  (omap fst (fst (fst (prove_left ro w st rng t tm))), snd (fst (prove_left ro w st rng t tm)), snd (prove_left ro w st rng t tm))
  = prove_internal ro w st rng t tm.
Proof.
  unfold prove_left, prove_internal. destruct (prove_checks tm w st) as [[]|e| |]; try reflexivity.
  destruct (pt_new ro t st rng (Some w)) as [[t1 g] rng1].
  rewrite <- (first_message_erase tm w st g).
  destruct (prove_first_message_left tm w st g) as [[fm res]|e| |]; try reflexivity. cbn [omap obind fst].
  destruct (pt_commit _ _ _ _ _ _ _ _ _ _ _ _) as [[[powers t2] g2] rng2]. cbn [fst snd]. f_equal. f_equal.
  rewrite omap_bind. destruct powers as [pw|e| |]; try reflexivity. cbn [obind]. rewrite omap_bind.
  destruct (prove_response _ _ _ _ _) as [pf|e| |]; reflexivity.
Qed.

(** What is kept: a function of the index and of the coins other than [rho] and [rho1]. *)
Definition unwiped (st : statement E) (l : N) (c : coins) : residue :=
  let p := st_get_params st in
  let n := N.to_nat (get_n p) in
  let m := N.to_nat (get_m p) in
  let a := map balance (c_a c) in
  let sigma := mkmat m n (sigma_at (get_n p) l) in
  mk_residue (c_r_A c) a (c_r_B c) (gray_code (get_n p) m l) sigma
    (c_r_C c) (mkmat m n (fun j i => mat a j i * (s1 - s2 * mat sigma j i))%sc)
    (c_r_D c) (mkmat m n (fun j i => (- mat a j i) * mat a j i)%sc)
    (map (fun k => poly_prod (position_factors (get_n p) m (mat a) (mat sigma) k)) (seq 0 (N.to_nat (get_n p ^ get_m p)))).

Lemma first_message_left tm (w : witness E) (st : statement E) g fm res : good_statement st -> (w_l w < get_N (st_params st))%N ->
  prove_first_message_left tm w st g = Ok (fm, res) ->
  res = unwiped st (w_l w) (read_coins (E := E) (N.to_nat (p_n (st_params st))) (N.to_nat (p_m (st_params st))) g).
Proof.
  intros Hg Hl. pose proof (gs_params st Hg) as Hp. pose proof (gp_n _ Hp) as Hn. pose proof (gp_m _ Hp) as Hm.
  pose proof (gp_pow _ Hp) as Hb. pose proof (gp_CG _ Hp) as HCG. rewrite (good_N _ Hp) in Hl.
  unfold prove_first_message_left, read_coins, unwiped, w_get_l, st_get_params, st_get_input_set, st_get_J, st_get_offset, get_keys, get_auxiliary_keys, get_m, get_n, get_G, get_G1.
  destruct (draw g) as [r_A g1] eqn:E1.
  pose proof (@draw_rows_shape E (N.to_nat (p_m (st_params st))) (N.to_nat (p_n (st_params st))) g1) as Ha.
  destruct (draw_rows (N.to_nat (p_m (st_params st))) (N.to_nat (p_n (st_params st))) g1) as [a g2] eqn:E2. cbn [fst] in Ha.
  pose proof (balance_shape _ _ _ Ha) as Hb'.
  rewrite (balance_rows _ (N.to_nat (p_n (st_params st))) a ltac:(lia) Ha). cbn [obind]. unfold commit_matrix.
  rewrite (commit_matrix_spec L) by assumption. cbn [omap_err obind].
  destruct (draw g2) as [r_B g3] eqn:E3.
  rewrite decompose_index_spec by (assumption || lia). cbn [obind].
  rewrite sigma_matrix_spec. cbn [obind].
  pose proof (mkmat_shape (N.to_nat (p_m (st_params st))) (N.to_nat (p_n (st_params st))) (sigma_at (p_n (st_params st)) (w_l w))) as Hs.
  rewrite (commit_matrix_spec L) by assumption. cbn [omap_err obind].
  destruct (draw g3) as [r_C g4] eqn:E4.
  rewrite a_sigma_spec by assumption. cbn [obind].
  rewrite (commit_matrix_spec L) by (apply mkmat_shape || assumption). cbn [omap_err obind].
  destruct (draw g4) as [r_D g5] eqn:E5.
  rewrite a_square_spec by assumption. cbn [obind].
  rewrite (commit_matrix_spec L) by (apply mkmat_shape || assumption). cbn [omap_err obind].
  destruct (draws (N.to_nat (p_m (st_params st))) g5) as [rho g6] eqn:E6.
  destruct (draws (N.to_nat (p_m (st_params st))) g6) as [rho1 g7] eqn:E7.
  rewrite p_vector_spec by (assumption || lia). cbn [obind].
  destruct (X_vector _ _ _ _ _) as [X|e| |]; cbn [obind]; try discriminate.
  destruct (X1_vector _ _ _ _ _ _) as [X1|e| |]; cbn [obind]; try discriminate.
  intros H. injection H as _ <-. reflexivity.
Qed.

Lemma prove_left_unwiped {R} (ro : rng_ops R) (w : witness E) (st : statement E) rng t tm pf res t' rng' :
  made_witness w -> made_statement st -> prove_left ro w st rng t tm = (Ok (pf, res), t', rng') ->
  res = unwiped st (w_get_l w) (prover_coins t st w (fst (rng_fill ro rng 32))).
Proof.
  intros Hw Hst H. pose proof (made_statement_good L st Hst) as Hg. destruct (made_witness_index w Hw) as [_ Hl].
  unfold prove_left in H. destruct (prove_checks tm w st) as [u|e| |] eqn:Hc; try discriminate H.
  destruct (prove_checks_cases L tm w st Hg Hl) as [(H1 & H2 & H3)|[(H1 & H3)|[(H1 & H2 & H3)|[(H1 & H2 & H2' & H3)|(H1 & H2 & H2' & H2'' & H3)]]]];
    try (rewrite H3 in Hc; discriminate Hc).
  rewrite H1 in Hl. unfold pt_new, build_transcript_rng, finalize_rng in H.
  destruct (rng_fill ro rng 32) as [seed rng1] eqn:Hf. cbn [fst].
  assert (Hrng : mk_trng (pt_init t (st_get_hash st)) [(b_ "l", le_bytes 4 (w_get_l w)); (b_ "r", scalar_to_bytes (w_get_r w)); (b_ "r1", scalar_to_bytes (w_get_r1 w))] seed []
                 = prover_rng t st w seed).
  { unfold prover_rng, pt_init, append_u64, append_message, VERSION, TRANSCRIPT_PARALLEL_PROOF. rewrite <- !app_assoc. reflexivity. }
  rewrite Hrng in H.
  destruct (prove_first_message_left tm w st (prover_rng t st w seed)) as [[fm res']|e| |] eqn:Hm; try discriminate H.
  apply (first_message_left tm w st _ _ _ Hg Hl) in Hm.
  destruct (pt_commit _ _ _ _ _ _ _ _ _ _ _ _) as [[[pw t2] g2] rng2].
  destruct pw as [pw|e| |]; try discriminate H. cbn [obind] in H.
  destruct (prove_response _ _ _ _ _) as [pf'|e| |]; try discriminate H. cbn [obind] in H.
  injection H as _ H _ _. rewrite <- H. exact Hm.
Qed.

End ResidueFacts.
