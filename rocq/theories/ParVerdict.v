(** Fuel does not matter, and what the parallel verifiers return. *)
From Verif Require Export ParCompleteness.

Section Verdict.
Context {E : env}.

(** * Fuel monotonicity *)

Lemma weights_loop_mono f : forall g w1 w2 w3 w4 w5 f', (f <= f')%nat ->
  weights_loop (E := E) f g w1 w2 w3 w4 w5 <> OutOfFuel ->
  weights_loop (E := E) f' g w1 w2 w3 w4 w5 = weights_loop (E := E) f g w1 w2 w3 w4 w5.
Proof.
  induction f as [|f IH]; intros g w1 w2 w3 w4 w5 f' Hle H.
  - cbn [weights_loop] in *. destruct (_ || _) eqn:Hz; [congruence|]. destruct f'; cbn [weights_loop]; rewrite Hz; reflexivity.
  - destruct f' as [|f']; [lia|]. cbn [weights_loop] in *. destruct (_ || _); [|reflexivity].
    destruct (draw g) as [v1 g1]. destruct (draw g1) as [v2 g2]. destruct (draw g2) as [v3 g3]. destruct (draw g3) as [v4 g4]. destruct (draw g4) as [v5 g5].
    apply IH; [lia|exact H].
Qed.

Lemma process_proof_mono f f' (p : params E) pf xp g ac : (f <= f')%nat ->
  process_proof f p pf xp g ac <> OutOfFuel -> process_proof f' p pf xp g ac = process_proof f p pf xp g ac.
Proof.
  intros Hle H. unfold process_proof in *. destruct (f_full _ _ _) as [ff|?| |]; cbn [obind] in *; try reflexivity.
  destruct (contains_zero ff); [reflexivity|].
  destruct (weights_loop f g s0 s0 s0 s0 s0) as [q|?| |] eqn:Hw; cbn [obind] in *; try congruence;
    rewrite (weights_loop_mono f g s0 s0 s0 s0 s0 f' Hle) by congruence; rewrite Hw; reflexivity.
Qed.

Lemma process_all_mono f f' (p : params E) : (f <= f')%nat -> forall pfs xps g ac,
  process_all f p pfs xps g ac <> OutOfFuel -> process_all f' p pfs xps g ac = process_all f p pfs xps g ac.
Proof.
  intros Hle. induction pfs as [|pf pfs IH]; intros xps g ac H; [reflexivity|].
  destruct xps as [|xp xps]; [reflexivity|]. cbn [process_all] in *.
  destruct (process_proof f p pf xp g ac) as [[g1 ac1]|?| |] eqn:Hp; cbn [obind] in *; try congruence;
    rewrite (process_proof_mono f f' p pf xp g ac Hle) by congruence; rewrite Hp; cbn [obind]; try reflexivity.
  apply IH. exact H.
Qed.

Lemma verify_batch_mono f f' md (sts : list (statement E)) pfs ts : (f <= f')%nat ->
  fst (verify_batch f md sts pfs ts) <> OutOfFuel -> verify_batch f' md sts pfs ts = verify_batch f md sts pfs ts.
Proof.
  intros Hle H. unfold verify_batch in *. destruct (batch_checks md sts pfs ts) as [[st0|]|?| |]; try reflexivity.
  destruct (challenge_loop _ _ _ _ _) as [[[xps tw]|?| |] ts1]; cbn [obind fst] in *; try reflexivity.
  destruct (finalize_rng null_rng tw [] tt) as [g u].
  destruct (process_all f _ pfs xps g _) as [ac|?| |] eqn:Hp; cbn [obind] in *; try congruence;
    rewrite (process_all_mono f f' _ Hle) by congruence; rewrite Hp; reflexivity.
Qed.

Lemma verify_batch_det f f' md (sts : list (statement E)) pfs ts r1 ts1 r2 ts2 :
  verify_batch f md sts pfs ts = (r1, ts1) -> r1 <> OutOfFuel ->
  verify_batch f' md sts pfs ts = (r2, ts2) -> r2 <> OutOfFuel -> r1 = r2 /\ ts1 = ts2.
Proof.
  intros H1 N1 H2 N2. destruct (Nat.le_ge_cases f f') as [Hle|Hle].
  - assert (Hm : verify_batch f' md sts pfs ts = verify_batch f md sts pfs ts) by (apply verify_batch_mono; [exact Hle|rewrite H1; exact N1]).
    rewrite Hm, H1 in H2. injection H2 as -> ->. auto.
  - assert (Hm : verify_batch f md sts pfs ts = verify_batch f' md sts pfs ts) by (apply verify_batch_mono; [exact Hle|rewrite H2; exact N2]).
    rewrite Hm, H2 in H1. injection H1 as -> ->. auto.
Qed.

Lemma verify_batch_returns_det md (sts : list (statement E)) pfs ts r1 ts1 r2 ts2 :
  verify_batch_returns md sts pfs ts r1 ts1 -> verify_batch_returns md sts pfs ts r2 ts2 -> r1 = r2 /\ ts1 = ts2.
Proof. intros (f & H1 & N1) (f' & H2 & N2). eapply verify_batch_det; eassumption. Qed.

Lemma verify_as_batch fuel md (pf : proof E) st t : fst (verify fuel md pf st t) = fst (verify_batch fuel md [st] [pf] [t]).
Proof. unfold verify. destruct (verify_batch fuel md [st] [pf] [t]) as [r ts]. reflexivity. Qed.

Lemma verify_mono f f' md (pf : proof E) st t : (f <= f')%nat ->
  fst (verify f md pf st t) <> OutOfFuel -> verify f' md pf st t = verify f md pf st t.
Proof.
  intros Hle H. rewrite verify_as_batch in H. unfold verify. rewrite (verify_batch_mono f f' md _ _ _ Hle H). reflexivity.
Qed.

Lemma verify_returns_det md (pf : proof E) st t r1 t1 r2 t2 :
  verify_returns md pf st t r1 t1 -> verify_returns md pf st t r2 t2 -> r1 = r2 /\ t1 = t2.
Proof.
  intros (f & H1 & N1) (f' & H2 & N2). destruct (Nat.le_ge_cases f f') as [Hle|Hle].
  - rewrite (verify_mono f f') in H2 by (rewrite ?H1; assumption). rewrite H1 in H2. injection H2 as -> ->. auto.
  - rewrite (verify_mono f' f) in H1 by (rewrite ?H2; assumption). rewrite H2 in H1. injection H1 as -> ->. auto.
Qed.

(** * Weights *)

Lemma batch_weights_exist k : weights_terminate (E := E) k -> forall b g, exists ws, batch_weights (E := E) k b g ws.
Proof.
  intros Ht. induction b as [|b IH]; intros g; [exists []; constructor|].
  destruct (Ht g) as (w & g' & Hw). destruct (IH g') as (ws & Hws). exists (w :: ws). econstructor; eassumption.
Qed.

Context (L : env_laws E).

(** * Defects and equations *)

Lemma defects_zero (p : params E) M M1 offset J pf xi : equations p M M1 offset J pf xi <-> Forall (fun d => d = pid E) (defects p M M1 offset J pf xi).
Proof.
  unfold defects. split.
  - intros [H1 H2 H3 H4 H5]. repeat constructor; apply (psub_0 L); assumption.
  - intros H. inversion H as [|d1 l1 H1 R1]; subst. inversion R1 as [|d2 l2 H2 R2]; subst.
    inversion R2 as [|d3 l3 H3 R3]; subst. inversion R3 as [|d4 l4 H4 R4]; subst. inversion R4 as [|d5 l5 H5 R5]; subst.
    constructor; apply (proj1 (psub_0 L _ _)); assumption.
Qed.

Lemma lincomb_all_id ws (ds : list (pt E)) : Forall (fun d => d = pid E) ds -> lincomb ws ds = pid E.
Proof.
  intros H. revert ws. induction H as [|d ds -> Hds IH]; intros ws; [apply lincomb_nil_r|].
  destruct ws as [|w ws]; [reflexivity|]. rewrite lincomb_cons, IH. module L.
Qed.

Lemma psum_all_id (l : list (pt E)) : Forall (fun d => d = pid E) l -> psum l = pid E.
Proof.
  induction 1 as [|d l -> Hl IH]; [reflexivity|]. cbn [psum fold_right]. fold (psum l). rewrite IH. apply (padd_0_l E L).
Qed.

(** The proofs of a batch with their statements and transcripts. *)
Lemma weighted_defects_valid (p : params E) M M1 sts pfs ts ws :
  (forall st pf t, In (st, pf, t) (combine (combine sts pfs) ts) ->
     equations p M M1 (st_get_offset st) (st_get_J st) pf (challenge t st pf)) ->
  weighted_defects p M M1 sts pfs ts ws = pid E.
Proof.
  intros H. unfold weighted_defects. apply psum_all_id. apply Forall_forall. intros d Hd.
  apply in_map_iff in Hd. destruct Hd as ([[[st pf] t] w] & <- & Hin). apply in_combine_l in Hin.
  apply lincomb_all_id. apply defects_zero. apply H. exact Hin.
Qed.

(** * Every way a batch verification can end *)

Lemma verify_batch_lengths fuel md (sts : list (statement E)) pfs ts :
  (length sts <> length pfs ->
   verify_batch fuel md sts pfs ts = (Err (InvalidParameter "number of statements and proofs does not match"), ts)) /\
  (length sts = length pfs -> length sts <> length ts ->
   verify_batch fuel md sts pfs ts = (Err (InvalidParameter "number of statements and transcripts does not match"), ts)).
Proof.
  unfold verify_batch, batch_checks. split.
  - intros H. rewrite (proj2 (Nat.eqb_neq _ _) H). reflexivity.
  - intros H1 H2. rewrite (proj2 (Nat.eqb_eq _ _) H1), (proj2 (Nat.eqb_neq _ _) H2). reflexivity.
Qed.

Lemma verify_batch_empty fuel md : verify_batch (E := E) fuel md [] [] [] = (Ok tt, []).
Proof. reflexivity. Qed.

Lemma all_equal_false (h : statement E -> bytes) st0 sts : ~ (forall st, In st sts -> h st = h st0) ->
  all_equal (map h (st0 :: sts)) = false.
Proof.
  intros H. destruct (all_equal (map h (st0 :: sts))) eqn:He; [|reflexivity]. exfalso. apply H. intros st Hin.
  cbn [map] in He. apply (proj1 (all_equal_spec _ _) He). apply in_map_iff. exists st. auto.
Qed.

Lemma all_equal_true (h : statement E -> bytes) st0 sts : (forall st, In st sts -> h st = h st0) ->
  all_equal (map h (st0 :: sts)) = true.
Proof.
  intros H. cbn [map]. apply all_equal_spec. intros y Hy. apply in_map_iff in Hy. destruct Hy as (st & <- & Hin). auto.
Qed.

Lemma verify_batch_mixed fuel md (st0 : statement E) sts pfs ts :
  length (st0 :: sts) = length pfs -> length (st0 :: sts) = length ts ->
  (~ (forall st, In st sts -> input_set_get_hash (st_get_input_set st) = input_set_get_hash (st_get_input_set st0)) ->
   verify_batch fuel md (st0 :: sts) pfs ts = (Err (InvalidParameter "statement input sets do not match"), ts)) /\
  ((forall st, In st sts -> input_set_get_hash (st_get_input_set st) = input_set_get_hash (st_get_input_set st0)) ->
   ~ (forall st, In st sts -> params_get_hash (st_get_params st) = params_get_hash (st_get_params st0)) ->
   verify_batch fuel md (st0 :: sts) pfs ts = (Err (InvalidParameter "statement parameters do not match"), ts)).
Proof.
  intros Hl1 Hl2. unfold verify_batch, batch_checks.
  rewrite (proj2 (Nat.eqb_eq _ _) Hl1), (proj2 (Nat.eqb_eq _ _) Hl2). cbn [negb]. split.
  - intros H. rewrite (all_equal_false (fun s => input_set_get_hash (st_get_input_set s)) st0 sts H). reflexivity.
  - intros H1 H2. rewrite (all_equal_true (fun s => input_set_get_hash (st_get_input_set s)) st0 sts H1).
    rewrite (all_equal_false (fun s => params_get_hash (st_get_params s)) st0 sts H2). reflexivity.
Qed.

Lemma verify_batch_misshaped fuel md (st0 : statement E) sts pfs ts : good_statement st0 ->
  ~ Forall (well_shaped (st_params st0)) pfs ->
  exists s, verify_batch fuel md (st0 :: sts) pfs ts = (Err (InvalidParameter s), ts).
Proof.
  intros Hg Hw. pose proof (gp_n _ (gs_params _ Hg)) as Hn. unfold verify_batch, batch_checks.
  destruct (negb _); [eexists; reflexivity|]. destruct (negb _); [eexists; reflexivity|].
  destruct (negb _); [eexists; reflexivity|]. destruct (negb _); [eexists; reflexivity|].
  unfold st_get_params. destruct (check_dims_cases (st_params st0) pfs ltac:(lia)) as [Hd|(s & Hd)].
  - apply check_dims_ok in Hd; [contradiction|lia].
  - rewrite Hd. eexists. reflexivity.
Qed.

(** Too large a batch. *)
Lemma verify_batch_unfit fuel md (st0 : statement E) sts pfs ts : good_statement st0 ->
  length (st0 :: sts) = length pfs -> length (st0 :: sts) = length ts ->
  Forall (same_ring st0) sts -> Forall (well_shaped (st_params st0)) pfs ->
  ((2 ^ 32 <= N.of_nat (length pfs))%N ->
   verify_batch fuel md (st0 :: sts) pfs ts = (Err (InvalidParameter "batch size overflowed `u32`"), ts)) /\
  ((N.of_nat (length pfs) < 2 ^ 32)%N -> (2 ^ 32 <= msm_size (st_params st0) (N.of_nat (length pfs)))%N ->
   md = OverflowPanics -> verify_batch fuel md (st0 :: sts) pfs ts = (Panic, ts)).
Proof.
  intros Hg Hl1 Hl2 Hs Hw. pose proof (gp_n _ (gs_params _ Hg)) as Hn. unfold verify_batch, batch_checks.
  rewrite (proj2 (Nat.eqb_eq _ _) Hl1), (proj2 (Nat.eqb_eq _ _) Hl2). cbn [negb].
  rewrite Forall_forall in Hs.
  rewrite (all_equal_true (fun s => input_set_get_hash (st_get_input_set s)) st0 sts) by (intros; apply Hs; assumption).
  rewrite (all_equal_true (fun s => params_get_hash (st_get_params s)) st0 sts) by (intros; apply Hs; assumption).
  cbn [negb]. unfold st_get_params. rewrite (proj2 (check_dims_ok (st_params st0) pfs ltac:(lia)) Hw). cbn [obind].
  unfold checked. change (2 ^ 32)%N with u32_bound. split.
  - intros Hb. rewrite (proj2 (N.ltb_ge _ _) Hb). reflexivity.
  - intros Hb Hm ->. rewrite (proj2 (N.ltb_lt _ _) Hb). cbn [ok_or obind].
    rewrite final_size_panics by (rewrite <- Hl1; cbn [length]; lia). rewrite (proj2 (N.ltb_ge _ _) Hm). reflexivity.
Qed.

(** A zero challenge: the transcripts up to and including the offending one have been extended. *)
Lemma challenge_loop_stops (p : params E) : (1 <= p_m p)%N -> (p_m p < u32_bound)%N ->
  forall sts1 pfs1 ts1, length sts1 = length pfs1 -> length sts1 = length ts1 ->
  Forall (fun xi => xi <> s0) (challenges sts1 pfs1 ts1) ->
  forall st pf t sts2 pfs2 ts2 tw, challenge t st pf = s0 ->
  challenge_loop p (sts1 ++ st :: sts2) (pfs1 ++ pf :: pfs2) (ts1 ++ t :: ts2) tw =
  (Err InvalidChallenge, verified_transcripts sts1 pfs1 ts1 ++ prover_transcript t st pf :: ts2).
Proof.
  intros Hm1 Hm. induction sts1 as [|s sts1 IH]; intros pfs1 ts1 Hl1 Hl2 Hnz st pf t sts2 pfs2 ts2 tw Hz;
    destruct pfs1 as [|q pfs1]; try discriminate; destruct ts1 as [|u ts1]; try discriminate.
  - cbn [app challenge_loop]. unfold pt_new. cbn [build_transcript_rng finalize_rng null_rng rng_fill].
    unfold pt_commit. rewrite fs_transcript_spec.
    cbn [build_transcript_rng finalize_rng null_rng rng_fill challenge_bytes].
    fold (challenge t st pf). unfold get_m. rewrite Hz, challenge_powers_zero by assumption. reflexivity.
  - cbn [app challenge_loop]. unfold pt_new. cbn [build_transcript_rng finalize_rng null_rng rng_fill].
    unfold challenges in Hnz. cbn [combine map fst snd] in Hnz. inversion Hnz as [|x l Hx Hr Heq]; subst.
    unfold pt_commit. rewrite fs_transcript_spec.
    cbn [build_transcript_rng finalize_rng null_rng rng_fill challenge_bytes].
    fold (challenge u s q). unfold get_m. rewrite challenge_powers_ok by assumption.
    unfold pt_response. fold (prover_transcript u s q). rewrite verifier_transcript_spec.
    cbn [build_transcript_rng finalize_rng null_rng rng_fill]. unfold trng_next_u64, trng_fill.
    rewrite IH by (assumption || (simpl in *; lia)). cbn [obind]. reflexivity.
Qed.

Lemma verify_batch_zero_challenge fuel md (st0 : statement E) sts pfs ts : good_statement st0 ->
  length (st0 :: sts) = length pfs -> length (st0 :: sts) = length ts ->
  Forall (same_ring st0) sts -> Forall (well_shaped (st_params st0)) pfs ->
  fits md (st_params st0) (N.of_nat (length pfs)) ->
  forall sts1 pfs1 ts1 st pf t sts2 pfs2 ts2,
  st0 :: sts = sts1 ++ st :: sts2 -> pfs = pfs1 ++ pf :: pfs2 -> ts = ts1 ++ t :: ts2 ->
  length sts1 = length pfs1 -> length sts1 = length ts1 ->
  Forall (fun x => challenge (snd x) (fst (fst x)) (snd (fst x)) <> s0) (combine (combine sts1 pfs1) ts1) ->
  challenge t st pf = s0 ->
  verify_batch fuel md (st0 :: sts) pfs ts =
  (Err InvalidChallenge, verified_transcripts sts1 pfs1 ts1 ++ prover_transcript t st pf :: ts2).
Proof.
  intros Hg Hl1 Hl2 Hs Hw Hf sts1 pfs1 ts1 st pf t sts2 pfs2 ts2 E1 E2 E3 Hk1 Hk2 Hnz Hz.
  pose proof (gs_params _ Hg) as Hp. pose proof (gp_m _ Hp) as Hm. pose proof (good_m_u32 _ Hp) as Hm32.
  unfold verify_batch. rewrite (proj2 (batch_checks_ok md st0 sts pfs ts Hp Hl1 Hl2) (conj Hs (conj Hw Hf))).
  unfold st_get_params. rewrite E1, E2, E3.
  rewrite (challenge_loop_stops (st_params st0) ltac:(lia) Hm32 sts1 pfs1 ts1 Hk1 Hk2) by (apply challenges_Forall || assumption; assumption).
  reflexivity.
Qed.

(** A zero entry in a completed response matrix. *)
Lemma process_all_degenerate (p : params E) M M1 : good_params p -> (length M = N.to_nat (get_N p) /\ length M1 = N.to_nat (get_N p)) -> weights_terminate (E := E) 5 ->
  forall sts pfs ts, length sts = length pfs -> length sts = length ts -> Forall (well_shaped p) pfs ->
  Exists (fun x => ~ no_zero (snd (fst x)) (challenge (snd x) (fst (fst x)) (snd (fst x)))) (combine (combine sts pfs) ts) ->
  forall g ac pts, good_acc p M M1 pts ac ->
  exists fuel, process_all fuel p pfs (map (fun xi => powers xi (S (N.to_nat (p_m p)))) (challenges sts pfs ts)) g ac
               = Err (InvalidParameter "proof `f` matrix contained 0").
Proof.
  intros Hp HM Ht. induction sts as [|st sts IH]; intros pfs ts Hl1 Hl2 Hs Hex g ac pts Ha;
    destruct pfs as [|pf pfs]; try discriminate; destruct ts as [|t ts]; try discriminate; [inversion Hex|].
  inversion Hs as [|x l Hs1 Hs2 Heq]; subst.
  unfold challenges. cbn [combine map fst snd]. fold (challenges sts pfs ts). set (xi := challenge t st pf) in *.
  destruct (contains_zero (complete xi (pf_f pf))) eqn:Hz.
  { exists 0%nat. cbn [process_all]. rewrite (proj1 (process_proof_other 0 p pf xi g ac Hp Hs1) Hz). reflexivity. }
  cbn [combine] in Hex. inversion Hex as [x l Hx Heq|x l Hx Heq]; subst.
  { cbn [fst snd] in Hx. fold xi in Hx. rewrite no_zero_spec in Hx. contradiction. }
  destruct (Ht g) as (w & g' & Hnw). destruct (weights_loop_complete g w g' Hnw) as (f1 & w1 & w2 & w3 & w4 & w5 & Heqw & H1).
  destruct (process_proof_ok L f1 p M M1 (st_get_offset st) (st_get_J st) pf xi g ac pts w1 w2 w3 w4 w5 g' Hp HM Hs1 Hz (H1 f1 _ _ _ _ _ ltac:(lia) ltac:(left; reflexivity)) Ha)
    as (ac1 & Hpp & Ha1 & _).
  destruct (IH pfs ts ltac:(simpl in *; lia) ltac:(simpl in *; lia) Hs2 Hx g' ac1 _ Ha1) as (f2 & H2).
  exists (Nat.max f1 f2). cbn [process_all].
  rewrite (process_proof_mono f1 (Nat.max f1 f2)) by (lia || congruence). rewrite Hpp. cbn [obind].
  rewrite (process_all_mono f2 (Nat.max f1 f2)) by (lia || congruence). exact H2.
Qed.

Lemma verify_batch_degenerate md (st0 : statement E) sts pfs ts : good_statement st0 -> weights_terminate (E := E) 5 ->
  length (st0 :: sts) = length pfs -> length (st0 :: sts) = length ts ->
  Forall (same_ring st0) sts -> Forall (well_shaped (st_params st0)) pfs ->
  fits md (st_params st0) (N.of_nat (length pfs)) ->
  Forall (fun x => challenge (snd x) (fst (fst x)) (snd (fst x)) <> s0) (combine (combine (st0 :: sts) pfs) ts) ->
  ~ Forall nondeg (combine (combine (st0 :: sts) pfs) ts) ->
  verify_batch_returns md (st0 :: sts) pfs ts (Err (InvalidParameter "proof `f` matrix contained 0"))
    (verified_transcripts (st0 :: sts) pfs ts).
Proof.
  intros Hg Ht Hl1 Hl2 Hs Hw Hf Hnz Hnd.
  pose proof (gs_params _ Hg) as Hp. pose proof (gp_m _ Hp) as Hm. pose proof (good_m_u32 _ Hp) as Hm32.
  assert (HM : length (is_M (st_input_set st0)) = N.to_nat (get_N (st_params st0)) /\ length (is_M1 (st_input_set st0)) = N.to_nat (get_N (st_params st0)))
    by (pose proof (gs_len _ Hg); pose proof (gs_len1 _ Hg); lia).
  assert (Hex : Exists (fun x => ~ no_zero (snd (fst x)) (challenge (snd x) (fst (fst x)) (snd (fst x)))) (combine (combine (st0 :: sts) pfs) ts)).
  { clear - Hnz Hnd. induction Hnz as [|x l Hx Hl IH]; [exfalso; apply Hnd; constructor|].
    destruct (contains_zero (complete (challenge (snd x) (fst (fst x)) (snd (fst x))) (pf_f (snd (fst x))))) eqn:Hz.
    - apply Exists_cons_hd. rewrite no_zero_spec. congruence.
    - apply Exists_cons_tl. apply IH. intros H. apply Hnd. constructor; [|exact H]. split; [exact Hx|].
      apply no_zero_spec in Hz. exact Hz. }
  destruct (process_all_degenerate (st_params st0) (is_M (st_input_set st0)) (is_M1 (st_input_set st0)) Hp HM Ht (st0 :: sts) pfs ts Hl1 Hl2 Hw Hex
              (weight_rng (st0 :: sts) pfs ts) (acc_start (st_params st0) (is_M (st_input_set st0)) (is_M1 (st_input_set st0))) [] (acc_start_good _ _ _)) as (fuel & Hfuel).
  exists fuel. split; [|discriminate]. unfold verify_batch.
  rewrite (proj2 (batch_checks_ok md st0 sts pfs ts Hp Hl1 Hl2) (conj Hs (conj Hw Hf))).
  unfold st_get_params, st_get_input_set, get_keys, get_auxiliary_keys.
  rewrite (challenge_loop_spec (st_params st0) ltac:(lia) Hm32 (st0 :: sts) pfs ts weights_transcript Hl1 Hl2)
    by (apply challenges_Forall; exact Hnz).
  unfold verified_transcripts. f_equal. cbn [obind]. pose proof (weight_rng_spec (st0 :: sts) pfs ts) as Hrng.
  destruct (finalize_rng _ _ _ _) as [g u]. cbn [fst] in Hrng. subst g. rewrite Hfuel. reflexivity.
Qed.

(** The decision. *)
Lemma verify_batch_decides md (st0 : statement E) sts pfs ts ws : good_statement st0 ->
  length (st0 :: sts) = length pfs -> length (st0 :: sts) = length ts ->
  Forall (same_ring st0) sts -> Forall (well_shaped (st_params st0)) pfs ->
  fits md (st_params st0) (N.of_nat (length pfs)) ->
  Forall nondeg (combine (combine (st0 :: sts) pfs) ts) ->
  batch_weights (E := E) 5 (length pfs) (weight_rng (st0 :: sts) pfs ts) ws ->
  verify_batch_returns md (st0 :: sts) pfs ts
    (if peqb E (weighted_defects (st_params st0) (is_M (st_input_set st0)) (is_M1 (st_input_set st0)) (st0 :: sts) pfs ts ws) (pid E)
     then Ok tt else Err FailedVerification)
    (verified_transcripts (st0 :: sts) pfs ts).
Proof.
  intros. destruct (verify_batch_ok_complete L md st0 sts pfs ts ws) as (fuel & Hfuel); try assumption.
  exists fuel. split; [apply Hfuel; lia|]. destruct (peqb E _ _); discriminate.
Qed.

Lemma verify_batch_accepts_iff md (st0 : statement E) sts pfs ts : good_statement st0 ->
  (exists ts', verify_batch_returns md (st0 :: sts) pfs ts (Ok tt) ts') <->
  length (st0 :: sts) = length pfs /\ length (st0 :: sts) = length ts /\
  Forall (same_ring st0) sts /\ Forall (well_shaped (st_params st0)) pfs /\
  fits md (st_params st0) (N.of_nat (length pfs)) /\
  Forall nondeg (combine (combine (st0 :: sts) pfs) ts) /\
  exists ws, batch_weights (E := E) 5 (length pfs) (weight_rng (st0 :: sts) pfs ts) ws /\
    weighted_defects (st_params st0) (is_M (st_input_set st0)) (is_M1 (st_input_set st0)) (st0 :: sts) pfs ts ws = pid E.
Proof.
  intros Hg. split.
  - intros (ts' & fuel & H & _).
    destruct (Nat.eq_dec (length (st0 :: sts)) (length pfs)) as [Hl1|Hl1].
    2:{ rewrite (proj1 (verify_batch_lengths fuel md _ _ _) Hl1) in H. discriminate. }
    destruct (Nat.eq_dec (length (st0 :: sts)) (length ts)) as [Hl2|Hl2].
    2:{ rewrite (proj2 (verify_batch_lengths fuel md _ _ _) Hl1 Hl2) in H. discriminate. }
    split; [exact Hl1|]. split; [exact Hl2|]. eapply (verify_batch_ok_sound L); eassumption.
  - intros (Hl1 & Hl2 & Hs & Hw & Hf & Hnd & ws & Hws & Hv).
    pose proof (verify_batch_decides md st0 sts pfs ts ws Hg Hl1 Hl2 Hs Hw Hf Hnd Hws) as H.
    rewrite Hv, (proj2 (peqb_eq E L _ _) eq_refl) in H. eexists. exact H.
Qed.

(** With a terminating weight loop every call returns. *)
Lemma verify_batch_total md (sts : list (statement E)) pfs ts : Forall good_statement sts -> weights_terminate (E := E) 5 ->
  exists r ts', verify_batch_returns md sts pfs ts r ts'.
Proof.
  intros Hgs Ht.
  assert (Hstatic : forall r, batch_checks md sts pfs ts = r -> (forall s, r <> Ok (Some s)) -> exists r' ts', verify_batch_returns md sts pfs ts r' ts').
  { intros r Hr Hns. destruct (batch_checks_cases md sts pfs ts Hgs) as [(s & Hc)|[(Hc & _)|[(st0 & sts' & E1 & Hc & _)|(_ & Hc & _)]]].
    - exists (Err (InvalidParameter s)), ts. exists 0%nat. unfold verify_batch. rewrite Hc. split; [reflexivity|discriminate].
    - exists (Ok tt), ts. exists 0%nat. unfold verify_batch. rewrite Hc. split; [reflexivity|discriminate].
    - exfalso. apply (Hns st0). congruence.
    - exists Panic, ts. exists 0%nat. unfold verify_batch. rewrite Hc. split; [reflexivity|discriminate]. }
  destruct (batch_checks_cases md sts pfs ts Hgs) as [(s & Hc)|[(Hc & _)|[(st0 & sts' & -> & Hc & Hl1 & Hl2)|(_ & Hc & _)]]];
    try (eapply Hstatic; [exact Hc|discriminate]).
  inversion Hgs as [|x l Hg _]; subst.
  pose proof (gs_params _ Hg) as Hp. pose proof (gp_m _ Hp) as Hm. pose proof (good_m_u32 _ Hp) as Hm32.
  apply (batch_checks_ok md st0 sts' pfs ts Hp Hl1 Hl2) in Hc. destruct Hc as (Hs & Hw & Hf).
  destruct (nonzero_dec (challenges (st0 :: sts') pfs ts)) as [Hnz|Hz].
  - apply challenges_Forall in Hnz.
    assert (Hd : Forall nondeg (combine (combine (st0 :: sts') pfs) ts) \/ ~ Forall nondeg (combine (combine (st0 :: sts') pfs) ts)).
    { clear - Hnz. induction Hnz as [|x l Hx Hl IH]; [left; constructor|].
      destruct (contains_zero (complete (challenge (snd x) (fst (fst x)) (snd (fst x))) (pf_f (snd (fst x))))) eqn:Hz.
      - right. intros H. inversion H as [|y k [_ Hy] Hk]; subst. fold (no_zero (snd (fst x)) (challenge (snd x) (fst (fst x)) (snd (fst x)))) in Hy.
        rewrite no_zero_spec in Hy. congruence.
      - destruct IH as [IH|IH].
        + left. constructor; [|exact IH]. split; [exact Hx|]. apply no_zero_spec in Hz. exact Hz.
        + right. intros H. inversion H. contradiction. }
    destruct Hd as [Hnd|Hnd].
    + destruct (batch_weights_exist 5 Ht (length pfs) (weight_rng (st0 :: sts') pfs ts)) as (ws & Hws).
      do 2 eexists. eapply verify_batch_decides; eassumption.
    + do 2 eexists. eapply verify_batch_degenerate; eassumption.
  - pose proof (challenge_loop_zero (st_params st0) ltac:(lia) Hm32 (st0 :: sts') pfs ts weights_transcript Hl1 Hl2 Hz) as Hcl.
    exists (Err InvalidChallenge), (snd (challenge_loop (st_params st0) (st0 :: sts') pfs ts weights_transcript)), 0%nat.
    split; [|discriminate]. unfold verify_batch.
    rewrite (proj2 (batch_checks_ok md st0 sts' pfs ts Hp Hl1 Hl2) (conj Hs (conj Hw Hf))).
    unfold st_get_params. destruct (challenge_loop _ _ _ _ _) as [res ts2]. cbn [fst snd] in *. rewrite Hcl. reflexivity.
Qed.

End Verdict.
