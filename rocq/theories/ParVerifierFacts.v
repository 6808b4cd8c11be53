(** What the parallel [verify_batch] computes: the weighted sum of the defects of the equations. *)
From Verif Require Export ParProverFacts ParVerifier.

Section VerifierFacts.
Context {E : env}.

(** * Shape checks *)

Lemma check_rows_spec n rows : (1 <= n)%N ->
  check_rows n rows =
  if forallb (fun row => Nat.eqb (length row) (N.to_nat n - 1)) rows then Ok tt
  else Err (InvalidParameter "proof `f` matrix did not have `n - 1` columns").
Proof.
  intros Hn. induction rows as [|row rows IH]; [reflexivity|].
  cbn [check_rows forallb]. unfold checked_sub. rewrite (proj2 (N.leb_le 1 n) Hn). cbn [ok_or obind].
  rewrite IH. destruct (N.eqb_spec (N.of_nat (length row)) (n - 1)) as [H|H]; cbn [negb].
  - rewrite (proj2 (Nat.eqb_eq _ _)) by lia. reflexivity.
  - rewrite (proj2 (Nat.eqb_neq _ _)) by lia. reflexivity.
Qed.

Lemma forallb_rows {A} k (f : list (list A)) :
  forallb (fun row => Nat.eqb (length row) k) f = true <-> Forall (fun row => length row = k) f.
Proof.
  rewrite forallb_forall, Forall_forall. split; intros H row Hr; apply Nat.eqb_eq; auto; apply H; exact Hr.
Qed.

Lemma check_dims_ok (p : params E) pfs : (1 <= p_n p)%N ->
  check_dims p pfs = Ok tt <-> Forall (well_shaped p) pfs.
Proof.
  intros Hn. unfold well_shaped, shape, get_m, get_n. induction pfs as [|pf pfs IH]; [split; [constructor|reflexivity]|].
  cbn [check_dims]. unfold get_m, get_n.
  destruct (N.eqb_spec (N.of_nat (length (pf_X pf))) (p_m p)) as [HX|HX]; cbn [negb].
  2:{ split; [discriminate|]. intros H. inversion H as [|x l (H1 & _)]. lia. }
  destruct (N.eqb_spec (N.of_nat (length (pf_X1 pf))) (p_m p)) as [HX1|HX1]; cbn [negb].
  2:{ split; [discriminate|]. intros H. inversion H as [|x l (_ & H1 & _)]. lia. }
  destruct (N.eqb_spec (N.of_nat (length (pf_Y pf))) (p_m p)) as [HY|HY]; cbn [negb].
  2:{ split; [discriminate|]. intros H. inversion H as [|x l (_ & _ & H1 & _)]. lia. }
  destruct (N.eqb_spec (N.of_nat (length (pf_f pf))) (p_m p)) as [Hf|Hf]; cbn [negb].
  2:{ split; [discriminate|]. intros H. inversion H as [|x l (_ & _ & _ & H1 & _)]. lia. }
  rewrite check_rows_spec by exact Hn.
  destruct (forallb _ (pf_f pf)) eqn:Hr; cbn [obind].
  - rewrite IH. apply forallb_rows in Hr. split; intros H.
    + constructor; [|exact H]. repeat split; auto; lia.
    + inversion H; assumption.
  - split; [discriminate|]. intros H. inversion H as [|x l (_ & _ & _ & _ & H1)]. subst.
    apply forallb_rows in H1. congruence.
Qed.

Lemma check_dims_cases (p : params E) pfs : (1 <= p_n p)%N ->
  check_dims p pfs = Ok tt \/ exists s, check_dims p pfs = Err (InvalidParameter s).
Proof.
  intros Hn. induction pfs as [|pf pfs IH]; [left; reflexivity|]. cbn [check_dims].
  destruct (negb _); [right; eexists; reflexivity|].
  destruct (negb _); [right; eexists; reflexivity|].
  destruct (negb _); [right; eexists; reflexivity|].
  destruct (negb _); [right; eexists; reflexivity|].
  unfold get_n. rewrite check_rows_spec by exact Hn.
  destruct (forallb _ _); cbn [obind]; [exact IH|right; eexists; reflexivity].
Qed.

(** * Challenges *)

Definition challenges (sts : list (statement E)) (pfs : list (proof E)) (ts : list transcript) : list scalar :=
  map (fun x => challenge (snd x) (fst (fst x)) (snd (fst x))) (combine (combine sts pfs) ts).

Definition tags (sts : list (statement E)) (pfs : list (proof E)) (ts : list transcript) : transcript :=
  map (fun x => TAppend (b_ "proof") (le_bytes 8 (proof_tag (snd x) (fst (fst x)) (snd (fst x)))))
      (combine (combine sts pfs) ts).

Lemma verifier_step (t : transcript) (st : statement E) (pf : proof E) :
  pt_commit null_rng (pt_init t (st_get_hash st)) None tt (st_get_params st) (pf_A pf) (pf_B pf) (pf_C pf) (pf_D pf) (pf_X pf) (pf_X1 pf) (pf_Y pf)
  = (challenge_powers (get_m (st_get_params st)) (challenge t st pf), prover_transcript t st pf,
     mk_trng (fs_transcript t st pf) [] (repeat x00 32) [], tt).
Proof.
  unfold pt_commit. rewrite fs_transcript_spec. reflexivity.
Qed.

Lemma challenge_loop_spec (p : params E) : (1 <= p_m p)%N -> (p_m p < u32_bound)%N ->
  forall sts pfs ts tw, length sts = length pfs -> length sts = length ts ->
  Forall (fun xi => xi <> s0) (challenges sts pfs ts) ->
  challenge_loop p sts pfs ts tw =
  (Ok (map (fun xi => powers xi (S (N.to_nat (p_m p)))) (challenges sts pfs ts), tw ++ tags sts pfs ts),
   map (fun x => verifier_transcript (snd x) (fst (fst x)) (snd (fst x))) (combine (combine sts pfs) ts)).
Proof.
  intros Hm1 Hm. induction sts as [|st sts IH]; intros pfs ts tw Hl1 Hl2 Hnz;
    destruct pfs as [|pf pfs]; try discriminate; destruct ts as [|t ts]; try discriminate.
  - cbn. unfold tags. cbn. rewrite app_nil_r. reflexivity.
  - cbn [challenge_loop]. unfold pt_new. cbn [build_transcript_rng finalize_rng null_rng rng_fill].
    unfold challenges in Hnz. cbn [combine map fst snd] in Hnz. inversion Hnz as [|x l Hx Hr Heq]; subst.
    unfold pt_commit. rewrite fs_transcript_spec.
    cbn [build_transcript_rng finalize_rng null_rng rng_fill challenge_bytes].
    fold (challenge t st pf). unfold get_m. rewrite challenge_powers_ok by assumption.
    unfold pt_response. fold (prover_transcript t st pf). rewrite verifier_transcript_spec.
    cbn [build_transcript_rng finalize_rng null_rng rng_fill]. unfold trng_next_u64, trng_fill.
    fold (proof_tag t st pf).
    rewrite IH by (assumption || (simpl in *; lia)).
    cbn [obind]. unfold challenges, tags, append_u64, append_message. cbn [combine map fst snd].
    rewrite <- app_assoc. reflexivity.
Qed.

(** With a zero challenge somewhere the loop ends with [InvalidChallenge]. *)
Lemma challenge_loop_zero (p : params E) : (1 <= p_m p)%N -> (p_m p < u32_bound)%N ->
  forall sts pfs ts tw, length sts = length pfs -> length sts = length ts ->
  Exists (fun xi => xi = s0) (challenges sts pfs ts) ->
  fst (challenge_loop p sts pfs ts tw) = Err InvalidChallenge.
Proof.
  intros Hm1 Hm. induction sts as [|st sts IH]; intros pfs ts tw Hl1 Hl2 Hz;
    destruct pfs as [|pf pfs]; try discriminate; destruct ts as [|t ts]; try discriminate.
  - inversion Hz.
  - cbn [challenge_loop]. unfold pt_new. cbn [build_transcript_rng finalize_rng null_rng rng_fill].
    unfold pt_commit. rewrite fs_transcript_spec.
    cbn [build_transcript_rng finalize_rng null_rng rng_fill challenge_bytes].
    fold (challenge t st pf). unfold get_m.
    unfold challenges in Hz. cbn [combine map fst snd] in Hz.
    destruct (scalar_eq_dec (challenge t st pf) s0) as [H0|Hn0].
    + rewrite H0, challenge_powers_zero by assumption. reflexivity.
    + rewrite challenge_powers_ok by assumption.
      inversion Hz as [x l Hx Heq|x l Hx Heq]; subst; [contradiction|].
      destruct (pt_response _ _ _ _ _ _ _ _ _) as [[g t'] u]. destruct (trng_next_u64 g) as [x g'].
      specialize (IH pfs ts (append_u64 tw (b_ "proof") x) ltac:(simpl in *; lia) ltac:(simpl in *; lia) Hx).
      destruct (challenge_loop p sts pfs ts _) as [res ts']. cbn [fst] in *. rewrite IH. reflexivity.
Qed.

(** * Weights *)

Lemma draws5 (g : trng) : exists w1 w2 w3 w4 w5 g1 g2 g3 g4 g5,
  draw (E := E) g = (w1, g1) /\ draw (E := E) g1 = (w2, g2) /\ draw (E := E) g2 = (w3, g3) /\ draw (E := E) g3 = (w4, g4) /\ draw (E := E) g4 = (w5, g5) /\
  draws (E := E) 5 g = ([w1; w2; w3; w4; w5], g5).
Proof.
  destruct (draw (E := E) g) as [w1 g1] eqn:H1. destruct (draw (E := E) g1) as [w2 g2] eqn:H2.
  destruct (draw (E := E) g2) as [w3 g3] eqn:H3. destruct (draw (E := E) g3) as [w4 g4] eqn:H4.
  destruct (draw (E := E) g4) as [w5 g5] eqn:H5.
  exists w1, w2, w3, w4, w5, g1, g2, g3, g4, g5. repeat split; auto.
  cbn [draws]. rewrite H1, H2, H3, H4, H5. reflexivity.
Qed.

Lemma zero_test5 w1 w2 w3 w4 w5 :
  seqb w1 s0 || seqb w2 s0 || seqb w3 s0 || seqb w4 s0 || seqb w5 s0 = true <-> In s0 [w1; w2; w3; w4; w5].
Proof.
  rewrite !orb_true_iff, !seqb_eq. cbn [In]. intuition.
Qed.

Lemma weights_loop_sound fuel : forall g w1 w2 w3 w4 w5 v1 v2 v3 v4 v5 g',
  In s0 [w1; w2; w3; w4; w5] ->
  weights_loop (E := E) fuel g w1 w2 w3 w4 w5 = Ok (v1, v2, v3, v4, v5, g') -> next_weights (E := E) 5 g [v1; v2; v3; v4; v5] g'.
Proof.
  induction fuel as [|fuel IH]; intros g w1 w2 w3 w4 w5 v1 v2 v3 v4 v5 g' Hz H; cbn [weights_loop] in H;
    rewrite (proj2 (zero_test5 _ _ _ _ _) Hz) in H; [discriminate|].
  destruct (draws5 g) as (x1 & x2 & x3 & x4 & x5 & g1 & g2 & g3 & g4 & g5 & H1 & H2 & H3 & H4 & H5 & Hd).
  rewrite H1, H2, H3, H4, H5 in H.
  destruct (in_dec scalar_eq_dec s0 [x1; x2; x3; x4; x5]) as [Hin|Hnin].
  - eapply nw_skip; [exact Hd|exact Hin|]. eapply IH; [exact Hin|exact H].
  - assert (Hf : seqb x1 s0 || seqb x2 s0 || seqb x3 s0 || seqb x4 s0 || seqb x5 s0 = false).
    { destruct (seqb x1 s0 || seqb x2 s0 || seqb x3 s0 || seqb x4 s0 || seqb x5 s0) eqn:Ht; [|reflexivity].
      apply zero_test5 in Ht. contradiction. }
    destruct fuel as [|fuel]; cbn [weights_loop] in H; rewrite Hf in H; injection H as <- <- <- <- <- <-;
      apply nw_take; assumption.
Qed.

Lemma weights_loop_complete g ws g' : next_weights (E := E) 5 g ws g' ->
  exists fuel v1 v2 v3 v4 v5, ws = [v1; v2; v3; v4; v5] /\
    forall fuel' w1 w2 w3 w4 w5, (fuel <= fuel')%nat -> In s0 [w1; w2; w3; w4; w5] ->
      weights_loop (E := E) fuel' g w1 w2 w3 w4 w5 = Ok (v1, v2, v3, v4, v5, g').
Proof.
  induction 1 as [g ws g' Hd Hnin|g ws g' ws' g'' Hd Hin Hnext IH].
  - destruct (draws5 g) as (x1 & x2 & x3 & x4 & x5 & g1 & g2 & g3 & g4 & g5 & H1 & H2 & H3 & H4 & H5 & Hd').
    rewrite Hd in Hd'. injection Hd' as -> ->.
    exists 1%nat, x1, x2, x3, x4, x5. split; [reflexivity|]. intros fuel' w1 w2 w3 w4 w5 Hf Hz.
    destruct fuel' as [|fuel']; [lia|]. cbn [weights_loop]. rewrite (proj2 (zero_test5 _ _ _ _ _) Hz), H1, H2, H3, H4, H5.
    assert (Hff : seqb x1 s0 || seqb x2 s0 || seqb x3 s0 || seqb x4 s0 || seqb x5 s0 = false).
    { destruct (seqb x1 s0 || seqb x2 s0 || seqb x3 s0 || seqb x4 s0 || seqb x5 s0) eqn:Ht; [|reflexivity].
      apply zero_test5 in Ht. contradiction. }
    destruct fuel'; cbn [weights_loop]; rewrite Hff; reflexivity.
  - destruct IH as (fuel & v1 & v2 & v3 & v4 & v5 & Hws & IH).
    destruct (draws5 g) as (x1 & x2 & x3 & x4 & x5 & g1 & g2 & g3 & g4 & g5 & H1 & H2 & H3 & H4 & H5 & Hd').
    rewrite Hd in Hd'. injection Hd' as -> ->.
    exists (S fuel), v1, v2, v3, v4, v5. split; [exact Hws|]. intros fuel' w1 w2 w3 w4 w5 Hf Hz.
    destruct fuel' as [|fuel']; [lia|]. cbn [weights_loop]. rewrite (proj2 (zero_test5 _ _ _ _ _) Hz), H1, H2, H3, H4, H5.
    apply IH; [lia|exact Hin].
Qed.

Lemma weights_loop_cases fuel : forall g w1 w2 w3 w4 w5,
  (exists v, weights_loop (E := E) fuel g w1 w2 w3 w4 w5 = Ok v) \/ weights_loop (E := E) fuel g w1 w2 w3 w4 w5 = OutOfFuel.
Proof.
  induction fuel as [|fuel IH]; intros g w1 w2 w3 w4 w5; cbn [weights_loop]; destruct (_ || _ || _ || _ || _).
  - right; reflexivity.
  - left; eexists; reflexivity.
  - destruct (draws5 g) as (x1 & x2 & x3 & x4 & x5 & g1 & g2 & g3 & g4 & g5 & H1 & H2 & H3 & H4 & H5 & _).
    rewrite H1, H2, H3, H4, H5. apply IH.
  - left; eexists; reflexivity.
Qed.

Lemma next_weights_len k g ws g' : next_weights (E := E) k g ws g' -> length ws = k.
Proof.
  intros H. assert (Hd : forall k g ws g', draws (E := E) k g = (ws, g') -> length ws = k).
  { clear. induction k as [|k IH]; intros g ws g' H; cbn [draws] in H; [injection H as <- _; reflexivity|].
    destruct (draw g) as [s g1]. destruct (draws k g1) as [ss g2] eqn:Hs. injection H as <- _. cbn [length].
    f_equal. eapply IH. exact Hs. }
  induction H as [g ws g' H _|]; [eapply Hd; exact H|assumption].
Qed.

Lemma next_weights_nonzero k g ws g' : next_weights (E := E) k g ws g' -> ~ In s0 ws.
Proof. induction 1; assumption. Qed.

Lemma next_weights_fun k g ws g' : next_weights (E := E) k g ws g' -> forall ws2 g2, next_weights (E := E) k g ws2 g2 -> ws = ws2 /\ g' = g2.
Proof.
  induction 1 as [g ws g' Hd Hnin|g ws g' ws' g'' Hd Hin Hnext IH]; intros ws2 g2 H2; inversion H2; subst.
  - split; congruence.
  - rewrite Hd in H. injection H as <- <-. contradiction.
  - rewrite Hd in H. injection H as <- <-. contradiction.
  - rewrite Hd in H. injection H as <- <-. apply IH. assumption.
Qed.

Lemma batch_weights_fun k b g ws : batch_weights (E := E) k b g ws -> forall ws2, batch_weights (E := E) k b g ws2 -> ws = ws2.
Proof.
  induction 1 as [g|b g w g' rest Hn Hb IH]; intros ws2 H2; inversion H2; subst; [reflexivity|].
  destruct (next_weights_fun _ _ _ _ Hn _ _ H0) as [-> ->]. f_equal. apply IH. assumption.
Qed.

Lemma batch_weights_len k b g ws : batch_weights (E := E) k b g ws -> shape b k ws.
Proof.
  induction 1 as [g|b g w g' rest Hn Hb [IH1 IH2]]; [split; [reflexivity|constructor]|].
  split; [cbn [length]; f_equal; exact IH1|]. constructor; [|exact IH2]. eapply next_weights_len. exact Hn.
Qed.

Lemma batch_weights_nonzero k b g ws : batch_weights (E := E) k b g ws -> Forall (fun w => ~ In s0 w) ws.
Proof.
  induction 1 as [g|b g w g' rest Hn Hb IH]; constructor; [|exact IH]. eapply next_weights_nonzero. exact Hn.
Qed.

(** * One proof *)

Context (L : env_laws E).

Record good_acc (p : params E) (M M1 : list (pt E)) (pts : list (pt E)) (ac : acc) : Prop := {
  ga_scalars : length (a_scalars ac) = length pts;
  ga_CG : length (a_CommitmentG ac) = length (p_CommitmentG p);
  ga_M : length (a_M ac) = length M;
  ga_M1 : length (a_M1 ac) = length M1 }.

Definition value (p : params E) (M M1 : list (pt E)) (pts : list (pt E)) (ac : acc) : pt E :=
  padd E (lincomb (a_scalars ac) pts)
  (padd E (pmul E (a_G ac) (p_G p))
  (padd E (pmul E (a_G1 ac) (p_G1 p))
  (padd E (lincomb (a_CommitmentG ac) (p_CommitmentG p))
  (padd E (pmul E (a_CommitmentH ac) (p_CommitmentH p))
  (padd E (lincomb (a_M ac) M) (padd E (lincomb (a_M1 ac) M1) (pmul E (a_U ac) (p_U p)))))))).

Definition own_points (pf : proof E) (offset J : pt E) : list (pt E) :=
  [pf_A pf; pf_B pf; pf_C pf; pf_D pf; J] ++ pf_X pf ++ pf_X1 pf ++ pf_Y pf ++ [offset].

Lemma firstn_powers xi k : firstn k (powers xi (S k)) = powers xi k.
Proof.
  unfold powers. rewrite seq_S, map_app. rewrite firstn_app, map_length, seq_length, Nat.sub_diag.
  rewrite firstn_all2 by (rewrite map_length, seq_length; lia). cbn [firstn]. apply app_nil_r.
Qed.

Lemma process_proof_ok fuel (p : params E) M M1 offset J pf xi g ac pts w1 w2 w3 w4 w5 g' :
  good_params p -> (length M = N.to_nat (get_N p) /\ length M1 = N.to_nat (get_N p)) -> well_shaped p pf ->
  contains_zero (complete xi (pf_f pf)) = false ->
  weights_loop (E := E) fuel g s0 s0 s0 s0 s0 = Ok (w1, w2, w3, w4, w5, g') ->
  good_acc p M M1 pts ac ->
  exists ac', process_proof fuel p pf (powers xi (S (N.to_nat (p_m p)))) g ac = Ok (g', ac') /\
    good_acc p M M1 (pts ++ own_points pf offset J) ac' /\
    value p M M1 (pts ++ own_points pf offset J) ac' =
      padd E (value p M M1 pts ac) (lincomb [w1; w2; w3; w4; w5] (defects p M M1 offset J pf xi)).
Proof.
  intros Hp [HM HM1] (HX & HX1 & HY & Hf) Hz Hw Ha. unfold get_m, get_n in *.
  pose proof (gp_n p Hp) as Hn. pose proof (gp_m p Hp) as Hm. pose proof (gp_pow p Hp) as Hb.
  unfold process_proof, get_m, get_n. rewrite f_full_spec by (destruct Hf; lia). cbn [obind].
  rewrite Hz, Hw. cbn [obind].
  assert (H1 : @index proof_error _ (powers xi (S (N.to_nat (p_m p)))) 1 = Ok xi).
  { apply index_Ok. rewrite powers_nth by lia. f_equal. cbn [spow]. ring. }
  rewrite H1. cbn [obind]. rewrite slice_Ok by (rewrite ?powers_length; lia). cbn [obind].
  rewrite skipn_O, Nat.sub_0_r, firstn_powers.
  set (F := complete xi (pf_f pf)) in *.
  assert (HF : shape (N.to_nat (p_m p)) (N.to_nat (p_n p)) F) by (apply full_shape; [lia|exact Hf]).
  rewrite combine_length, (ga_M _ _ _ _ _ Ha), (ga_M1 _ _ _ _ _ Ha), HM, HM1, Nat.min_id, (good_N p Hp).
  rewrite all_f_products_spec by (assumption || lia). cbn [obind].
  eexists. split; [reflexivity|]. split.
  - constructor; cbn [a_scalars a_CommitmentG a_M a_M1]; rewrite ?zip_add_length; try apply Ha.
    rewrite !app_length, !map_length, !powers_length, (ga_scalars _ _ _ _ _ Ha). unfold own_points.
    rewrite !app_length. cbn [length]. rewrite HX, HX1, HY. lia.
  - unfold value. cbn [a_scalars a_G a_G1 a_CommitmentG a_CommitmentH a_M a_M1 a_U].
    unfold own_points.
    rewrite <- !app_assoc.
    rewrite (lincomb_app L) by (apply (ga_scalars _ _ _ _ _ Ha)).
    rewrite !(lincomb_zip_add L).
    2:{ rewrite map_length, map_length, seq_length, (ga_M1 _ _ _ _ _ Ha), HM1, (good_N p Hp). lia. }
    2:{ rewrite map_length, map_length, seq_length, (ga_M _ _ _ _ _ Ha), HM, (good_N p Hp). lia. }
    2:{ rewrite map_length, (ga_CG _ _ _ _ _ Ha), (gp_CG p Hp), (concat_shape_length _ _ _ HF). lia. }
    rewrite (lincomb_app L [_; _; _; _; _]) by reflexivity.
    rewrite (lincomb_app L (map (fun x => ((- w3) * x)%sc) _)) by (rewrite map_length, powers_length; lia).
    rewrite (lincomb_app L (map (fun x => ((- w5) * x)%sc) _)) by (rewrite map_length, powers_length; lia).
    rewrite (lincomb_app L (map (fun x => ((- w4) * x)%sc) _)) by (rewrite map_length, powers_length; lia).
    rewrite !(lincomb_scale L).
    rewrite (lincomb_add L (fun x => w1 * x)%sc (fun x => w2 * x * (xi - x))%sc).
    rewrite (lincomb_ext (fun x => w2 * x * (xi - x))%sc (fun x => w2 * (x * (xi - x)))%sc) by (intros; ring).
    rewrite (lincomb_scale L).
    rewrite (lincomb_scale_r L (fun x => (x * (xi - x))%sc)).
    assert (Hsum : ssum (map (code_product (p_n p) (N.to_nat (p_m p)) (mat F)) (seq 0 (N.to_nat (p_n p ^ p_m p))))
                   = spow xi (N.to_nat (p_m p))).
    { rewrite <- (good_N p Hp), (good_N_nat p Hp). apply products_sum; [exact Hn|exact HF|].
      intros j Hj. apply full_row_sum. destruct Hf. lia. }
    rewrite Hsum.
    unfold defects, com, get_CommitmentG, get_CommitmentH, get_G, get_G1, get_U, get_m, get_n.
    fold F.
    rewrite (lincomb_shifted L) by (rewrite map_length, seq_length; congruence). rewrite concat_map in *. rewrite <- concat_map.
    rewrite HM, (good_N p Hp). rewrite Hsum.
    rewrite !lincomb_cons, !lincomb_nil_l.
    set (P1 := lincomb (a_scalars ac) pts).
    set (P2 := lincomb (a_CommitmentG ac) (p_CommitmentG p)).
    set (P3 := lincomb (a_M ac) M).
    set (Q1 := lincomb (concat F) (p_CommitmentG p)).
    set (Q2 := lincomb (map _ (concat F)) (p_CommitmentG p)).
    set (P4 := lincomb (a_M1 ac) M1).
    set (Q3 := lincomb (map _ (seq 0 _)) M).
    set (Q6 := lincomb (map _ (seq 0 _)) M1).
    set (Q7 := lincomb (powers xi _) (pf_X1 pf)).
    set (Q4 := lincomb (powers xi _) (pf_X pf)).
    set (Q5 := lincomb (powers xi _) (pf_Y pf)).
    module L.
Qed.

Lemma process_proof_other fuel (p : params E) pf xi g ac :
  good_params p -> well_shaped p pf ->
  (contains_zero (complete xi (pf_f pf)) = true ->
   process_proof fuel p pf (powers xi (S (N.to_nat (p_m p)))) g ac = Err (InvalidParameter "proof `f` matrix contained 0")) /\
  (contains_zero (complete xi (pf_f pf)) = false -> weights_loop (E := E) fuel g s0 s0 s0 s0 s0 = OutOfFuel ->
   process_proof fuel p pf (powers xi (S (N.to_nat (p_m p)))) g ac = OutOfFuel).
Proof.
  intros Hp (HX & HX1 & HY & Hf). unfold get_m, get_n in *. pose proof (gp_m p Hp) as Hm.
  unfold process_proof, get_m, get_n. rewrite f_full_spec by (destruct Hf; lia). cbn [obind].
  split; intros Hz; rewrite Hz; [reflexivity|]. intros Hw. rewrite Hw. reflexivity.
Qed.

(** * All proofs *)

Definition batch_points (sts : list (statement E)) (pfs : list (proof E)) : list (pt E) :=
  concat (map (fun x => own_points (fst x) (st_get_offset (snd x)) (st_get_J (snd x))) (combine pfs sts)).

Definition no_zero (pf : proof E) (xi : scalar) : Prop := forall row, In row (complete xi (pf_f pf)) -> ~ In s0 row.

Lemma no_zero_spec pf xi : no_zero pf xi <-> contains_zero (complete xi (pf_f pf)) = false.
Proof.
  unfold no_zero. destruct (contains_zero _) eqn:H.
  - split; [|discriminate]. intros Hn. apply contains_zero_spec in H. destruct H as (row & H1 & H2). exfalso. apply (Hn row H1 H2).
  - split; [reflexivity|]. intros _ row Hr Hz.
    assert (Ht : contains_zero (complete xi (pf_f pf)) = true) by (apply contains_zero_spec; eauto). congruence.
Qed.

Lemma process_all_sound fuel (p : params E) M M1 : good_params p -> (length M = N.to_nat (get_N p) /\ length M1 = N.to_nat (get_N p)) ->
  forall sts pfs ts g ac pts ac', length sts = length pfs -> length sts = length ts ->
  Forall (well_shaped p) pfs -> good_acc p M M1 pts ac ->
  process_all fuel p pfs (map (fun xi => powers xi (S (N.to_nat (p_m p)))) (challenges sts pfs ts)) g ac = Ok ac' ->
  Forall (fun x => no_zero (snd (fst x)) (challenge (snd x) (fst (fst x)) (snd (fst x)))) (combine (combine sts pfs) ts) /\
  exists ws, batch_weights (E := E) 5 (length pfs) g ws /\
    good_acc p M M1 (pts ++ batch_points sts pfs) ac' /\
    value p M M1 (pts ++ batch_points sts pfs) ac' = padd E (value p M M1 pts ac) (weighted_defects p M M1 sts pfs ts ws).
Proof.
  intros Hp HM. induction sts as [|st sts IH]; intros pfs ts g ac pts ac' Hl1 Hl2 Hs Ha H;
    destruct pfs as [|pf pfs]; try discriminate; destruct ts as [|t ts]; try discriminate.
  - cbn in H. injection H as <-. split; [constructor|]. exists []. split; [constructor|].
    unfold batch_points, weighted_defects. cbn [combine map concat psum fold_right]. rewrite app_nil_r.
    split; [exact Ha|]. symmetry. apply (padd_0_r L).
  - unfold challenges in H. cbn [combine map fst snd] in H. fold (challenges sts pfs ts) in H.
    inversion Hs as [|x l Hs1 Hs2 Heq]; subst.
    set (xi := challenge t st pf) in *. cbn [process_all] in H.
    destruct (contains_zero (complete xi (pf_f pf))) eqn:Hz.
    { rewrite (proj1 (process_proof_other fuel p pf xi g ac Hp Hs1) Hz) in H. discriminate. }
    destruct (weights_loop_cases fuel g s0 s0 s0 s0 s0) as [([[[[[w1 w2] w3] w4] w5] g'] & Hw)|Hw].
    2:{ rewrite (proj2 (process_proof_other fuel p pf xi g ac Hp Hs1) Hz Hw) in H. discriminate. }
    destruct (process_proof_ok fuel p M M1 (st_get_offset st) (st_get_J st) pf xi g ac pts w1 w2 w3 w4 w5 g' Hp HM Hs1 Hz Hw Ha) as (ac1 & Hpp & Ha1 & Hv1).
    rewrite Hpp in H. cbn [obind] in H.
    destruct (IH pfs ts g' ac1 _ ac' ltac:(simpl in *; lia) ltac:(simpl in *; lia) Hs2 Ha1 H) as (Hz2 & ws & Hws & Ha2 & Hv2).
    split; [constructor; [apply no_zero_spec; exact Hz|exact Hz2]|].
    exists ([w1; w2; w3; w4; w5] :: ws). split; [|].
    { cbn [length]. eapply bw_cons; [|exact Hws]. eapply weights_loop_sound; [left; reflexivity|exact Hw]. }
    assert (Hbp : batch_points (st :: sts) (pf :: pfs) = own_points pf (st_get_offset st) (st_get_J st) ++ batch_points sts pfs) by reflexivity.
    rewrite Hbp, app_assoc. split; [exact Ha2|]. rewrite Hv2, Hv1.
    unfold weighted_defects. cbn [combine map psum fold_right]. fold xi. symmetry. apply (padd_assoc E L).
Qed.

Lemma process_all_complete (p : params E) M M1 : good_params p -> (length M = N.to_nat (get_N p) /\ length M1 = N.to_nat (get_N p)) ->
  forall sts pfs ts g ws, length sts = length pfs -> length sts = length ts ->
  Forall (well_shaped p) pfs ->
  Forall (fun x => no_zero (snd (fst x)) (challenge (snd x) (fst (fst x)) (snd (fst x)))) (combine (combine sts pfs) ts) ->
  batch_weights (E := E) 5 (length pfs) g ws ->
  exists fuel, forall fuel' ac pts, (fuel <= fuel')%nat -> good_acc p M M1 pts ac ->
  exists ac', process_all fuel' p pfs (map (fun xi => powers xi (S (N.to_nat (p_m p)))) (challenges sts pfs ts)) g ac = Ok ac'.
Proof.
  intros Hp HM. induction sts as [|st sts IH]; intros pfs ts g ws Hl1 Hl2 Hs Hz Hw;
    destruct pfs as [|pf pfs]; try discriminate; destruct ts as [|t ts]; try discriminate.
  - exists 0%nat. intros fuel' ac pts _ _. exists ac. reflexivity.
  - inversion Hs as [|x l Hs1 Hs2 Heq]; subst. cbn [combine] in Hz. inversion Hz as [|x l Hz1 Hz2 Heq]; subst.
    cbn [fst snd] in Hz1. inversion Hw as [|b g0 w g' rest Hw1 Hw2]; subst.
    destruct (IH pfs ts g' rest ltac:(simpl in *; lia) ltac:(simpl in *; lia) Hs2 Hz2 Hw2) as (f2 & H2).
    destruct (weights_loop_complete g w g' Hw1) as (f1 & w1 & w2 & w3 & w4 & w5 & Heqw & H1).
    exists (Nat.max f1 f2). intros fuel' ac pts Hf Ha.
    unfold challenges. cbn [combine map fst snd]. fold (challenges sts pfs ts). set (xi := challenge t st pf) in *.
    cbn [process_all].
    assert (Hw' : weights_loop (E := E) fuel' g s0 s0 s0 s0 s0 = Ok (w1, w2, w3, w4, w5, g')) by (apply H1; [lia|left; reflexivity]).
    destruct (process_proof_ok fuel' p M M1 (st_get_offset st) (st_get_J st) pf xi g ac pts w1 w2 w3 w4 w5 g' Hp HM Hs1 (proj1 (no_zero_spec _ _) Hz1) Hw' Ha) as (ac1 & Hpp & Ha1 & _).
    rewrite Hpp. cbn [obind]. destruct (H2 fuel' ac1 _ ltac:(lia) Ha1) as (ac' & H'). exists ac'. exact H'.
Qed.

Lemma process_all_cases fuel (p : params E) M M1 : good_params p -> (length M = N.to_nat (get_N p) /\ length M1 = N.to_nat (get_N p)) ->
  forall sts pfs ts g ac pts, length sts = length pfs -> length sts = length ts ->
  Forall (well_shaped p) pfs -> good_acc p M M1 pts ac ->
  let r := process_all fuel p pfs (map (fun xi => powers xi (S (N.to_nat (p_m p)))) (challenges sts pfs ts)) g ac in
  (exists ac', r = Ok ac') \/ r = OutOfFuel \/
  (r = Err (InvalidParameter "proof `f` matrix contained 0") /\
   Exists (fun x => ~ no_zero (snd (fst x)) (challenge (snd x) (fst (fst x)) (snd (fst x)))) (combine (combine sts pfs) ts)).
Proof.
  intros Hp HM. induction sts as [|st sts IH]; intros pfs ts g ac pts Hl1 Hl2 Hs Ha;
    destruct pfs as [|pf pfs]; try discriminate; destruct ts as [|t ts]; try discriminate.
  - left. exists ac. reflexivity.
  - inversion Hs as [|x l Hs1 Hs2 Heq]; subst.
    unfold challenges. cbn [combine map fst snd]. fold (challenges sts pfs ts). set (xi := challenge t st pf) in *.
    cbn [process_all].
    destruct (contains_zero (complete xi (pf_f pf))) eqn:Hz.
    { rewrite (proj1 (process_proof_other fuel p pf xi g ac Hp Hs1) Hz). right; right. split; [reflexivity|].
      apply Exists_cons_hd. cbn [fst snd]. fold xi. rewrite no_zero_spec. congruence. }
    destruct (weights_loop_cases fuel g s0 s0 s0 s0 s0) as [([[[[[w1 w2] w3] w4] w5] g'] & Hw)|Hw].
    2:{ rewrite (proj2 (process_proof_other fuel p pf xi g ac Hp Hs1) Hz Hw). right; left; reflexivity. }
    destruct (process_proof_ok fuel p M M1 (st_get_offset st) (st_get_J st) pf xi g ac pts w1 w2 w3 w4 w5 g' Hp HM Hs1 Hz Hw Ha) as (ac1 & Hpp & Ha1 & _).
    rewrite Hpp. cbn [obind].
    destruct (IH pfs ts g' ac1 _ ltac:(simpl in *; lia) ltac:(simpl in *; lia) Hs2 Ha1) as [H|[H|[H Hex]]].
    + left; exact H.
    + right; left; exact H.
    + right; right. split; [exact H|]. apply Exists_cons_tl. exact Hex.
Qed.

(** * The checks before the first transcript operation *)

Lemma all_equal_spec (l : list bytes) x : all_equal (x :: l) = true <-> forall y, In y l -> y = x.
Proof.
  revert x; induction l as [|z l IH]; intros x.
  - split; [intros _ y []|reflexivity].
  - change (all_equal (x :: z :: l)) with (bytes_eqb x z && all_equal (z :: l)).
    rewrite andb_true_iff, bytes_eqb_eq, IH. split.
    + intros [-> H] y [<-|Hy]; [reflexivity|apply H; exact Hy].
    + intros H. assert (z = x) by (apply H; left; reflexivity). subst z. split; [reflexivity|].
      intros y Hy. apply H. right; exact Hy.
Qed.

Lemma final_size_panics (p : params E) b : (1 <= b)%N ->
  final_size OverflowPanics p b = if (msm_size p b <? u32_bound)%N then Ok (msm_size p b) else Panic.
Proof.
  intros Hb. unfold final_size, arith32, msm_size.
  generalize (get_n p * get_m p)%N as nm. generalize (get_N p) as N. generalize (get_m p) as m. intros m N nm.
  assert (Hle : (4 + 1 + 1 + 3 * m <= b * (4 + 1 + 1 + 3 * m))%N).
  { rewrite <- (N.mul_1_l (4 + 1 + 1 + 3 * m)) at 1. apply N.mul_le_mono_r. exact Hb. }
  destruct (N.ltb_spec (1 + 1 + nm + 1 + 2 * N + 1 + b * (4 + 1 + 1 + 3 * m)) u32_bound) as [H|H];
  repeat (match goal with |- context [(?x <? u32_bound)%N] =>
            destruct (N.ltb_spec x u32_bound); cbn [obind]
            end); reflexivity || lia.
Qed.

Lemma final_size_wraps (p : params E) b : exists s, final_size OverflowWraps p b = Ok s.
Proof.
  assert (H : forall x, exists y, @arith32 proof_error OverflowWraps x = Ok y).
  { intros x. unfold arith32. destruct (x <? u32_bound)%N; eexists; reflexivity. }
  unfold final_size.
  repeat match goal with
  | |- context [obind (arith32 OverflowWraps ?x) _] => destruct (H x) as [? ->]; cbn [obind]
  end. apply H.
Qed.

Lemma batch_checks_ok md st0 sts (pfs : list (proof E)) ts :
  good_params (st_params st0) -> length (st0 :: sts) = length pfs -> length (st0 :: sts) = length ts ->
  batch_checks md (st0 :: sts) pfs ts = Ok (Some st0) <->
  Forall (same_ring st0) sts /\ Forall (well_shaped (st_params st0)) pfs /\
  fits md (st_params st0) (N.of_nat (length pfs)).
Proof.
  intros Hp Hl1 Hl2. unfold batch_checks.
  rewrite (proj2 (Nat.eqb_eq _ _) Hl1), (proj2 (Nat.eqb_eq _ _) Hl2). cbn [negb].
  cbn [map].
  destruct (all_equal (input_set_get_hash (st_get_input_set st0) :: _)) eqn:H1; cbn [negb].
  2:{ split; [discriminate|]. intros (Hs & _). exfalso.
      assert (Ht : all_equal (input_set_get_hash (st_get_input_set st0)
                     :: map (fun s => input_set_get_hash (st_get_input_set s)) sts) = true); [|congruence].
      apply all_equal_spec. intros y Hy. apply in_map_iff in Hy. destruct Hy as (s & <- & Hin).
      rewrite Forall_forall in Hs. apply (Hs s Hin). }
  destruct (all_equal (params_get_hash (st_get_params st0) :: _)) eqn:H2; cbn [negb].
  2:{ split; [discriminate|]. intros (Hs & _). exfalso.
      assert (Ht : all_equal (params_get_hash (st_get_params st0)
                     :: map (fun s => params_get_hash (st_get_params s)) sts) = true); [|congruence].
      apply all_equal_spec. intros y Hy. apply in_map_iff in Hy. destruct Hy as (s & <- & Hin).
      rewrite Forall_forall in Hs. apply (Hs s Hin). }
  assert (Hs : Forall (same_ring st0) sts).
  { apply Forall_forall. intros s Hin. split.
    - apply (proj1 (all_equal_spec _ _) H1). apply in_map_iff. exists s. auto.
    - apply (proj1 (all_equal_spec _ _) H2). apply in_map_iff. exists s. auto. }
  unfold st_get_params. pose proof (gp_n _ Hp) as Hn.
  destruct (check_dims_cases (st_params st0) pfs ltac:(lia)) as [Hd|(s & Hd)].
  2:{ rewrite Hd. cbn [obind]. split; [discriminate|]. intros (_ & Hw & _).
      apply (check_dims_ok (st_params st0) pfs ltac:(lia)) in Hw. congruence. }
  rewrite Hd. cbn [obind]. apply (check_dims_ok (st_params st0) pfs ltac:(lia)) in Hd.
  unfold checked, fits. change (2 ^ 32)%N with u32_bound.
  destruct (N.ltb_spec (N.of_nat (length pfs)) u32_bound) as [Hb|Hb]; cbn [ok_or obind].
  2:{ split; [discriminate|]. intros (_ & _ & Hc & _). lia. }
  destruct md.
  - rewrite final_size_panics by (rewrite <- Hl1; cbn [length]; lia).
    destruct (N.ltb_spec (msm_size (st_params st0) (N.of_nat (length pfs))) u32_bound) as [Hm|Hm]; cbn [obind].
    + split; auto.
    + split; [discriminate|]. intros (_ & _ & _ & [Hc|Hc]); [discriminate|lia].
  - destruct (final_size_wraps (st_params st0) (N.of_nat (length pfs))) as [x ->]. cbn [obind]. split; auto.
Qed.

(** What can go wrong before the first transcript operation. *)
Lemma batch_checks_cases md sts (pfs : list (proof E)) ts : Forall good_statement sts ->
  (exists s, batch_checks md sts pfs ts = Err (InvalidParameter s)) \/
  (batch_checks md sts pfs ts = Ok None /\ sts = [] /\ pfs = [] /\ ts = []) \/
  (exists st0 sts', sts = st0 :: sts' /\ batch_checks md sts pfs ts = Ok (Some st0) /\
                    length sts = length pfs /\ length sts = length ts) \/
  (md = OverflowPanics /\ batch_checks md sts pfs ts = Panic /\
   exists st0 sts', sts = st0 :: sts' /\ (2 ^ 32 <= msm_size (st_params st0) (N.of_nat (length pfs)))%N /\
                    length sts = length pfs /\ length sts = length ts).
Proof.
  intros Hg. unfold batch_checks.
  destruct (Nat.eqb_spec (length sts) (length pfs)) as [Hl1|]; cbn [negb]; [|left; eexists; reflexivity].
  destruct (Nat.eqb_spec (length sts) (length ts)) as [Hl2|]; cbn [negb]; [|left; eexists; reflexivity].
  destruct sts as [|st0 sts].
  { right; left. split; [reflexivity|]. destruct pfs; [|discriminate]. destruct ts; [|discriminate]. auto. }
  inversion Hg as [|x l Hg0 Hg1]; subst. pose proof (gp_n _ (gs_params _ Hg0)) as Hn.
  destruct (negb (all_equal _)); [left; eexists; reflexivity|].
  destruct (negb (all_equal _)); [left; eexists; reflexivity|].
  unfold st_get_params.
  destruct (check_dims_cases (st_params st0) pfs ltac:(lia)) as [Hd|(s & Hd)]; rewrite Hd; cbn [obind].
  2:{ left; eexists; reflexivity. }
  unfold checked. destruct (N.ltb_spec (N.of_nat (length pfs)) u32_bound) as [Hb|Hb]; cbn [ok_or obind].
  2:{ left; eexists; reflexivity. }
  destruct md.
  - rewrite final_size_panics by (rewrite <- Hl1; cbn [length]; lia).
    destruct (N.ltb_spec (msm_size (st_params st0) (N.of_nat (length pfs))) u32_bound) as [Hm|Hm]; cbn [obind].
    + right; right; left. exists st0, sts. auto.
    + right; right; right. split; [reflexivity|]. split; [reflexivity|]. exists st0, sts. auto.
  - destruct (final_size_wraps (st_params st0) (N.of_nat (length pfs))) as [x ->]. cbn [obind].
    right; right; left. exists st0, sts. auto.
Qed.

(** * The whole verifier *)

Lemma value_final (p : params E) M M1 pfs sts ac : good_acc p M M1 (batch_points sts pfs) ac ->
  vartime_multiscalar_mul (Er := proof_error) (final_scalars ac) (final_points p M M1 pfs sts)
  = Ok (value p M M1 (batch_points sts pfs) ac).
Proof.
  intros Ha. unfold vartime_multiscalar_mul, final_scalars, final_points. fold (batch_points sts pfs).
  change (concat (map (fun ps : proof E * statement E => [pf_A (fst ps); pf_B (fst ps); pf_C (fst ps); pf_D (fst ps); st_get_J (snd ps)]
                         ++ pf_X (fst ps) ++ pf_X1 (fst ps) ++ pf_Y (fst ps) ++ [st_get_offset (snd ps)]) (combine pfs sts))) with (batch_points sts pfs).
  unfold get_G, get_G1, get_CommitmentG, get_CommitmentH, get_U.
  rewrite (proj2 (Nat.eqb_eq _ _)).
  - f_equal. unfold value. rewrite (lincomb_app L) by apply Ha. f_equal.
    rewrite (lincomb_app L [_] ) by reflexivity. rewrite (lincomb_single L). f_equal.
    rewrite (lincomb_app L [_] ) by reflexivity. rewrite (lincomb_single L). f_equal.
    rewrite (lincomb_app L) by apply Ha. f_equal.
    rewrite (lincomb_app L [_]) by reflexivity. rewrite (lincomb_single L). f_equal.
    rewrite (lincomb_app L) by apply Ha. f_equal.
    rewrite (lincomb_app L) by apply Ha. f_equal. apply (lincomb_single L).
  - rewrite !app_length. cbn [length]. rewrite (ga_scalars _ _ _ _ _ Ha), (ga_CG _ _ _ _ _ Ha), (ga_M _ _ _ _ _ Ha), (ga_M1 _ _ _ _ _ Ha). reflexivity.
Qed.

Lemma acc_start_good (p : params E) M M1 : good_acc p M M1 [] (acc_start p M M1).
Proof. constructor; cbn [acc_start a_scalars a_CommitmentG a_M a_M1]; rewrite ?repeat_length; reflexivity. Qed.

Lemma acc_start_value (p : params E) M M1 : value p M M1 [] (acc_start p M M1) = pid E.
Proof.
  unfold value, acc_start. cbn [a_scalars a_G a_G1 a_CommitmentG a_CommitmentH a_M a_M1 a_U].
  rewrite lincomb_nil_l, !(lincomb_zeros L). module L.
Qed.

Lemma challenges_Forall (P : scalar -> Prop) sts pfs ts :
  Forall P (challenges sts pfs ts) <->
  Forall (fun x => P (challenge (snd x) (fst (fst x)) (snd (fst x)))) (combine (combine sts pfs) ts).
Proof. unfold challenges. rewrite Forall_map. reflexivity. Qed.

Lemma weight_rng_spec sts pfs ts :
  fst (finalize_rng null_rng (weights_transcript ++ tags sts pfs ts) [] tt) = weight_rng sts pfs ts.
Proof. reflexivity. Qed.

Definition nondeg (x : statement E * proof E * transcript) : Prop :=
  nondegenerate (snd x) (fst (fst x)) (snd (fst x)).

Lemma nonzero_dec (l : list scalar) : {Forall (fun x => x <> s0) l} + {Exists (fun x => x = s0) l}.
Proof.
  induction l as [|x l IH]; [left; constructor|].
  destruct (scalar_eq_dec x s0) as [H|H]; [right; apply Exists_cons_hd; exact H|].
  destruct IH as [IH|IH]; [left; constructor; assumption|right; apply Exists_cons_tl; exact IH].
Qed.

(** Acceptance with a given amount of fuel. *)
Lemma verify_batch_ok_sound fuel md st0 sts pfs ts ts' :
  good_statement st0 -> length (st0 :: sts) = length pfs -> length (st0 :: sts) = length ts ->
  verify_batch fuel md (st0 :: sts) pfs ts = (Ok tt, ts') ->
  Forall (same_ring st0) sts /\ Forall (well_shaped (st_params st0)) pfs /\
  fits md (st_params st0) (N.of_nat (length pfs)) /\
  Forall nondeg (combine (combine (st0 :: sts) pfs) ts) /\
  exists ws, batch_weights (E := E) 5 (length pfs) (weight_rng (st0 :: sts) pfs ts) ws /\
    weighted_defects (st_params st0) (is_M (st_input_set st0)) (is_M1 (st_input_set st0)) (st0 :: sts) pfs ts ws = pid E.
Proof.
  intros Hg Hl1 Hl2 H. pose proof (gs_params _ Hg) as Hp. pose proof (gp_m _ Hp) as Hm. pose proof (good_m_u32 _ Hp) as Hm32.
  assert (HM : length (is_M (st_input_set st0)) = N.to_nat (get_N (st_params st0)) /\
                length (is_M1 (st_input_set st0)) = N.to_nat (get_N (st_params st0)))
      by (pose proof (gs_len _ Hg); pose proof (gs_len1 _ Hg); split; lia).
  unfold verify_batch in H.
  destruct (batch_checks md (st0 :: sts) pfs ts) as [o|e| |] eqn:Hc; try discriminate.
  destruct o as [st|].
  2:{ exfalso. revert Hc. unfold batch_checks. destruct (negb _); [discriminate|]. destruct (negb _); [discriminate|].
      destruct (negb _); [discriminate|]. destruct (negb _); [discriminate|].
      intros Hc. oinv Hc. }
  assert (Hst : st = st0).
  { revert Hc. unfold batch_checks. destruct (negb _); [discriminate|]. destruct (negb _); [discriminate|].
    destruct (negb _); [discriminate|]. destruct (negb _); [discriminate|]. intros Hc. oinv Hc. congruence. }
  subst st. apply (batch_checks_ok md st0 sts pfs ts Hp Hl1 Hl2) in Hc. destruct Hc as (Hs & Hw & Hf).
  split; [exact Hs|]. split; [exact Hw|]. split; [exact Hf|].
  unfold st_get_params, st_get_input_set, get_keys, get_auxiliary_keys in H.
  destruct (nonzero_dec (challenges (st0 :: sts) pfs ts)) as [Hnz|Hz].
  2:{ exfalso. pose proof (challenge_loop_zero (st_params st0) ltac:(lia) Hm32 (st0 :: sts) pfs ts weights_transcript Hl1 Hl2) as Hcl.
      destruct (challenge_loop _ _ _ _ _) as [res ts2]. cbn [fst] in Hcl. rewrite (Hcl Hz) in H. discriminate. }
  rewrite (challenge_loop_spec (st_params st0) ltac:(lia) Hm32 (st0 :: sts) pfs ts weights_transcript Hl1 Hl2 Hnz) in H.
  cbn [obind] in H. pose proof (weight_rng_spec (st0 :: sts) pfs ts) as Hrng.
  destruct (finalize_rng _ _ _ _) as [g u]. cbn [fst] in Hrng. subst g.
  destruct (process_all fuel _ pfs _ _ _) as [ac|e| |] eqn:Hpa; try (cbn [obind] in H; congruence).
  destruct (process_all_sound fuel (st_params st0) (is_M (st_input_set st0)) (is_M1 (st_input_set st0)) Hp HM (st0 :: sts) pfs ts _ _ [] ac Hl1 Hl2 Hw
              (acc_start_good _ _ _) Hpa) as (Hz & ws & Hws & Ha & Hv).
  cbn [app] in Ha, Hv. cbn [obind] in H. rewrite (value_final _ _ _ _ _ _ Ha) in H. cbn [obind] in H.
  destruct (peqb E _ _) eqn:Heq in H; [|discriminate].
  apply (peqb_eq E L) in Heq. split.
  - apply challenges_Forall in Hnz. apply Forall_forall. intros x Hx. rewrite Forall_forall in Hnz, Hz.
    split; [apply Hnz; exact Hx|apply Hz; exact Hx].
  - exists ws. split; [exact Hws|]. rewrite <- Heq, Hv, acc_start_value. symmetry. apply (padd_0_l E L).
Qed.

Lemma verify_batch_ok_complete md st0 sts pfs ts ws :
  good_statement st0 -> length (st0 :: sts) = length pfs -> length (st0 :: sts) = length ts ->
  Forall (same_ring st0) sts -> Forall (well_shaped (st_params st0)) pfs ->
  fits md (st_params st0) (N.of_nat (length pfs)) ->
  Forall nondeg (combine (combine (st0 :: sts) pfs) ts) ->
  batch_weights (E := E) 5 (length pfs) (weight_rng (st0 :: sts) pfs ts) ws ->
  exists fuel, forall fuel', (fuel <= fuel')%nat ->
    verify_batch fuel' md (st0 :: sts) pfs ts =
    (if peqb E (weighted_defects (st_params st0) (is_M (st_input_set st0)) (is_M1 (st_input_set st0)) (st0 :: sts) pfs ts ws) (pid E)
     then Ok tt else Err FailedVerification,
     map (fun x => verifier_transcript (snd x) (fst (fst x)) (snd (fst x))) (combine (combine (st0 :: sts) pfs) ts)).
Proof.
  intros Hg Hl1 Hl2 Hs Hw Hf Hnd Hws. pose proof (gs_params _ Hg) as Hp. pose proof (gp_m _ Hp) as Hm. pose proof (good_m_u32 _ Hp) as Hm32.
  assert (HM : length (is_M (st_input_set st0)) = N.to_nat (get_N (st_params st0)) /\
                length (is_M1 (st_input_set st0)) = N.to_nat (get_N (st_params st0)))
      by (pose proof (gs_len _ Hg); pose proof (gs_len1 _ Hg); split; lia).
  assert (Hnz : Forall (fun xi => xi <> s0) (challenges (st0 :: sts) pfs ts)).
  { apply challenges_Forall. eapply Forall_impl; [|exact Hnd]. intros x Hx. apply Hx. }
  assert (Hz : Forall (fun x => no_zero (snd (fst x)) (challenge (snd x) (fst (fst x)) (snd (fst x)))) (combine (combine (st0 :: sts) pfs) ts)).
  { eapply Forall_impl; [|exact Hnd]. intros x Hx. exact (proj2 Hx). }
  destruct (process_all_complete (st_params st0) (is_M (st_input_set st0)) (is_M1 (st_input_set st0)) Hp HM (st0 :: sts) pfs ts _ ws Hl1 Hl2 Hw Hz Hws) as (fuel & Hfuel).
  exists fuel. intros fuel' Hle. unfold verify_batch.
  rewrite (proj2 (batch_checks_ok md st0 sts pfs ts Hp Hl1 Hl2) (conj Hs (conj Hw Hf))).
  unfold st_get_params, st_get_input_set, get_keys, get_auxiliary_keys.
  rewrite (challenge_loop_spec (st_params st0) ltac:(lia) Hm32 (st0 :: sts) pfs ts weights_transcript Hl1 Hl2 Hnz).
  f_equal. cbn [obind]. pose proof (weight_rng_spec (st0 :: sts) pfs ts) as Hrng.
  destruct (finalize_rng _ _ _ _) as [g u]. cbn [fst] in Hrng. subst g.
  destruct (Hfuel fuel' _ [] Hle (acc_start_good _ _ _)) as (ac & Hpa). rewrite Hpa. cbn [obind].
  destruct (process_all_sound fuel' (st_params st0) (is_M (st_input_set st0)) (is_M1 (st_input_set st0)) Hp HM (st0 :: sts) pfs ts _ _ [] ac Hl1 Hl2 Hw
              (acc_start_good _ _ _) Hpa) as (_ & ws' & Hws' & Ha & Hv).
  cbn [app] in Ha, Hv. rewrite (value_final _ _ _ _ _ _ Ha). cbn [obind].
  rewrite (batch_weights_fun _ _ _ _ Hws' _ Hws) in Hv. rewrite Hv, acc_start_value, (padd_0_l E L). reflexivity.
Qed.

(** The possible results, and the absence of panics. *)
Lemma verify_batch_cases fuel md (sts : list (statement E)) pfs ts : Forall good_statement sts ->
  let r := fst (verify_batch fuel md sts pfs ts) in
  r = Ok tt \/ (exists s, r = Err (InvalidParameter s)) \/ r = Err InvalidChallenge \/ r = Err FailedVerification \/
  r = OutOfFuel \/
  (md = OverflowPanics /\ r = Panic /\
   exists st0 sts', sts = st0 :: sts' /\ (2 ^ 32 <= msm_size (st_params st0) (N.of_nat (length pfs)))%N).
Proof.
  intros Hgs. unfold verify_batch.
  destruct (batch_checks_cases md sts pfs ts Hgs) as [(s & Hc)|[(Hc & _)|[(st0 & sts' & -> & Hc & Hl1 & Hl2)|(Hmd & Hc & st0 & sts' & -> & Hsz & _)]]];
    rewrite Hc.
  - right; left. exists s. reflexivity.
  - left. reflexivity.
  - inversion Hgs as [|x l Hg _]; subst.
    pose proof (gs_params _ Hg) as Hp. pose proof (gp_m _ Hp) as Hm. pose proof (good_m_u32 _ Hp) as Hm32.
    assert (HM : length (is_M (st_input_set st0)) = N.to_nat (get_N (st_params st0)) /\
                length (is_M1 (st_input_set st0)) = N.to_nat (get_N (st_params st0)))
      by (pose proof (gs_len _ Hg); pose proof (gs_len1 _ Hg); split; lia).
    apply (batch_checks_ok md st0 sts' pfs ts Hp Hl1 Hl2) in Hc. destruct Hc as (Hs & Hw & Hf).
    unfold st_get_params, st_get_input_set, get_keys, get_auxiliary_keys.
    destruct (nonzero_dec (challenges (st0 :: sts') pfs ts)) as [Hnz|Hz].
    2:{ pose proof (challenge_loop_zero (st_params st0) ltac:(lia) Hm32 (st0 :: sts') pfs ts weights_transcript Hl1 Hl2) as Hcl.
        destruct (challenge_loop _ _ _ _ _) as [res ts2]. cbn [fst] in Hcl |- *. rewrite (Hcl Hz).
        right; right; left. reflexivity. }
    rewrite (challenge_loop_spec (st_params st0) ltac:(lia) Hm32 (st0 :: sts') pfs ts weights_transcript Hl1 Hl2 Hnz).
    cbn [obind fst]. pose proof (weight_rng_spec (st0 :: sts') pfs ts) as Hrng.
    destruct (finalize_rng _ _ _ _) as [g u]. cbn [fst] in Hrng. subst g.
    destruct (process_all_cases fuel (st_params st0) (is_M (st_input_set st0)) (is_M1 (st_input_set st0)) Hp HM (st0 :: sts') pfs ts (weight_rng (st0 :: sts') pfs ts)
                (acc_start (st_params st0) (is_M (st_input_set st0)) (is_M1 (st_input_set st0))) [] Hl1 Hl2 Hw (acc_start_good _ _ _)) as [(ac & H)|[H|[H _]]].
    + rewrite H. cbn [obind].
      destruct (process_all_sound fuel (st_params st0) (is_M (st_input_set st0)) (is_M1 (st_input_set st0)) Hp HM (st0 :: sts') pfs ts _ _ [] ac Hl1 Hl2 Hw
                  (acc_start_good _ _ _) H) as (_ & _ & _ & Ha & _). cbn [app] in Ha.
      rewrite (value_final _ _ _ _ _ _ Ha). cbn [obind].
      destruct (peqb E _ _); [left; reflexivity|right; right; right; left; reflexivity].
    + rewrite H. right; right; right; right; left. reflexivity.
    + rewrite H. right; left. eexists. reflexivity.
  - right; right; right; right; right. split; [exact Hmd|]. split; [reflexivity|]. exists st0, sts'. auto.
Qed.

End VerifierFacts.
