(** Property C127: verification of Parallel Triptych is no sounder than 64 bits.  The weights of the verifier depend on a proof only through a 64-bit number
    (C70), so they are known before the proof is made.  For every two rings and every tag there is an offset, known in advance,
    for which anybody can make proofs that are accepted whenever this number comes out right. *)
From Verif Require Import ParSpecSound SpecUniform ParFacts ParProverFacts ParVerifierFacts ParCompleteness ParVerdict ParVerifierApi ParBinding Uniform ParExamples
  Properties_ParParams Properties_ParInputs Properties_ParProver Properties_ParVerifier.
From Verif Require Import CoreFacts CoreProver RingSum GrayFacts Scalar Algebra.

(** * Specification *)

(** The weights of a single proof whose 64-bit number is [tag]: the first five outputs of this generator, if none of them is zero, and so on. *)
Definition tag_rng (tag : N) : trng :=
  mk_trng [TAppend (b_ "dom-sep") (b_ "Parallel Triptych verifier weights"); TAppend (b_ "version") (le_bytes 8 0); TAppend (b_ "proof") (le_bytes 8 tag)]
          [] (repeat x00 32) [].
Definition weights_of_tag {E : env} (tag : N) (w1 w2 w3 w4 w5 : scalar) : Prop :=
  exists g, next_weights (E := E) 5 (tag_rng tag) [w1; w2; w3; w4; w5] g.
(** Random values in the right numbers. *)
Definition sized {E : env} (p : params E) (c : coins) : Prop :=
  shape (N.to_nat (get_m p)) (N.to_nat (get_n p)) (c_a c) /\ length (c_rho c) = N.to_nat (get_m p) /\ length (c_rho1 c) = N.to_nat (get_m p).
(** What the prover computes, without its checks, for position [l] and "keys" [r], [r1]; the challenge is that of its own first message. *)
Definition unchecked_proof {E : env} (t : transcript) (st : statement E) (l : N) (r r1 : scalar) (c : coins) : proof E :=
  honest_proof st l r r1 c (challenge t st (honest_proof st l r r1 c s0)).

(** * Proofs *)
Section Grind.
Context {E : env} (L : env_laws E).

Lemma honest_defects (st : statement E) l r r1 c xi K M1_l : good_statement st -> nth_error (is_M (st_input_set st)) (N.to_nat l) = Some K ->
  nth_error (is_M1 (st_input_set st)) (N.to_nat l) = Some M1_l -> good_coins st c ->
  let xim := spow xi (N.to_nat (p_m (st_params st))) in
  defects (st_params st) (is_M (st_input_set st)) (is_M1 (st_input_set st)) (st_offset st) (st_J st) (honest_proof st l r r1 c xi) xi =
  [pid E; pid E; pmul E xim (psub K (pmul E r (p_G (st_params st)))); pmul E xim (psub (p_U (st_params st)) (pmul E r (st_J st)));
   pmul E xim (psub (psub M1_l (st_offset st)) (pmul E r1 (p_G1 (st_params st))))].
Proof.
  intros Hg HM HM1 Hc xim. pose proof (gs_params st Hg) as Hp. pose proof (gp_n _ Hp) as Hn. pose proof (gp_m _ Hp) as Hm.
  pose proof (honest_complete st l r r1 c xi Hg Hc) as Hf. destruct Hc as (Ha & Hrho & Hrho1).
  assert (Hl : (N.to_nat l < length (is_M (st_input_set st)))%nat) by (apply nth_error_Some; congruence).
  assert (HlN : (l < p_n (st_params st) ^ p_m (st_params st))%N).
  { pose proof (gs_len _ Hg) as Hlen. rewrite (good_N _ Hp) in Hlen. lia. }
  set (n := N.to_nat (p_n (st_params st))) in *. set (m := N.to_nat (p_m (st_params st))) in *.
  unfold defects, get_G, get_G1, get_U, get_n, get_m, get_CommitmentG, get_CommitmentH. rewrite Hf. fold n m. clear Hf.
  apply f_equal2; [|apply f_equal2; [|apply f_equal2; [|apply f_equal2; [|apply f_equal2; [|reflexivity]]]]].
  - apply (psub_0 L). unfold response_entry. unfold honest_proof. cbn [pf_z_A pf_A pf_B]. unfold st_get_params, get_n, get_m, get_CommitmentG, get_CommitmentH. fold n m.
    replace (c_r_A c + xi * c_r_B c)%sc with (c_r_B c * xi + c_r_A c)%sc by ring.
    rewrite (com_mkmat L). apply (padd_comm E L).
  - apply (psub_0 L). unfold honest_proof. cbn [pf_z_C pf_C pf_D]. unfold st_get_params, get_n, get_m, get_CommitmentG, get_CommitmentH. fold n m.
    rewrite mkmat_map. replace (xi * c_r_C c + c_r_D c)%sc with (c_r_C c * xi + c_r_D c)%sc by ring.
    rewrite <- (com_mkmat L). f_equal. apply mkmat_ext. intros j i Hj Hi. unfold response_entry.
    unfold sigma_at. destruct (Nat.eqb i _); ring.
  - set (A := mat (map balance (c_a c))). set (S_ := sigma_at (p_n (st_params st)) l).
    set (pv := map (fun k => poly_prod (position_factors (p_n (st_params st)) m A S_ k)) (seq 0 (length (is_M (st_input_set st))))).
    assert (HX : pf_X (honest_proof st l r r1 c xi) =
                 map (fun j => padd E (lincomb (map (fun row => nth j row s0) pv) (is_M (st_input_set st))) (pmul E (nth j (c_rho c) s0) (p_G (st_params st)))) (seq 0 m)).
    { unfold honest_proof. cbn [pf_X]. unfold pv. apply map_ext. intros j. rewrite map_map. reflexivity. }
    rewrite HX. rewrite (X_combination L) by exact Hrho. unfold pv. rewrite map_map.
    unfold honest_proof. cbn [pf_z]. unfold st_get_params, get_m. fold m.
    set (M := is_M (st_input_set st)) in *.
    rewrite (lincomb_ext (fun k => sdot _ _)
              (fun k => code_product (p_n (st_params st)) m (mat (mkmat m n (response_entry st l c xi))) k
                        + (- spow xi m) * (if Nat.eqb k (N.to_nat l) then s1 else s0))%sc).
    + rewrite (lincomb_add L), (lincomb_scale_r L).
      assert (Hd : lincomb (map (fun k => if Nat.eqb k (N.to_nat l) then s1 else s0) (seq 0 (length M))) M = nth (N.to_nat l) M (pid E)).
      { apply (lincomb_delta L). exact Hl. }
      rewrite Hd, (nth_error_nth _ _ _ HM). unfold xim, psub. module L.
    + intros k Hk. apply in_seq in Hk.
      destruct (poly_position (p_n (st_params st)) m A S_ k) as (P1 & P2 & P3).
      rewrite poly_low by exact P1. rewrite P2, P3.
      rewrite (code_product_delta (p_n (st_params st)) m S_ l k).
      * assert (Hcp : code_product (p_n (st_params st)) m (fun j i => S_ j i * xi + A j i)%sc k
                      = code_product (p_n (st_params st)) m (mat (mkmat m n (response_entry st l c xi))) k).
        { unfold code_product. apply sprod_ext. intros j Hj. apply in_seq in Hj. rewrite mat_mkmat; [reflexivity|lia|].
          pose proof (gray_digit_lt (p_n (st_params st)) (N.of_nat k) j ltac:(lia)). unfold n. lia. }
        rewrite Hcp. ring.
      * exact Hn.
      * unfold m. rewrite N2Nat.id. exact HlN.
      * pose proof (good_len_nat _ Hg) as Hlen. change (length M = (N.to_nat (p_n (st_params st)) ^ m)%nat) in Hlen. lia.
      * intros j i Hj Hi. reflexivity.
  - unfold honest_proof. cbn [pf_z pf_Y]. unfold st_get_params, st_get_J, get_m. fold m.
    rewrite <- Hrho, <- (map_seq_nth (fun rh => pmul E rh (st_J st)) (c_rho c)), Hrho.
    unfold powers at 1. rewrite <- Hrho at 2. rewrite (Y_combination L), Hrho. unfold powers, xim, psub. module L.
  - pose proof (gs_len1 _ Hg) as Hlen1.
    assert (HsM : length (shifted (is_M1 (st_input_set st)) (st_offset st)) = length (is_M (st_input_set st)))
      by (unfold shifted; rewrite map_length; exact Hlen1).
    set (A := mat (map balance (c_a c))). set (S_ := sigma_at (p_n (st_params st)) l).
    set (pv := map (fun k => poly_prod (position_factors (p_n (st_params st)) m A S_ k)) (seq 0 (length (is_M (st_input_set st))))).
    assert (HX : pf_X1 (honest_proof st l r r1 c xi) =
                 map (fun j => padd E (lincomb (map (fun row => nth j row s0) pv) (shifted (is_M1 (st_input_set st)) (st_offset st))) (pmul E (nth j (c_rho1 c) s0) (p_G1 (st_params st)))) (seq 0 m)).
    { unfold honest_proof. cbn [pf_X1]. unfold pv. apply map_ext. intros j. rewrite map_map. reflexivity. }
    rewrite HX. rewrite (X_combination L) by exact Hrho1. unfold pv. rewrite map_map.
    unfold honest_proof. cbn [pf_z1]. unfold st_get_params, get_m. fold m.
    set (M := is_M (st_input_set st)) in *. set (M1 := shifted (is_M1 (st_input_set st)) (st_offset st)) in *.
    rewrite (lincomb_ext (fun k => sdot _ _)
              (fun k => code_product (p_n (st_params st)) m (mat (mkmat m n (response_entry st l c xi))) k
                        + (- spow xi m) * (if Nat.eqb k (N.to_nat l) then s1 else s0))%sc).
    + rewrite (lincomb_add L), (lincomb_scale_r L).
      assert (Hd : lincomb (map (fun k => if Nat.eqb k (N.to_nat l) then s1 else s0) (seq 0 (length M))) M1 = nth (N.to_nat l) M1 (pid E)).
      { rewrite <- HsM. apply (lincomb_delta L). rewrite HsM. exact Hl. }
      rewrite Hd, (nth_error_nth _ _ _ (map_nth_error (fun P => psub P (st_offset st)) _ _ HM1)). unfold xim. set (Q := psub M1_l _). unfold psub. module L.
    + intros k Hk. apply in_seq in Hk.
      destruct (poly_position (p_n (st_params st)) m A S_ k) as (P1 & P2 & P3).
      rewrite poly_low by exact P1. rewrite P2, P3.
      rewrite (code_product_delta (p_n (st_params st)) m S_ l k).
      * assert (Hcp : code_product (p_n (st_params st)) m (fun j i => S_ j i * xi + A j i)%sc k
                      = code_product (p_n (st_params st)) m (mat (mkmat m n (response_entry st l c xi))) k).
        { unfold code_product. apply sprod_ext. intros j Hj. apply in_seq in Hj. rewrite mat_mkmat; [reflexivity|lia|].
          pose proof (gray_digit_lt (p_n (st_params st)) (N.of_nat k) j ltac:(lia)). unfold n. lia. }
        rewrite Hcp. ring.
      * exact Hn.
      * unfold m. rewrite N2Nat.id. exact HlN.
      * pose proof (good_len_nat _ Hg) as Hlen. change (length M = (N.to_nat (p_n (st_params st)) ^ m)%nat) in Hlen. lia.
      * intros j i Hj Hi. reflexivity.
Qed.


Lemma unchecked_challenge t (st : statement E) l r r1 c : challenge t st (unchecked_proof t st l r r1 c) = challenge t st (honest_proof st l r r1 c s0).
Proof. reflexivity. Qed.

Lemma unchecked_defects t (st : statement E) l r r1 c K K1 : made_statement st -> sized (st_get_params st) c ->
  nth_error (get_keys (st_get_input_set st)) (N.to_nat l) = Some K -> nth_error (get_auxiliary_keys (st_get_input_set st)) (N.to_nat l) = Some K1 ->
  let p := st_get_params st in
  let pf := unchecked_proof t st l r r1 c in
  let xim := spow (challenge t st pf) (N.to_nat (get_m p)) in
  defects p (get_keys (st_get_input_set st)) (get_auxiliary_keys (st_get_input_set st)) (st_get_offset st) (st_get_J st) pf (challenge t st pf) =
  [pid E; pid E; pmul E xim (psub K (pmul E r (get_G p))); pmul E xim (psub (get_U p) (pmul E r (st_get_J st)));
   pmul E xim (psub (psub K1 (st_get_offset st)) (pmul E r1 (get_G1 p)))].
Proof.
  intros Hst Hc HK HK1 p pf xim. pose proof (made_statement_good L st Hst) as Hg.
  exact (honest_defects st l r r1 c (challenge t st (honest_proof st l r r1 c s0)) K K1 Hg HK HK1 Hc).
Qed.

Lemma unchecked_total t (st : statement E) l r r1 c K K1 w1 w2 w3 w4 w5 : made_statement st -> sized (st_get_params st) c ->
  nth_error (get_keys (st_get_input_set st)) (N.to_nat l) = Some K -> nth_error (get_auxiliary_keys (st_get_input_set st)) (N.to_nat l) = Some K1 ->
  let p := st_get_params st in
  let pf := unchecked_proof t st l r r1 c in
  challenge t st pf <> s0 ->
  (weighted_defects p (get_keys (st_get_input_set st)) (get_auxiliary_keys (st_get_input_set st)) [st] [pf] [t] [[w1; w2; w3; w4; w5]] = pid E <->
   padd E (padd E (pmul E w3 (psub K (pmul E r (get_G p)))) (pmul E w4 (psub (get_U p) (pmul E r (st_get_J st)))))
     (pmul E w5 (psub (psub K1 (st_get_offset st)) (pmul E r1 (get_G1 p)))) = pid E).
Proof.
  intros Hst Hc HK HK1 p pf Hx. unfold weighted_defects. cbn [combine map psum fold_right].
  pose proof (unchecked_defects t st l r r1 c K K1 Hst Hc HK HK1) as Hd. cbv zeta in Hd. fold pf p in Hd. rewrite Hd.
  rewrite !lincomb_cons, lincomb_nil_l. pose proof (spow_nonzero _ (N.to_nat (get_m p)) Hx) as Hxm.
  set (xim := spow (challenge t st pf) (N.to_nat (get_m p))) in *. set (b := psub (get_U p) _). set (d := psub (psub K1 _) _). set (a := psub K _).
  assert (Hre : padd E (padd E (pmul E w1 (pid E)) (padd E (pmul E w2 (pid E)) (padd E (pmul E w3 (pmul E xim a)) (padd E (pmul E w4 (pmul E xim b)) (padd E (pmul E w5 (pmul E xim d)) (pid E)))))) (pid E)
    = pmul E xim (padd E (padd E (pmul E w3 a) (pmul E w4 b)) (pmul E w5 d))) by module L.
  rewrite Hre. split; [intros H; exact (pmul_eq_0 L _ _ H Hxm)|]. intros ->. apply (pmul_0_r L).
Qed.

Lemma tag_rng_is t (st : statement E) pf : weight_rng [st] [pf] [t] = tag_rng (proof_tag t st pf).
Proof. reflexivity. Qed.
Lemma weights_table t (st : statement E) pf w1 w2 w3 w4 w5 : weights_of_tag (E := E) (proof_tag t st pf) w1 w2 w3 w4 w5 <->
  batch_weights (E := E) 5 1 (weight_rng [st] [pf] [t]) [[w1; w2; w3; w4; w5]].
Proof.
  rewrite tag_rng_is. split.
  - intros (g & H). econstructor; [exact H|constructor].
  - intros H. inversion H; subst. eexists. eassumption.
Qed.
Lemma statement_for (p : params E) M M1 offset J : made_params p -> N.of_nat (length M) = get_N p -> length M1 = length M -> ~ In (pid E) M -> ~ In offset M1 ->
  exists st, made_statement st /\ st_get_params st = p /\ get_keys (st_get_input_set st) = M /\ get_auxiliary_keys (st_get_input_set st) = M1 /\
    st_get_offset st = offset /\ st_get_J st = J.
Proof.
  intros Hp Hlen Hlen1 Hid Ho. pose proof (made_good p Hp) as Hg.
  assert (Hs : exists s, input_set_new M M1 = Ok s /\ get_keys s = M /\ get_auxiliary_keys s = M1).
  { unfold input_set_new, new_internal, checked. rewrite Hlen1, Nat.eqb_refl, Hlen, (good_N p Hg). cbn [negb].
      rewrite (proj2 (N.ltb_lt _ _) (gp_pow p Hg)). eexists. split; [reflexivity|split; reflexivity]. }
  destruct Hs as (s & Hs & Hk & Hk1). destruct (C60_statement_accepted_exactly E L p s offset J Hp) as (H1 & _). rewrite Hk, Hk1, Hlen, (good_N p Hg) in H1.
  destruct (H1 eq_refl Hid Ho) as (st & Hst & Hsp & Hss & HsO & HsJ). exists st.
  split; [exists p, s, offset, J; split; [exact Hp|split; [left; exists M, M1; exact Hs|exact Hst]]|]. split; [exact Hsp|]. split; [rewrite Hss; exact Hk|].
  split; [rewrite Hss; exact Hk1|]. split; [exact HsO|exact HsJ].
Qed.
Lemma forged_tag_cancels (p : params E) w3 w4 w5 K K1 offset r r1 : w4 <> s0 -> r <> s0 ->
  padd E (padd E (pmul E w3 (psub K (pmul E r (get_G p))))
    (pmul E w4 (psub (get_U p) (pmul E r (pmul E (sinv r) (padd E (get_U p) (padd E (pmul E (w3 * sinv w4)%sc (psub K (pmul E r (get_G p))))
                                            (pmul E (w5 * sinv w4)%sc (psub (psub K1 offset) (pmul E r1 (get_G1 p)))))))))))
    (pmul E w5 (psub (psub K1 offset) (pmul E r1 (get_G1 p)))) = pid E.
Proof.
  intros H4 Hr. generalize (psub K (pmul E r (get_G p))) (psub (psub K1 offset) (pmul E r1 (get_G1 p))). intros D D1. generalize (get_U p). intros U. unfold psub.
  assert (Hre : padd E (padd E (pmul E w3 D) (pmul E w4 (padd E U (popp E (pmul E r (pmul E (sinv r) (padd E U (padd E (pmul E (w3 * sinv w4)%sc D) (pmul E (w5 * sinv w4)%sc D1)))))))))
      (pmul E w5 D1) =
    padd E (padd E (pmul E (w3 * (s1 - (sinv r * r) * (sinv w4 * w4)))%sc D) (pmul E (w5 * (s1 - (sinv r * r) * (sinv w4 * w4)))%sc D1)) (pmul E (w4 * (s1 - sinv r * r))%sc U)) by module L.
  rewrite Hre, (sinv_l r Hr), (sinv_l w4 H4). replace (w3 * (s1 - s1 * s1))%sc with s0 by ring. replace (w5 * (s1 - s1 * s1))%sc with s0 by ring.
  replace (w4 * (s1 - s1))%sc with s0 by ring. rewrite !(pmul_0_l L), !(padd_0_l E L). reflexivity.
Qed.
End Grind.

(** * Theorems *)

(** What is wrong with such a proof: the keys at its position are not those of [r] and [r1], and the tag is not that of [r]; nothing else. *)
Theorem C127_what_is_wrong :
  forall (E : env), env_laws E -> forall t (st : statement E) l r r1 c K K1, made_statement st -> sized (st_get_params st) c ->
    nth_error (get_keys (st_get_input_set st)) (N.to_nat l) = Some K -> nth_error (get_auxiliary_keys (st_get_input_set st)) (N.to_nat l) = Some K1 ->
    let p := st_get_params st in
    let pf := unchecked_proof t st l r r1 c in
    let xi_m := spow (challenge t st pf) (N.to_nat (get_m p)) in
    well_shaped p pf /\
    defects p (get_keys (st_get_input_set st)) (get_auxiliary_keys (st_get_input_set st)) (st_get_offset st) (st_get_J st) pf (challenge t st pf) =
    [pid E; pid E; pmul E xi_m (psub K (pmul E r (get_G p))); pmul E xi_m (psub (get_U p) (pmul E r (st_get_J st)));
     pmul E xi_m (psub (psub K1 (st_get_offset st)) (pmul E r1 (get_G1 p)))].
Proof.
  intros E L t st l r r1 c K K1 Hst Hc HK HK1 p pf xi_m. split; [apply (honest_well_shaped st l r r1 c)|]. exact (unchecked_defects L t st l r r1 c K K1 Hst Hc HK HK1).
Qed.
Print Assumptions C127_what_is_wrong.

(** When it is accepted. *)
Theorem C127_accepted_exactly :
  forall (E : env), env_laws E -> forall md t (st : statement E) l r r1 c K K1 w1 w2 w3 w4 w5, made_statement st -> sized (st_get_params st) c ->
    nth_error (get_keys (st_get_input_set st)) (N.to_nat l) = Some K -> nth_error (get_auxiliary_keys (st_get_input_set st)) (N.to_nat l) = Some K1 ->
    let p := st_get_params st in
    let pf := unchecked_proof t st l r r1 c in
    fits md p 1 -> nondegenerate t st pf -> weights_of_tag (E := E) (proof_tag t st pf) w1 w2 w3 w4 w5 ->
    ((exists t', verify_returns md pf st t (Ok tt) t') <->
     padd E (padd E (pmul E w3 (psub K (pmul E r (get_G p)))) (pmul E w4 (psub (get_U p) (pmul E r (st_get_J st)))))
     (pmul E w5 (psub (psub K1 (st_get_offset st)) (pmul E r1 (get_G1 p)))) = pid E).
Proof.
  intros E L md t st l r r1 c K K1 w1 w2 w3 w4 w5 Hst Hc HK HK1 p pf Hf Hn Hw. pose proof (made_statement_good L st Hst) as Hg.
  pose proof (unchecked_total L t st l r r1 c K K1 w1 w2 w3 w4 w5 Hst Hc HK HK1 (proj1 Hn)) as Ht. cbv zeta in Ht. fold p pf in Ht. rewrite <- Ht. clear Ht.
  assert (Hacc : (exists t', verify_returns md pf st t (Ok tt) t') <-> exists ts', verify_batch_returns md [st] [pf] [t] (Ok tt) ts').
  { split; [intros (t' & H); exists [t']; apply verify_returns_batch; exact H|]. intros (ts' & H).
    destruct H as (fuel & H & Hr). destruct (verify_batch_one fuel md st pf t) as (t1 & H1 & H2). exists t1. apply verify_returns_batch.
    exists fuel. split; [|exact Hr]. rewrite H in H1 |- *. cbn [snd] in H1. subst ts'. reflexivity. }
  rewrite Hacc. rewrite (verify_batch_accepts_iff L md st [] [pf] [t] Hg). apply weights_table in Hw. split.
  - intros (_ & _ & _ & _ & _ & _ & ws & Hws & Hz). rewrite (batch_weights_fun _ _ _ _ Hws _ Hw) in Hz. exact Hz.
  - intros Hz. split; [reflexivity|]. split; [reflexivity|]. split; [constructor|]. split; [constructor; [apply (honest_well_shaped st l r r1 c)|constructor]|].
    split; [exact Hf|]. split; [constructor; [exact Hn|constructor]|]. eexists. split; [exact Hw|exact Hz].
Qed.
Print Assumptions C127_accepted_exactly.

(** So: for every 64-bit number, all rings, every position and every linking tag there is an offset, known in advance, such that everybody
    can make accepted proofs without any key: all random values will do for which the number of the proof is the given one.  If [U] is not
    the identity, none of these proofs is valid, and if the tag is the identity nobody has keys for it. *)
Theorem C127_false_proofs_accepted :
  forall (E : env), env_laws E -> forall (p : params E) tag w1 w2 w3 w4 w5, made_params p -> weights_of_tag (E := E) tag w1 w2 w3 w4 w5 ->
    forall M M1 l K K1, N.of_nat (length M) = get_N p -> length M1 = length M -> ~ In (pid E) M ->
    nth_error M (N.to_nat l) = Some K -> nth_error M1 (N.to_nat l) = Some K1 ->
    let offset := padd E K1 (padd E (pmul E (w3 * sinv w5)%sc K) (pmul E (w4 * sinv w5)%sc (get_U p))) in
    (forall J, ~ In offset M1 ->
       exists st, made_statement st /\ st_get_params st = p /\ get_keys (st_get_input_set st) = M /\ get_auxiliary_keys (st_get_input_set st) = M1 /\
         st_get_offset st = offset /\ st_get_J st = J) /\
    forall st, made_statement st -> st_get_params st = p -> get_keys (st_get_input_set st) = M -> get_auxiliary_keys (st_get_input_set st) = M1 ->
      st_get_offset st = offset ->
      (st_get_J st = pid E -> get_U p <> pid E -> forall l r r1, ~ relation st l r r1) /\
      forall md t c, sized p c -> fits md p 1 ->
        let pf := unchecked_proof t st l s0 s0 c in
        nondegenerate t st pf ->
        (get_U p <> pid E -> ~ valid_proof t st pf) /\
        (proof_tag t st pf = tag -> exists t', verify_returns md pf st t (Ok tt) t').
Proof.
  intros E L p tag w1 w2 w3 w4 w5 Hp Hw M M1 l K K1 Hlen Hlen1 Hid HlK HlK1 offset. pose proof (made_good p Hp) as Hg.
  assert (Hnz : ~ In s0 [w1; w2; w3; w4; w5]).
  { destruct Hw as (g & Hw). clear - Hw. remember [w1; w2; w3; w4; w5] as ws eqn:Hws. induction Hw; [assumption|apply IHHw; assumption]. }
  assert (H5 : w5 <> s0) by (intros ->; apply Hnz; cbn [In]; tauto).
  split.
  { intros J Ho. exact (statement_for L p M M1 offset J Hp Hlen Hlen1 Hid Ho). }
  intros st Hm Hsp HM HM1 HO. split.
  - intros HJ HU l' r r1 (_ & _ & Hr). rewrite HJ, (pmul_0_r L), Hsp in Hr. exact (HU (eq_sym Hr)).
  - intros md t c Hc Hf pf Hn. rewrite <- Hsp in Hc, Hf. rewrite <- HM in HlK. rewrite <- HM1 in HlK1. split.
    + intros HU (_ & _ & _ & He). apply (defects_zero L) in He. pose proof (unchecked_defects L t st l s0 s0 c K K1 Hm Hc HlK HlK1) as Hd. cbv zeta in Hd. fold pf in Hd. rewrite Hd in He.
      apply Forall_inv_tail, Forall_inv_tail, Forall_inv_tail, Forall_inv in He. apply (pmul_eq_0 L) in He; [|apply spow_nonzero; exact (proj1 Hn)].
      apply (proj1 (psub_0 L _ _)) in He. rewrite Hsp, (pmul_0_l L) in He. exact (HU He).
    + intros Ht. rewrite <- Ht in Hw. apply (C127_accepted_exactly E L md t st l s0 s0 c K K1 w1 w2 w3 w4 w5 Hm Hc HlK HlK1 Hf Hn Hw).
      rewrite Hsp, HO. unfold offset, psub. generalize (get_U p). intros U.
      assert (Hre : padd E (padd E (pmul E w3 (padd E K (popp E (pmul E s0 (get_G p))))) (pmul E w4 (padd E U (popp E (pmul E s0 (st_get_J st))))))
          (pmul E w5 (padd E (padd E K1 (popp E (padd E K1 (padd E (pmul E (w3 * sinv w5)%sc K) (pmul E (w4 * sinv w5)%sc U))))) (popp E (pmul E s0 (get_G1 p)))))
        = padd E (pmul E (w3 * (s1 - sinv w5 * w5))%sc K) (pmul E (w4 * (s1 - sinv w5 * w5))%sc U)) by module L.
      rewrite Hre, (sinv_l w5 H5). replace (w3 * (s1 - s1))%sc with s0 by ring. replace (w4 * (s1 - s1))%sc with s0 by ring.
      rewrite !(pmul_0_l L). apply (padd_0_l E L).
Qed.
Print Assumptions C127_false_proofs_accepted.

(** Nor is a special offset needed: for every 64-bit number, all rings, every offset, every position and all [r], [r1] with [r] not zero
    there is a linking tag, known in advance, for which everybody can make accepted proofs without any key. *)
Definition forged_tag {E : env} (p : params E) (w3 w4 w5 : scalar) (K K1 offset : pt E) (r r1 : scalar) : pt E :=
  pmul E (sinv r) (padd E (get_U p) (padd E (pmul E (w3 * sinv w4)%sc (psub K (pmul E r (get_G p))))
                                            (pmul E (w5 * sinv w4)%sc (psub (psub K1 offset) (pmul E r1 (get_G1 p)))))).
Theorem C127_any_rings :
  forall (E : env), env_laws E -> forall (p : params E) tag w1 w2 w3 w4 w5, made_params p -> weights_of_tag (E := E) tag w1 w2 w3 w4 w5 ->
    forall M M1 offset l K K1 r r1, N.of_nat (length M) = get_N p -> length M1 = length M -> ~ In (pid E) M -> ~ In offset M1 ->
    nth_error M (N.to_nat l) = Some K -> nth_error M1 (N.to_nat l) = Some K1 -> r <> s0 ->
    let J := forged_tag p w3 w4 w5 K K1 offset r r1 in
    (exists st, made_statement st /\ st_get_params st = p /\ get_keys (st_get_input_set st) = M /\ get_auxiliary_keys (st_get_input_set st) = M1 /\
       st_get_offset st = offset /\ st_get_J st = J) /\
    forall st, made_statement st -> st_get_params st = p -> get_keys (st_get_input_set st) = M -> get_auxiliary_keys (st_get_input_set st) = M1 ->
      st_get_offset st = offset -> st_get_J st = J ->
      forall md t c, sized p c -> fits md p 1 ->
        let pf := unchecked_proof t st l r r1 c in
        nondegenerate t st pf ->
        (K <> pmul E r (get_G p) \/ psub K1 offset <> pmul E r1 (get_G1 p) -> ~ valid_proof t st pf) /\
        (proof_tag t st pf = tag -> exists t', verify_returns md pf st t (Ok tt) t').
Proof.
  intros E L p tag w1 w2 w3 w4 w5 Hp Hw M M1 offset l K K1 r r1 Hlen Hlen1 Hid Ho HK HK1 Hr J.
  assert (H4 : w4 <> s0).
  { intros ->. destruct Hw as (g & Hw). remember [w1; w2; w3; s0; w5] as ws eqn:Hws. induction Hw; [|apply IHHw; assumption]. apply H0. rewrite Hws. cbn [In]. tauto. }
  split; [exact (statement_for L p M M1 offset J Hp Hlen Hlen1 Hid Ho)|].
  intros st Hm Hsp HM HM1 HO HJ md t c Hc Hf pf Hn. rewrite <- Hsp in Hc, Hf. rewrite <- HM in HK. rewrite <- HM1 in HK1. split.
  - intros Hor (_ & _ & _ & He). apply (defects_zero L) in He. pose proof (unchecked_defects L t st l r r1 c K K1 Hm Hc HK HK1) as Hd. cbv zeta in Hd. fold pf in Hd. rewrite Hd in He.
    pose proof (spow_nonzero _ (N.to_nat (get_m (st_get_params st))) (proj1 Hn)) as Hx. rewrite Hsp, HO in He. rewrite Hsp in Hx. destruct Hor as [Hne|Hne]; apply Hne.
    + apply Forall_inv_tail, Forall_inv_tail, Forall_inv in He. apply (pmul_eq_0 L) in He; [|exact Hx]. exact (proj1 (psub_0 L _ _) He).
    + apply Forall_inv_tail, Forall_inv_tail, Forall_inv_tail, Forall_inv_tail, Forall_inv in He. apply (pmul_eq_0 L) in He; [|exact Hx]. exact (proj1 (psub_0 L _ _) He).
  - intros Ht. rewrite <- Ht in Hw. apply (C127_accepted_exactly E L md t st l r r1 c K K1 w1 w2 w3 w4 w5 Hm Hc HK HK1 Hf Hn Hw).
    rewrite Hsp, HO, HJ. exact (forged_tag_cancels L p w3 w4 w5 K K1 offset r r1 H4 Hr).
Qed.
Print Assumptions C127_any_rings.

(** Different [r] give different linking tags, and for every key of the ring at most one of them makes the statement true, with the exception of
    this offset. *)
Theorem C127_many_tags :
  forall (E : env), env_laws E -> forall (p : params E) w3 w4 w5 K K1 offset r r' r1, w4 <> s0 -> r <> s0 -> r' <> s0 ->
    padd E (padd E (pmul E w3 K) (pmul E w4 (get_U p))) (pmul E w5 (psub (psub K1 offset) (pmul E r1 (get_G1 p)))) <> pid E ->
    (forged_tag p w3 w4 w5 K K1 offset r r1 = forged_tag p w3 w4 w5 K K1 offset r' r1 -> r = r') /\
    (forall x, get_U p <> pid E -> pmul E x (forged_tag p w3 w4 w5 K K1 offset r r1) = get_U p ->
       pmul E x (forged_tag p w3 w4 w5 K K1 offset r' r1) = get_U p -> r = r').
Proof.
  intros E L p w3 w4 w5 K K1 offset r r' r1 H4 Hr Hr' HK. unfold forged_tag.
  generalize dependent (psub (psub K1 offset) (pmul E r1 (get_G1 p))). intros D HK.
  set (ft := fun x => pmul E (sinv x) (padd E (get_U p) (padd E (pmul E (w3 * sinv w4)%sc (psub K (pmul E x (get_G p)))) (pmul E (w5 * sinv w4)%sc D)))).
  change (pmul E (sinv r) _) with (ft r). change (pmul E (sinv r') _) with (ft r').
  assert (Hinj : ft r = ft r' -> r = r').
  { set (Q := padd E (get_U p) (padd E (pmul E (w3 * sinv w4)%sc K) (pmul E (w5 * sinv w4)%sc D))).
    assert (HQ : Q <> pid E).
    { intros Hc. apply HK. unfold Q in Hc. clear HK Q ft. revert Hc. generalize (get_U p). intros U Hc. apply (f_equal (pmul E w4)) in Hc. rewrite (pmul_0_r L) in Hc.
      rewrite <- Hc.
      assert (Hre : pmul E w4 (padd E U (padd E (pmul E (w3 * sinv w4)%sc K) (pmul E (w5 * sinv w4)%sc D))) =
        padd E (padd E (pmul E (w3 * (sinv w4 * w4))%sc K) (pmul E w4 U)) (pmul E (w5 * (sinv w4 * w4))%sc D)) by module L.
      rewrite Hre, (sinv_l w4 H4). replace (w3 * s1)%sc with w3 by ring. replace (w5 * s1)%sc with w5 by ring. reflexivity. }
    assert (Hft : forall x, x <> s0 -> ft x = padd E (pmul E (sinv x) Q) (pmul E (- (w3 * sinv w4))%sc (get_G p))).
    { intros x Hx. unfold ft, Q, psub. generalize (get_U p) (get_G p). intros U G.
      assert (Hre : pmul E (sinv x) (padd E U (padd E (pmul E (w3 * sinv w4)%sc (padd E K (popp E (pmul E x G)))) (pmul E (w5 * sinv w4)%sc D))) =
        padd E (pmul E (sinv x) (padd E U (padd E (pmul E (w3 * sinv w4)%sc K) (pmul E (w5 * sinv w4)%sc D)))) (pmul E (- ((sinv x * x) * (w3 * sinv w4)))%sc G)) by module L.
      rewrite Hre, (sinv_l x Hx). replace (s1 * (w3 * sinv w4))%sc with (w3 * sinv w4)%sc by ring. reflexivity. }
    intros He. rewrite (Hft r Hr), (Hft r' Hr') in He.
    assert (Hd : pmul E (sinv r - sinv r')%sc Q = pid E).
    { assert (Hre : pmul E (sinv r - sinv r')%sc Q = psub (padd E (pmul E (sinv r) Q) (pmul E (- (w3 * sinv w4))%sc (get_G p)))
          (padd E (pmul E (sinv r') Q) (pmul E (- (w3 * sinv w4))%sc (get_G p)))) by (unfold psub; module L).
      rewrite Hre. apply (psub_0 L). exact He. }
    destruct (scalar_eq_dec (sinv r - sinv r')%sc s0) as [Hz|Hz]; [|destruct (HQ (pmul_eq_0 L _ _ Hd Hz))].
    assert (Hi : sinv r = sinv r') by (replace (sinv r) with ((sinv r - sinv r') + sinv r')%sc by ring; rewrite Hz; ring).
    replace r with (r * (sinv r' * r'))%sc by (rewrite (sinv_l r' Hr'); ring). rewrite <- Hi. replace (r * (sinv r * r'))%sc with ((sinv r * r) * r')%sc by ring.
    rewrite (sinv_l r Hr). ring. }
  split; [exact Hinj|]. intros x HU H1 H2. apply Hinj.
  destruct (scalar_eq_dec x s0) as [->|Hx]; [rewrite (pmul_0_l L) in H1; destruct (HU (eq_sym H1))|].
  apply (proj1 (psub_0 L _ _)). apply (pmul_eq_0 L x); [|exact Hx]. rewrite <- H2 in H1. apply (proj2 (psub_0 L _ _)) in H1.
  revert H1. generalize (ft r) (ft r'). intros J J' H1. rewrite <- H1. unfold psub. module L.
Qed.
Print Assumptions C127_many_tags.

(** How often that is: the number of a proof is made of eight bytes of output, and one value of these bytes in [2^64] is right.  (Weights
    that were drawn after the proof is fixed would make one in [order - 1] accepted, see C115.) *)
Theorem C127_one_in_2_64 :
  forall (E : env), env_laws E ->
    (forall t (st : statement E) pf, let out := trng_prf E (mk_trng (verifier_transcript t st pf) [] (repeat x00 32) []) 8 in
       length out = 8%nat /\ proof_tag t st pf = le_val out) /\
    has_card (fun out : bytes => length out = 8%nat) (2 ^ 64) /\
    (forall tag, (tag < 2 ^ 64)%N -> exists! out : bytes, length out = 8%nat /\ le_val out = tag).
Proof.
  intros E L. split; [|split].
  - intros t st pf out. split; [apply (trng_prf_length E L)|reflexivity].
  - assert (Hb : (256 ^ N.of_nat 8 = 2 ^ 64)%N) by reflexivity. exists (le_bytes 8). split; [intros k _; apply le_bytes_length|]. intros a Ha.
    exists (le_val a). split.
    + split; [rewrite <- Hb, <- Ha; apply le_val_bound|]. rewrite <- Ha. apply le_bytes_le_val.
    + intros k (Hk & <-). rewrite <- Hb in Hk. apply le_val_le_bytes_small. exact Hk.
  - intros tag Ht. exists (le_bytes 8 tag). split.
    + split; [apply le_bytes_length|]. apply le_val_le_bytes_small. exact Ht.
    + intros bs [Hl Hv]. rewrite <- Hv, <- Hl. apply le_bytes_le_val.
Qed.
Print Assumptions C127_one_in_2_64.

(** An environment in which the number is always right, since the generator forgets everything: over the rings of [ParExamples.v] a proof
    without keys for the tag [0] is accepted, although no key has this tag. *)
Definition forgetful (g : trng) : N := 7%N.
Notation E7 := (toy P0 forgetful).
Definition y_set : input_set E7 := x_set P0 forgetful 2.
Definition y_M1 : pt E7 := nth 2 (get_auxiliary_keys y_set) s0.
Definition y_offset : pt E7 := padd E7 y_M1 (padd E7 (pmul E7 s1 (nth 2 (get_keys y_set) s0)) (pmul E7 s1 (get_U (x_params P0 forgetful)))).
Definition y_statement : statement E7 :=
  mk_statement (x_params P0 forgetful) y_set y_offset (pid E7)
    (prf E7 (statement_transcript (p_hash (x_params P0 forgetful)) (is_hash y_set) y_offset (pid E7)) (b_ "hash") 32).
Definition y_coins : coins := mk_coins (smk 3) [[smk 5; smk 6]; [smk 8; smk 9]] (smk 10) (smk 11) (smk 12) [smk 13; smk 14] [smk 15; smk 16].
Definition y_proof : proof E7 := unchecked_proof (x_transcript 1) y_statement 2 s0 s0 y_coins.
Lemma y_weights : weights_of_tag (E := E7) 7 (smk 7) (smk 7) (smk 7) (smk 7) (smk 7).
Proof. eexists. apply nw_take; [reflexivity|]. intros [H|[H|[H|[H|[H|[]]]]]]; revert H; scalars_differ. Qed.
Lemma y_check : (negb (seqb (challenge (x_transcript 1) y_statement y_proof) s0) &&
  negb (contains_zero (complete (challenge (x_transcript 1) y_statement y_proof) (pf_f y_proof))))%bool = true.
Proof. vm_compute. reflexivity. Qed.
Lemma y_nondegenerate : nondegenerate (x_transcript 1) y_statement y_proof.
Proof.
  pose proof y_check as H. apply andb_true_iff in H. destruct H as [H1 H2]. apply negb_true_iff in H1, H2.
  split; [apply seqb_neq; exact H1|]. apply (proj2 (no_zero_spec y_proof _) H2).
Qed.
Lemma y_statement_params : st_get_params y_statement = x_params P0 forgetful.
Proof. reflexivity. Qed.
Lemma y_sized : sized (x_params P0 forgetful) y_coins.
Proof. split; [split; [reflexivity|repeat constructor]|split; reflexivity]. Qed.
Lemma y_fits : fits OverflowPanics (x_params P0 forgetful) 1.
Proof. split; [reflexivity|]. right. reflexivity. Qed.
Lemma y_tag : proof_tag (x_transcript 1) y_statement y_proof = 7%N.
Proof. reflexivity. Qed.
Lemma y_one : (smk 7 * sinv (smk 7))%sc = s1.
Proof. assert (H7 : smk 7 <> s0) by scalars_differ. generalize dependent (smk 7). intros x Hx. field. exact Hx. Qed.
Lemma y_no_offset : ~ In y_offset (get_auxiliary_keys y_set).
Proof. intros H. repeat (destruct H as [H|H]; [revert H; scalars_differ|]). destruct H. Qed.
Lemma y_statement_made : made_statement y_statement.
Proof.
  exists (x_params P0 forgetful), y_set, y_offset, (pid E7). split; [apply x_params_made|]. split; [apply x_set_made|].
  destruct (C60_statement_accepted_exactly E7 (toy_laws P0 forgetful) (x_params P0 forgetful) y_set y_offset (pid E7) (x_params_made P0 forgetful)) as (H & _).
  destruct (H eq_refl (x_ring_no_identity P0 forgetful 2) y_no_offset) as (st & Hst & _). rewrite Hst.
  unfold statement_new in Hst. destruct (negb _); [discriminate|]. destruct (existsb _ _); [discriminate|].
  rewrite <- Hst. reflexivity.
Qed.
Example C127_example : exists (st : statement E7) t pf t', made_statement st /\ (forall l r r1, ~ relation st l r r1) /\ ~ valid_proof t st pf /\
  verify_returns OverflowPanics pf st t (Ok tt) t'.
Proof.
  assert (HU : get_U (x_params P0 forgetful) <> pid E7) by scalars_differ.
  destruct (C127_false_proofs_accepted E7 (toy_laws P0 forgetful) (x_params P0 forgetful) 7 _ _ _ _ _ (x_params_made P0 forgetful) y_weights
    (get_keys y_set) (get_auxiliary_keys y_set) 2%N (nth 2 (get_keys y_set) s0) y_M1 eq_refl eq_refl (x_ring_no_identity P0 forgetful 2) eq_refl eq_refl) as (_ & Hacc).
  rewrite y_one in Hacc. fold y_offset in Hacc.
  destruct (Hacc y_statement y_statement_made y_statement_params eq_refl eq_refl eq_refl) as [Hno Ha].
  destruct (Ha OverflowPanics (x_transcript 1) y_coins y_sized y_fits y_nondegenerate) as [Hv Hok].
  destruct (Hok y_tag) as (t' & Ht').
  exists y_statement, (x_transcript 1), y_proof, t'. split; [exact y_statement_made|]. split; [exact (Hno eq_refl HU)|]. split; [exact (Hv HU)|exact Ht'].
Qed.

(** The same for the rings and the offset of [ParExamples.v], with [r = r1 = 1]: the keys of these rings do not satisfy the statement. *)
Definition v_tag : pt E7 := padd E7 (get_U (x_params P0 forgetful)) (padd E7 (psub (x_r * s1 : pt E7)%sc s1)
  (psub (psub (x_offset P0 forgetful + x_r1 * x_G1 P0 forgetful : pt E7)%sc (x_offset P0 forgetful)) (x_G1 P0 forgetful))).
Lemma v_tag_is : forged_tag (x_params P0 forgetful) (smk 7) (smk 7) (smk 7) (x_r * s1)%sc (x_offset P0 forgetful + x_r1 * x_G1 P0 forgetful)%sc (x_offset P0 forgetful) s1 s1 = v_tag.
Proof.
  unfold forged_tag, v_tag. assert (H7 : smk 7 <> s0) by scalars_differ. generalize dependent (smk 7). intros x Hx.
  replace (x * sinv x)%sc with s1 by (field; exact Hx).
  assert (Hi : sinv s1 = s1) by (transitivity (sinv s1 * s1)%sc; [ring|apply sinv_l; exact s1_neq_s0]). rewrite Hi.
  rewrite !(pmul_1_l E7 (toy_laws P0 forgetful)). reflexivity.
Qed.
Definition v_statement : statement E7 :=
  mk_statement (x_params P0 forgetful) (x_set P0 forgetful 2) (x_offset P0 forgetful) v_tag
    (prf E7 (statement_transcript (p_hash (x_params P0 forgetful)) (is_hash (x_set P0 forgetful 2)) (x_offset P0 forgetful) v_tag) (b_ "hash") 32).
Definition v_proof : proof E7 := unchecked_proof (x_transcript 1) v_statement 2 s1 s1 y_coins.
Lemma v_check : (negb (seqb (challenge (x_transcript 1) v_statement v_proof) s0) &&
  negb (contains_zero (complete (challenge (x_transcript 1) v_statement v_proof) (pf_f v_proof))))%bool = true.
Proof. vm_compute. reflexivity. Qed.
Lemma v_nondegenerate : nondegenerate (x_transcript 1) v_statement v_proof.
Proof.
  pose proof v_check as H. apply andb_true_iff in H. destruct H as [H1 H2]. apply negb_true_iff in H1, H2.
  split; [apply seqb_neq; exact H1|]. apply (proj2 (no_zero_spec v_proof _) H2).
Qed.
Lemma v_statement_made : made_statement v_statement.
Proof.
  exists (x_params P0 forgetful), (x_set P0 forgetful 2), (x_offset P0 forgetful), v_tag. split; [apply x_params_made|]. split; [apply x_set_made|].
  pose proof (x_statement_new P0 forgetful 2) as H. unfold statement_new in H |- *.
  destruct (negb _); [discriminate|]. destruct (existsb _ _); [discriminate|]. reflexivity.
Qed.
Lemma v_false l r r1 : ~ relation v_statement l r r1.
Proof.
  intros (Hk & _ & Hr). change (get_G (st_get_params v_statement)) with s1 in Hk. change (pmul E7 r s1) with (r * s1)%sc in Hk.
  replace (r * s1)%sc with r in Hk by ring. change (get_keys (st_get_input_set v_statement)) with (x_ring P0 forgetful 2) in Hk.
  change (st_get_J v_statement) with v_tag in Hr.
  revert Hk. generalize (N.to_nat l). intros k Hk. apply nth_error_In in Hk. unfold x_ring in Hk. apply in_map_iff in Hk.
  destruct Hk as (i & <- & Hi). cbn [seq In] in Hi.
  destruct Hi as [<-|[<-|[<-|[<-|[]]]]]; revert Hr; scalars_differ.
Qed.
Lemma v_tag_number : proof_tag (x_transcript 1) v_statement v_proof = 7%N.
Proof. reflexivity. Qed.
Example C127_example_any_rings : exists (st : statement E7) t pf t', made_statement st /\ (forall l r r1, ~ relation st l r r1) /\ ~ valid_proof t st pf /\
  verify_returns OverflowPanics pf st t (Ok tt) t'.
Proof.
  destruct (C127_any_rings E7 (toy_laws P0 forgetful) (x_params P0 forgetful) 7 _ _ _ _ _ (x_params_made P0 forgetful) y_weights
    (get_keys (x_set P0 forgetful 2)) (get_auxiliary_keys (x_set P0 forgetful 2)) (x_offset P0 forgetful) 2%N
    (x_r * s1)%sc (x_offset P0 forgetful + x_r1 * x_G1 P0 forgetful)%sc s1 s1 eq_refl eq_refl
    (x_ring_no_identity P0 forgetful 2) (x_ring1_no_offset P0 forgetful 2) eq_refl eq_refl s1_neq_s0) as (_ & Hacc).
  rewrite v_tag_is in Hacc.
  destruct (Hacc v_statement v_statement_made eq_refl eq_refl eq_refl eq_refl eq_refl OverflowPanics (x_transcript 1) y_coins y_sized y_fits v_nondegenerate) as [Hv Hok].
  destruct (Hok v_tag_number) as (t' & Ht').
  exists v_statement, (x_transcript 1), v_proof, t'. split; [exact v_statement_made|]. split; [exact v_false|]. split; [|exact Ht'].
  apply Hv. left. scalars_differ.
Qed.
