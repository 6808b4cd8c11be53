(** Property C126: verification is no sounder than 64 bits.  The weights of the verifier depend on a proof only through a 64-bit number
    (C70), so they are known before the proof is made.  Somebody who puts one suitable key into the ring can make proofs of false
    statements that are accepted whenever this number comes out right. *)
From Verif Require Import SpecPlainSound SpecUniform PlainFacts ProverFacts VerifierFacts Completeness Verdict VerifierApi Binding Uniform Examples
  Properties_Params Properties_Inputs Properties_Prover Properties_Verifier.
From Verif Require Import CoreFacts CoreProver RingSum GrayFacts Scalar Algebra.

(** * Specification *)

(** The weights of a single proof whose 64-bit number is [tag]: the first four outputs of this generator, if none of them is zero, and so on. *)
Definition tag_rng (tag : N) : trng :=
  mk_trng [TAppend (b_ "dom-sep") (b_ "Triptych verifier weights"); TAppend (b_ "version") (le_bytes 8 0); TAppend (b_ "proof") (le_bytes 8 tag)]
          [] (repeat x00 32) [].
Definition weights_of_tag {E : env} (tag : N) (w1 w2 w3 w4 : scalar) : Prop :=
  exists g, next_weights (E := E) 4 (tag_rng tag) [w1; w2; w3; w4] g.
(** Random values in the right numbers. *)
Definition sized {E : env} (p : params E) (c : coins) : Prop :=
  shape (N.to_nat (get_m p)) (N.to_nat (get_n p)) (c_a c) /\ length (c_rho c) = N.to_nat (get_m p).
(** What the prover computes, without its checks, for position [l] and "key" [r]; the challenge is that of its own first message. *)
Definition unchecked_proof {E : env} (t : transcript) (st : statement E) (l : N) (r : scalar) (c : coins) : proof E :=
  honest_proof st l r c (challenge t st (honest_proof st l r c s0)).

(** * Proofs *)
Section Grind.
Context {E : env} (L : env_laws E).

Lemma honest_defects (st : statement E) l r c xi K : good_statement st -> nth_error (is_M (st_input_set st)) (N.to_nat l) = Some K -> good_coins st c ->
  let xim := spow xi (N.to_nat (p_m (st_params st))) in
  defects (st_params st) (is_M (st_input_set st)) (st_J st) (honest_proof st l r c xi) xi =
  [pid E; pid E; pmul E xim (psub K (pmul E r (p_G (st_params st)))); pmul E xim (psub (p_U (st_params st)) (pmul E r (st_J st)))].
Proof.
  intros Hg HM Hc xim. pose proof (gs_params st Hg) as Hp. pose proof (gp_n _ Hp) as Hn. pose proof (gp_m _ Hp) as Hm.
  pose proof (honest_complete st l r c xi Hg Hc) as Hf. destruct Hc as [Ha Hrho].
  assert (Hl : (N.to_nat l < length (is_M (st_input_set st)))%nat) by (apply nth_error_Some; congruence).
  assert (HlN : (l < p_n (st_params st) ^ p_m (st_params st))%N).
  { pose proof (gs_len _ Hg) as Hlen. rewrite (good_N _ Hp) in Hlen. lia. }
  set (n := N.to_nat (p_n (st_params st))) in *. set (m := N.to_nat (p_m (st_params st))) in *.
  unfold defects, get_G, get_U, get_n, get_m, get_CommitmentG, get_CommitmentH. rewrite Hf. fold n m. clear Hf.
  apply f_equal2; [|apply f_equal2; [|apply f_equal2; [|apply f_equal2; [|reflexivity]]]].
  - apply (psub_0 L). unfold response_entry. unfold honest_proof. cbn [pf_z_A pf_A pf_B]. unfold st_get_params, get_n, get_m, get_CommitmentG, get_CommitmentH. fold n m.
    replace (c_r_A c + xi * c_r_B c)%sc with (c_r_B c * xi + c_r_A c)%sc by ring.
    rewrite (com_mkmat L). apply (padd_comm E L).
  - apply (psub_0 L). unfold honest_proof. cbn [pf_z_C pf_C pf_D]. unfold st_get_params, get_n, get_m, get_CommitmentG, get_CommitmentH. fold n m.
    rewrite mkmat_map. replace (xi * c_r_C c + c_r_D c)%sc with (c_r_C c * xi + c_r_D c)%sc by ring.
    rewrite <- (com_mkmat L). f_equal. apply mkmat_ext. intros j i Hj Hi. unfold response_entry.
    unfold sigma_at. destruct (Nat.eqb i _); ring.
  - set (A := mat (map balance (c_a c))). set (S_ := sigma_at (p_n (st_params st)) l).
    set (pv := map (fun k => poly_prod (position_factors (p_n (st_params st)) m A S_ k)) (seq 0 (length (is_M (st_input_set st))))).
    assert (HX : pf_X (honest_proof st l r c xi) =
                 map (fun j => padd E (lincomb (map (fun row => nth j row s0) pv) (is_M (st_input_set st))) (pmul E (nth j (c_rho c) s0) (p_G (st_params st)))) (seq 0 m)).
    { unfold honest_proof. cbn [pf_X]. unfold pv. apply map_ext. intros j. rewrite map_map. reflexivity. }
    rewrite HX. rewrite (X_combination L) by exact Hrho. unfold pv. rewrite map_map.
    unfold honest_proof. cbn [pf_z]. unfold st_get_params, get_m. fold m.
    set (M := is_M (st_input_set st)) in *.
    rewrite (lincomb_ext (fun k => sdot _ _)
              (fun k => code_product (p_n (st_params st)) m (mat (mkmat m n (response_entry st l c xi))) k
                        + (- spow xi m) * (if Nat.eqb k (N.to_nat l) then s1 else s0))%sc).
    + rewrite (lincomb_add L), (lincomb_scale_r L).
      assert (Hd : lincomb (map (fun k => if Nat.eqb k (N.to_nat l) then s1 else s0) (seq 0 (length M))) M = nth (N.to_nat l) M (pid E)).
      { apply (lincomb_delta L). exact Hl. }
      rewrite Hd, (nth_error_nth _ _ _ HM). unfold xim, psub. module L.
    + intros k Hk. apply in_seq in Hk.
      destruct (poly_position (p_n (st_params st)) m A S_ k) as (P1 & P2 & P3).
      rewrite poly_low by exact P1. rewrite P2, P3.
      rewrite (code_product_delta (p_n (st_params st)) m S_ l k).
      * assert (Hcp : code_product (p_n (st_params st)) m (fun j i => S_ j i * xi + A j i)%sc k
                      = code_product (p_n (st_params st)) m (mat (mkmat m n (response_entry st l c xi))) k).
        { unfold code_product. apply sprod_ext. intros j Hj. apply in_seq in Hj. rewrite mat_mkmat; [reflexivity|lia|].
          pose proof (gray_digit_lt (p_n (st_params st)) (N.of_nat k) j ltac:(lia)). unfold n. lia. }
        rewrite Hcp. ring.
      * exact Hn.
      * unfold m. rewrite N2Nat.id. exact HlN.
      * pose proof (good_len_nat _ Hg) as Hlen. change (length M = (N.to_nat (p_n (st_params st)) ^ m)%nat) in Hlen. lia.
      * intros j i Hj Hi. reflexivity.
  - unfold honest_proof. cbn [pf_z pf_Y]. unfold st_get_params, st_get_J, get_m. fold m.
    rewrite <- Hrho, <- (map_seq_nth (fun rh => pmul E rh (st_J st)) (c_rho c)), Hrho.
    unfold powers at 1. rewrite <- Hrho at 2. rewrite (Y_combination L), Hrho. unfold powers, xim, psub. module L.
Qed.


Lemma unchecked_challenge t (st : statement E) l r c : challenge t st (unchecked_proof t st l r c) = challenge t st (honest_proof st l r c s0).
Proof. reflexivity. Qed.

Lemma unchecked_defects t (st : statement E) l r c K : made_statement st -> sized (st_get_params st) c ->
  nth_error (get_keys (st_get_input_set st)) (N.to_nat l) = Some K ->
  let p := st_get_params st in
  let pf := unchecked_proof t st l r c in
  let xim := spow (challenge t st pf) (N.to_nat (get_m p)) in
  defects p (get_keys (st_get_input_set st)) (st_get_J st) pf (challenge t st pf) =
  [pid E; pid E; pmul E xim (psub K (pmul E r (get_G p))); pmul E xim (psub (get_U p) (pmul E r (st_get_J st)))].
Proof.
  intros Hst Hc HK p pf xim. pose proof (made_statement_good L st Hst) as Hg.
  exact (honest_defects st l r c (challenge t st (honest_proof st l r c s0)) K Hg HK Hc).
Qed.

Lemma unchecked_total t (st : statement E) l r c K w1 w2 w3 w4 : made_statement st -> sized (st_get_params st) c ->
  nth_error (get_keys (st_get_input_set st)) (N.to_nat l) = Some K ->
  let p := st_get_params st in
  let pf := unchecked_proof t st l r c in
  challenge t st pf <> s0 ->
  (weighted_defects p (get_keys (st_get_input_set st)) [st] [pf] [t] [[w1; w2; w3; w4]] = pid E <->
   padd E (pmul E w3 (psub K (pmul E r (get_G p)))) (pmul E w4 (psub (get_U p) (pmul E r (st_get_J st)))) = pid E).
Proof.
  intros Hst Hc HK p pf Hx. unfold weighted_defects. cbn [combine map psum fold_right].
  pose proof (unchecked_defects t st l r c K Hst Hc HK) as Hd. cbv zeta in Hd. fold pf p in Hd. rewrite Hd.
  rewrite !lincomb_cons, lincomb_nil_l. pose proof (spow_nonzero _ (N.to_nat (get_m p)) Hx) as Hxm.
  set (xim := spow (challenge t st pf) (N.to_nat (get_m p))) in *. set (a := psub K _). set (b := psub _ _).
  assert (Hre : padd E (padd E (pmul E w1 (pid E)) (padd E (pmul E w2 (pid E)) (padd E (pmul E w3 (pmul E xim a)) (padd E (pmul E w4 (pmul E xim b)) (pid E))))) (pid E)
    = pmul E xim (padd E (pmul E w3 a) (pmul E w4 b))) by module L.
  rewrite Hre. split; [intros H; exact (pmul_eq_0 L _ _ H Hxm)|]. intros ->. apply (pmul_0_r L).
Qed.

Lemma tag_rng_is t (st : statement E) pf : weight_rng [st] [pf] [t] = tag_rng (proof_tag t st pf).
Proof. reflexivity. Qed.
Lemma weights_table t (st : statement E) pf w1 w2 w3 w4 : weights_of_tag (E := E) (proof_tag t st pf) w1 w2 w3 w4 <->
  batch_weights (E := E) 4 1 (weight_rng [st] [pf] [t]) [[w1; w2; w3; w4]].
Proof.
  rewrite tag_rng_is. split.
  - intros (g & H). econstructor; [exact H|constructor].
  - intros H. inversion H; subst. eexists. eassumption.
Qed.
Lemma statement_for (p : params E) M J : made_params p -> N.of_nat (length M) = get_N p -> ~ In (pid E) M ->
  exists st, made_statement st /\ st_get_params st = p /\ get_keys (st_get_input_set st) = M /\ st_get_J st = J.
Proof.
  intros Hp Hlen Hid. pose proof (made_good p Hp) as Hg.
  assert (Hs : exists s, input_set_new M = Ok s /\ get_keys s = M).
  { unfold input_set_new, new_internal, checked. rewrite Hlen, (good_N p Hg). rewrite (proj2 (N.ltb_lt _ _) (gp_pow p Hg)). eexists. split; reflexivity. }
  destruct Hs as (s & Hs & Hk). destruct (C13_statement_accepted_exactly E L p s J Hp) as (H1 & _). rewrite Hk, Hlen, (good_N p Hg) in H1.
  destruct (H1 eq_refl Hid) as (st & Hst & Hsp & Hss & HsJ). exists st.
  split; [exists p, s, J; split; [exact Hp|split; [left; exists M; exact Hs|exact Hst]]|]. split; [exact Hsp|]. split; [rewrite Hss; exact Hk|exact HsJ].
Qed.
Lemma forged_tag_cancels (p : params E) w3 w4 K r : w4 <> s0 -> r <> s0 ->
  padd E (pmul E w3 (psub K (pmul E r (get_G p))))
    (pmul E w4 (psub (get_U p) (pmul E r (pmul E (sinv r) (padd E (get_U p) (pmul E (w3 * sinv w4)%sc (psub K (pmul E r (get_G p))))))))) = pid E.
Proof.
  intros H4 Hr. generalize (psub K (pmul E r (get_G p))). intros D. generalize (get_U p). intros U. unfold psub.
  assert (Hre : padd E (pmul E w3 D) (pmul E w4 (padd E U (popp E (pmul E r (pmul E (sinv r) (padd E U (pmul E (w3 * sinv w4)%sc D))))))) =
    padd E (pmul E (w3 * (s1 - (sinv r * r) * (sinv w4 * w4)))%sc D) (pmul E (w4 * (s1 - sinv r * r))%sc U)) by module L.
  rewrite Hre, (sinv_l r Hr), (sinv_l w4 H4). replace (w3 * (s1 - s1 * s1))%sc with s0 by ring. replace (w4 * (s1 - s1))%sc with s0 by ring.
  rewrite !(pmul_0_l L). apply (padd_0_l E L).
Qed.
End Grind.

(** * Theorems *)

(** What is wrong with such a proof: the key at its position is not [r * G], and the tag is not that of [r]; nothing else. *)
Theorem C126_what_is_wrong :
  forall (E : env), env_laws E -> forall t (st : statement E) l r c K, made_statement st -> sized (st_get_params st) c ->
    nth_error (get_keys (st_get_input_set st)) (N.to_nat l) = Some K ->
    let p := st_get_params st in
    let pf := unchecked_proof t st l r c in
    let xi_m := spow (challenge t st pf) (N.to_nat (get_m p)) in
    well_shaped p pf /\
    defects p (get_keys (st_get_input_set st)) (st_get_J st) pf (challenge t st pf) =
    [pid E; pid E; pmul E xi_m (psub K (pmul E r (get_G p))); pmul E xi_m (psub (get_U p) (pmul E r (st_get_J st)))].
Proof.
  intros E L t st l r c K Hst Hc HK p pf xi_m. split; [apply (honest_well_shaped st l r c)|]. exact (unchecked_defects L t st l r c K Hst Hc HK).
Qed.
Print Assumptions C126_what_is_wrong.

(** When it is accepted. *)
Theorem C126_accepted_exactly :
  forall (E : env), env_laws E -> forall md t (st : statement E) l r c K w1 w2 w3 w4, made_statement st -> sized (st_get_params st) c ->
    nth_error (get_keys (st_get_input_set st)) (N.to_nat l) = Some K ->
    let p := st_get_params st in
    let pf := unchecked_proof t st l r c in
    fits md p 1 -> nondegenerate t st pf -> weights_of_tag (E := E) (proof_tag t st pf) w1 w2 w3 w4 ->
    ((exists t', verify_returns md pf st t (Ok tt) t') <->
     padd E (pmul E w3 (psub K (pmul E r (get_G p)))) (pmul E w4 (psub (get_U p) (pmul E r (st_get_J st)))) = pid E).
Proof.
  intros E L md t st l r c K w1 w2 w3 w4 Hst Hc HK p pf Hf Hn Hw. pose proof (made_statement_good L st Hst) as Hg.
  pose proof (unchecked_total L t st l r c K w1 w2 w3 w4 Hst Hc HK (proj1 Hn)) as Ht. cbv zeta in Ht. fold p pf in Ht. rewrite <- Ht. clear Ht.
  assert (Hacc : (exists t', verify_returns md pf st t (Ok tt) t') <-> exists ts', verify_batch_returns md [st] [pf] [t] (Ok tt) ts').
  { split; [intros (t' & H); exists [t']; apply verify_returns_batch; exact H|]. intros (ts' & H).
    destruct H as (fuel & H & Hr). destruct (verify_batch_one fuel md st pf t) as (t1 & H1 & H2). exists t1. apply verify_returns_batch.
    exists fuel. split; [|exact Hr]. rewrite H in H1 |- *. cbn [snd] in H1. subst ts'. reflexivity. }
  rewrite Hacc. rewrite (verify_batch_accepts_iff L md st [] [pf] [t] Hg). apply weights_table in Hw. split.
  - intros (_ & _ & _ & _ & _ & _ & ws & Hws & Hz). rewrite (batch_weights_fun _ _ _ _ Hws _ Hw) in Hz. exact Hz.
  - intros Hz. split; [reflexivity|]. split; [reflexivity|]. split; [constructor|]. split; [constructor; [apply (honest_well_shaped st l r c)|constructor]|].
    split; [exact Hf|]. split; [constructor; [exact Hn|constructor]|]. eexists. split; [exact Hw|exact Hz].
Qed.
Print Assumptions C126_accepted_exactly.

(** So: for every 64-bit number there is a point, a multiple of [U] that is known in advance, such that over every ring that contains it
    everybody can make accepted proofs for every linking tag, without any key: all random values will do for which the number of the proof
    is the given one.  None of these proofs is valid, and if the tag is the identity nobody has a key for it. *)
Theorem C126_false_proofs_accepted :
  forall (E : env), env_laws E -> forall (p : params E) tag w1 w2 w3 w4, made_params p -> get_U p <> pid E -> weights_of_tag (E := E) tag w1 w2 w3 w4 ->
    let K := pmul E (- (w4 * sinv w3))%sc (get_U p) in
    K <> pid E /\
    (forall M J, N.of_nat (length M) = get_N p -> ~ In (pid E) M ->
       exists st, made_statement st /\ st_get_params st = p /\ get_keys (st_get_input_set st) = M /\ st_get_J st = J) /\
    forall st l, made_statement st -> st_get_params st = p -> nth_error (get_keys (st_get_input_set st)) (N.to_nat l) = Some K ->
      (st_get_J st = pid E -> forall l r, ~ relation st l r) /\
      forall md t c, sized p c -> fits md p 1 ->
        let pf := unchecked_proof t st l s0 c in
        nondegenerate t st pf ->
        ~ valid_proof t st pf /\
        (proof_tag t st pf = tag -> exists t', verify_returns md pf st t (Ok tt) t').
Proof.
  intros E L p tag w1 w2 w3 w4 Hp HU Hw K. pose proof (made_good p Hp) as Hg.
  assert (Hnz : ~ In s0 [w1; w2; w3; w4]).
  { destruct Hw as (g & Hw). clear - Hw. remember [w1; w2; w3; w4] as ws eqn:Hws. induction Hw; [assumption|apply IHHw; assumption]. }
  assert (H3 : w3 <> s0) by (intros ->; apply Hnz; cbn [In]; tauto). assert (H4 : w4 <> s0) by (intros ->; apply Hnz; cbn [In]; tauto).
  split.
  { intros Hid. apply (pmul_eq_0 L) in Hid; [exact (HU Hid)|]. intros Hc. apply H4.
    replace w4 with (- (- (w4 * sinv w3)) * w3)%sc by (field; exact H3). rewrite Hc. ring. }
  split.
  { intros M J Hlen Hid. exact (statement_for L p M J Hp Hlen Hid). }
  intros st l Hm Hsp HM. split.
  - intros HJ l' r [_ Hr]. rewrite HJ, (pmul_0_r L), Hsp in Hr. exact (HU (eq_sym Hr)).
  - intros md t c Hc Hf pf Hn. rewrite <- Hsp in Hc, Hf. split.
    + intros (_ & _ & _ & He). apply (defects_zero L) in He. pose proof (unchecked_defects L t st l s0 c K Hm Hc HM) as Hd. cbv zeta in Hd. fold pf in Hd. rewrite Hd in He.
      apply Forall_inv_tail, Forall_inv_tail, Forall_inv_tail, Forall_inv in He. apply (pmul_eq_0 L) in He; [|apply spow_nonzero; exact (proj1 Hn)].
      apply (proj1 (psub_0 L _ _)) in He. rewrite Hsp, (pmul_0_l L) in He. exact (HU He).
    + intros Ht. rewrite <- Ht in Hw. apply (C126_accepted_exactly E L md t st l s0 c K w1 w2 w3 w4 Hm Hc HM Hf Hn Hw).
      rewrite Hsp. unfold K, psub. assert (Hre : forall U, padd E (pmul E w3 (padd E (pmul E (- (w4 * sinv w3))%sc U) (popp E (pmul E s0 (get_G p)))))
        (pmul E w4 (padd E U (popp E (pmul E s0 (st_get_J st))))) = pmul E (w4 * (s1 - sinv w3 * w3))%sc U) by (intros U; module L).
      rewrite Hre, (sinv_l w3 H3). replace (w4 * (s1 - s1))%sc with s0 by ring. apply (pmul_0_l L).
Qed.
Print Assumptions C126_false_proofs_accepted.

(** No special ring is needed: for every 64-bit number, every ring, every position and every non-zero [r] there is a linking tag, known in
    advance, for which everybody can make accepted proofs without any key of the ring. *)
Definition forged_tag {E : env} (p : params E) (w3 w4 : scalar) (K : pt E) (r : scalar) : pt E :=
  pmul E (sinv r) (padd E (get_U p) (pmul E (w3 * sinv w4)%sc (psub K (pmul E r (get_G p))))).
Theorem C126_any_ring :
  forall (E : env), env_laws E -> forall (p : params E) tag w1 w2 w3 w4, made_params p -> weights_of_tag (E := E) tag w1 w2 w3 w4 ->
    forall M l K r, N.of_nat (length M) = get_N p -> ~ In (pid E) M -> nth_error M (N.to_nat l) = Some K -> r <> s0 ->
    (exists st, made_statement st /\ st_get_params st = p /\ get_keys (st_get_input_set st) = M /\ st_get_J st = forged_tag p w3 w4 K r) /\
    forall st, made_statement st -> st_get_params st = p -> get_keys (st_get_input_set st) = M -> st_get_J st = forged_tag p w3 w4 K r ->
      forall md t c, sized p c -> fits md p 1 ->
        let pf := unchecked_proof t st l r c in
        nondegenerate t st pf ->
        (K <> pmul E r (get_G p) -> ~ valid_proof t st pf) /\
        (proof_tag t st pf = tag -> exists t', verify_returns md pf st t (Ok tt) t').
Proof.
  intros E L p tag w1 w2 w3 w4 Hp Hw M l K r Hlen Hid HK Hr.
  assert (H4 : w4 <> s0).
  { intros ->. destruct Hw as (g & Hw). remember [w1; w2; w3; s0] as ws eqn:Hws. induction Hw; [|apply IHHw; assumption]. apply H0. rewrite Hws. cbn [In]. tauto. }
  split; [exact (statement_for L p M (forged_tag p w3 w4 K r) Hp Hlen Hid)|].
  intros st Hm Hsp HM HJ md t c Hc Hf pf Hn. rewrite <- Hsp in Hc, Hf. rewrite <- HM in HK. split.
  - intros HKr (_ & _ & _ & He). apply (defects_zero L) in He. pose proof (unchecked_defects L t st l r c K Hm Hc HK) as Hd. cbv zeta in Hd. fold pf in Hd. rewrite Hd in He.
    apply Forall_inv_tail, Forall_inv_tail, Forall_inv in He. apply (pmul_eq_0 L) in He; [|apply spow_nonzero; exact (proj1 Hn)].
    apply (proj1 (psub_0 L _ _)) in He. rewrite Hsp in He. exact (HKr He).
  - intros Ht. rewrite <- Ht in Hw. apply (C126_accepted_exactly E L md t st l r c K w1 w2 w3 w4 Hm Hc HK Hf Hn Hw).
    rewrite Hsp, HJ. exact (forged_tag_cancels L p w3 w4 K r H4 Hr).
Qed.
Print Assumptions C126_any_ring.

(** Different [r] give different linking tags, so one ring member, or nobody, can be made to sign [order - 1] times unlinked; and for every
    key of the ring at most one of these [r] makes the statement true.  (The exception is a ring key that is this multiple of [U].) *)
Theorem C126_many_tags :
  forall (E : env), env_laws E -> forall (p : params E) w3 w4 K r r', w3 <> s0 -> w4 <> s0 -> r <> s0 -> r' <> s0 ->
    K <> pmul E (- (w4 * sinv w3))%sc (get_U p) ->
    (forged_tag p w3 w4 K r = forged_tag p w3 w4 K r' -> r = r') /\
    (forall x, get_U p <> pid E -> pmul E x (forged_tag p w3 w4 K r) = get_U p -> pmul E x (forged_tag p w3 w4 K r') = get_U p -> r = r').
Proof.
  intros E L p w3 w4 K r r' H3 H4 Hr Hr' HK.
  assert (Hinj : forged_tag p w3 w4 K r = forged_tag p w3 w4 K r' -> r = r').
  { set (Q := padd E (get_U p) (pmul E (w3 * sinv w4)%sc K)).
    assert (HQ : Q <> pid E).
    { intros Hc. apply HK. unfold Q in Hc. clear HK Q. revert Hc. generalize (get_U p). intros U Hc.
      assert (Hre : K = padd E (pmul E (w4 * sinv w3)%sc (padd E U (pmul E (w3 * sinv w4)%sc K)))
                        (padd E (pmul E (- (w4 * sinv w3))%sc U) (pmul E (s1 - (w4 * sinv w4) * (sinv w3 * w3))%sc K))) by module L.
      rewrite Hre, Hc, (sinv_l w3 H3), (pmul_0_r L), (padd_0_l E L). replace (w4 * sinv w4)%sc with s1 by (field; exact H4).
      replace (s1 - s1 * s1)%sc with s0 by ring. rewrite (pmul_0_l L), (padd_comm E L). apply (padd_0_l E L). }
    assert (Hft : forall x, x <> s0 -> forged_tag p w3 w4 K x = padd E (pmul E (sinv x) Q) (pmul E (- (w3 * sinv w4))%sc (get_G p))).
    { intros x Hx. unfold forged_tag, Q, psub. generalize (get_U p) (get_G p). intros U G.
      assert (Hre : pmul E (sinv x) (padd E U (pmul E (w3 * sinv w4)%sc (padd E K (popp E (pmul E x G))))) =
        padd E (pmul E (sinv x) (padd E U (pmul E (w3 * sinv w4)%sc K))) (pmul E (- ((sinv x * x) * (w3 * sinv w4)))%sc G)) by module L.
      rewrite Hre, (sinv_l x Hx). replace (s1 * (w3 * sinv w4))%sc with (w3 * sinv w4)%sc by ring. reflexivity. }
    intros He. rewrite (Hft r Hr), (Hft r' Hr') in He.
    assert (Hd : pmul E (sinv r - sinv r')%sc Q = pid E).
    { assert (Hre : pmul E (sinv r - sinv r')%sc Q = psub (padd E (pmul E (sinv r) Q) (pmul E (- (w3 * sinv w4))%sc (get_G p)))
          (padd E (pmul E (sinv r') Q) (pmul E (- (w3 * sinv w4))%sc (get_G p)))) by (unfold psub; module L).
      rewrite Hre. apply (psub_0 L). exact He. }
    destruct (scalar_eq_dec (sinv r - sinv r')%sc s0) as [Hz|Hz]; [|destruct (HQ (pmul_eq_0 L _ _ Hd Hz))].
    assert (Hi : sinv r = sinv r') by (replace (sinv r) with ((sinv r - sinv r') + sinv r')%sc by ring; rewrite Hz; ring).
    replace r with (r * (sinv r' * r'))%sc by (rewrite (sinv_l r' Hr'); ring). rewrite <- Hi. replace (r * (sinv r * r'))%sc with ((sinv r * r) * r')%sc by ring.
    rewrite (sinv_l r Hr). ring. }
  split; [exact Hinj|]. intros x HU H1 H2. apply Hinj.
  destruct (scalar_eq_dec x s0) as [->|Hx]; [rewrite (pmul_0_l L) in H1; destruct (HU (eq_sym H1))|].
  apply (proj1 (psub_0 L _ _)). apply (pmul_eq_0 L x); [|exact Hx]. rewrite <- H2 in H1. apply (proj2 (psub_0 L _ _)) in H1.
  revert H1. generalize (forged_tag p w3 w4 K r) (forged_tag p w3 w4 K r'). intros J J' H1. rewrite <- H1. unfold psub. module L.
Qed.
Print Assumptions C126_many_tags.

(** How often that is: the number of a proof is made of eight bytes of output, and one value of these bytes in [2^64] is right.  (Weights
    that were drawn after the proof is fixed would make one in [order - 1] accepted, see C114.) *)
Theorem C126_one_in_2_64 :
  forall (E : env), env_laws E ->
    (forall t (st : statement E) pf, let out := trng_prf E (mk_trng (verifier_transcript t st pf) [] (repeat x00 32) []) 8 in
       length out = 8%nat /\ proof_tag t st pf = le_val out) /\
    has_card (fun out : bytes => length out = 8%nat) (2 ^ 64) /\
    (forall tag, (tag < 2 ^ 64)%N -> exists! out : bytes, length out = 8%nat /\ le_val out = tag).
Proof.
  intros E L. split; [|split].
  - intros t st pf out. split; [apply (trng_prf_length E L)|reflexivity].
  - assert (Hb : (256 ^ N.of_nat 8 = 2 ^ 64)%N) by reflexivity. exists (le_bytes 8). split; [intros k _; apply le_bytes_length|]. intros a Ha.
    exists (le_val a). split.
    + split; [rewrite <- Hb, <- Ha; apply le_val_bound|]. rewrite <- Ha. apply le_bytes_le_val.
    + intros k (Hk & <-). rewrite <- Hb in Hk. apply le_val_le_bytes_small. exact Hk.
  - intros tag Ht. exists (le_bytes 8 tag). split.
    + split; [apply le_bytes_length|]. apply le_val_le_bytes_small. exact Ht.
    + intros bs [Hl Hv]. rewrite <- Hv, <- Hl. apply le_bytes_le_val.
Qed.
Print Assumptions C126_one_in_2_64.

(** An environment in which the number is always right, since the generator forgets everything: over a ring of four keys [- U] a proof
    without key for the tag [0] is accepted, although no key has this tag. *)
Definition forgetful (g : trng) : N := 7%N.
Notation E7 := (toy P0 forgetful).
Definition y_key : pt E7 := pmul E7 (- s1)%sc (get_U (x_params P0 forgetful)).
Lemma y_key_is : pmul E7 (- (smk 7 * sinv (smk 7)))%sc (get_U (x_params P0 forgetful)) = y_key.
Proof.
  assert (H7 : smk 7 <> s0) by scalars_differ. generalize dependent (smk 7). intros x Hx. unfold y_key. f_equal. field. exact Hx.
Qed.
Definition y_ring : list (pt E7) := repeat y_key 4.
Definition y_set : input_set E7 := mk_input_set y_ring (prf E7 (input_set_transcript y_ring 4) (b_ "hash") 32).
Definition y_statement : statement E7 :=
  mk_statement (x_params P0 forgetful) y_set (pid E7)
    (prf E7 (statement_transcript (p_hash (x_params P0 forgetful)) (is_hash y_set) (pid E7)) (b_ "hash") 32).
Definition y_coins : coins := mk_coins (smk 3) [[smk 5; smk 6]; [smk 8; smk 9]] (smk 10) (smk 11) (smk 12) [smk 13; smk 14].
Definition y_proof : proof E7 := unchecked_proof (x_transcript 1) y_statement 2 s0 y_coins.
Lemma y_weights : weights_of_tag (E := E7) 7 (smk 7) (smk 7) (smk 7) (smk 7).
Proof. eexists. apply nw_take; [reflexivity|]. intros [H|[H|[H|[H|[]]]]]; revert H; scalars_differ. Qed.
Lemma y_check : (negb (seqb (challenge (x_transcript 1) y_statement y_proof) s0) &&
  negb (contains_zero (complete (challenge (x_transcript 1) y_statement y_proof) (pf_f y_proof))))%bool = true.
Proof. vm_compute. reflexivity. Qed.
Lemma y_nondegenerate : nondegenerate (x_transcript 1) y_statement y_proof.
Proof.
  pose proof y_check as H. apply andb_true_iff in H. destruct H as [H1 H2]. apply negb_true_iff in H1, H2.
  split; [apply seqb_neq; exact H1|]. apply (proj2 (no_zero_spec y_proof _) H2).
Qed.
Lemma y_statement_params : st_get_params y_statement = x_params P0 forgetful.
Proof. reflexivity. Qed.
Lemma y_statement_J : st_get_J y_statement = pid E7.
Proof. reflexivity. Qed.
Lemma y_key_there : nth_error (get_keys (st_get_input_set y_statement)) (N.to_nat 2) = Some y_key.
Proof. reflexivity. Qed.
Lemma y_sized : sized (x_params P0 forgetful) y_coins.
Proof. split; [split; [reflexivity|repeat constructor]|reflexivity]. Qed.
Lemma y_fits : fits OverflowPanics (x_params P0 forgetful) 1.
Proof. split; [reflexivity|]. right. reflexivity. Qed.
Lemma y_tag : proof_tag (x_transcript 1) y_statement y_proof = 7%N.
Proof. reflexivity. Qed.
Lemma y_statement_made : y_key <> pid E7 -> made_statement y_statement.
Proof.
  intros HK. exists (x_params P0 forgetful), y_set, (pid E7). split; [apply x_params_made|]. split; [left; exists y_ring; reflexivity|].
  unfold statement_new. destruct (existsb _ (get_keys y_set)) eqn:Ee; [|reflexivity].
  apply (existsb_peqb (toy_laws P0 forgetful)) in Ee. destruct HK. symmetry. exact (repeat_spec 4 y_key (pid E7) Ee).
Qed.
Example C126_example : exists (st : statement E7) t pf t', made_statement st /\ (forall l r, ~ relation st l r) /\ ~ valid_proof t st pf /\
  verify_returns OverflowPanics pf st t (Ok tt) t'.
Proof.
  assert (HU : get_U (x_params P0 forgetful) <> pid E7) by scalars_differ.
  destruct (C126_false_proofs_accepted E7 (toy_laws P0 forgetful) (x_params P0 forgetful) 7 _ _ _ _ (x_params_made P0 forgetful) HU y_weights) as (HK & _ & Hacc).
  rewrite y_key_is in HK, Hacc.
  assert (Hm : made_statement y_statement) by exact (y_statement_made HK).
  destruct (Hacc y_statement 2%N Hm y_statement_params y_key_there) as [Hno Ha].
  destruct (Ha OverflowPanics (x_transcript 1) y_coins y_sized y_fits y_nondegenerate) as [Hv Hok].
  destruct (Hok y_tag) as (t' & Ht').
  exists y_statement, (x_transcript 1), y_proof, t'. split; [exact Hm|]. split; [exact (Hno y_statement_J)|]. split; [exact Hv|exact Ht'].
Qed.

(** The same over the ring of [Examples.v], for [r = 1]: the keys of this ring do not satisfy the statement, and no special key is in it. *)
Definition v_tag : pt E7 := padd E7 (get_U (x_params P0 forgetful)) (psub (smk 12345 : pt E7) (get_G (x_params P0 forgetful))).
Lemma v_tag_is : forged_tag (x_params P0 forgetful) (smk 7) (smk 7) (smk 12345) s1 = v_tag.
Proof.
  unfold forged_tag, v_tag. assert (H7 : smk 7 <> s0) by scalars_differ. generalize dependent (smk 7). intros x Hx.
  replace (x * sinv x)%sc with s1 by (field; exact Hx).
  assert (Hi : sinv s1 = s1) by (transitivity (sinv s1 * s1)%sc; [ring|apply sinv_l; exact s1_neq_s0]). rewrite Hi.
  rewrite !(pmul_1_l E7 (toy_laws P0 forgetful)). reflexivity.
Qed.
Definition v_statement : statement E7 :=
  mk_statement (x_params P0 forgetful) (x_set P0 forgetful 2) v_tag
    (prf E7 (statement_transcript (p_hash (x_params P0 forgetful)) (is_hash (x_set P0 forgetful 2)) v_tag) (b_ "hash") 32).
Definition v_proof : proof E7 := unchecked_proof (x_transcript 1) v_statement 2 s1 y_coins.
Lemma v_check : (negb (seqb (challenge (x_transcript 1) v_statement v_proof) s0) &&
  negb (contains_zero (complete (challenge (x_transcript 1) v_statement v_proof) (pf_f v_proof))))%bool = true.
Proof. vm_compute. reflexivity. Qed.
Lemma v_nondegenerate : nondegenerate (x_transcript 1) v_statement v_proof.
Proof.
  pose proof v_check as H. apply andb_true_iff in H. destruct H as [H1 H2]. apply negb_true_iff in H1, H2.
  split; [apply seqb_neq; exact H1|]. apply (proj2 (no_zero_spec v_proof _) H2).
Qed.
Lemma v_statement_made : made_statement v_statement.
Proof.
  exists (x_params P0 forgetful), (x_set P0 forgetful 2), v_tag. split; [apply x_params_made|]. split; [apply x_set_made|].
  unfold statement_new. destruct (existsb _ (get_keys (x_set P0 forgetful 2))) eqn:Ee; [|reflexivity].
  apply (existsb_peqb (toy_laws P0 forgetful)) in Ee. destruct (x_ring_no_identity P0 forgetful 2 Ee).
Qed.
Lemma v_false l r : ~ relation v_statement l r.
Proof.
  intros [Hk Hr]. change (get_G (st_get_params v_statement)) with s1 in Hk. change (pmul E7 r s1) with (r * s1)%sc in Hk.
  replace (r * s1)%sc with r in Hk by ring. change (get_keys (st_get_input_set v_statement)) with (x_ring P0 forgetful 2) in Hk.
  change (st_get_J v_statement) with v_tag in Hr.
  revert Hk. generalize (N.to_nat l). intros k Hk. apply nth_error_In in Hk. unfold x_ring in Hk. apply in_map_iff in Hk.
  destruct Hk as (i & <- & Hi). cbn [seq In] in Hi.
  destruct Hi as [<-|[<-|[<-|[<-|[]]]]]; revert Hr; scalars_differ.
Qed.
Lemma v_key_there : nth_error (get_keys (x_set P0 forgetful 2)) (N.to_nat 2) = Some (smk 12345 : pt E7).
Proof. change (nth_error (get_keys (x_set P0 forgetful 2)) (N.to_nat 2)) with (Some (x_r * s1)%sc). apply (f_equal (@Some scalar)). unfold x_r. generalize (smk 12345). intros x. ring. Qed.
Lemma v_tag_number : proof_tag (x_transcript 1) v_statement v_proof = 7%N.
Proof. reflexivity. Qed.
Example C126_example_any_ring : exists (st : statement E7) t pf t', made_statement st /\ (forall l r, ~ relation st l r) /\ ~ valid_proof t st pf /\
  verify_returns OverflowPanics pf st t (Ok tt) t'.
Proof.
  destruct (C126_any_ring E7 (toy_laws P0 forgetful) (x_params P0 forgetful) 7 _ _ _ _ (x_params_made P0 forgetful) y_weights
    (get_keys (x_set P0 forgetful 2)) 2%N (smk 12345) s1 eq_refl (x_ring_no_identity P0 forgetful 2) v_key_there s1_neq_s0) as (_ & Hacc).
  rewrite v_tag_is in Hacc.
  destruct (Hacc v_statement v_statement_made eq_refl eq_refl eq_refl OverflowPanics (x_transcript 1) y_coins y_sized y_fits v_nondegenerate) as [Hv Hok].
  destruct (Hok v_tag_number) as (t' & Ht').
  exists v_statement, (x_transcript 1), v_proof, t'. split; [exact v_statement_made|]. split; [exact v_false|]. split; [|exact Ht'].
  apply Hv. scalars_differ.
Qed.
