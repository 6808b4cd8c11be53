(** Property C117: what reusing parallel nonces gives away, and why the prover does not reuse them. *)
From Verif Require Import ParSpecSound ParSpecZK ParFacts ParProverFacts ParVerifierFacts ParCompleteness ParVerdict ParSoundness ParZK ParProverApi ParBinding
  ParVerifierApi ParExamples Properties_ParParams Properties_ParVerifier Properties_ParProver Properties_ParSoundness.
From Verif Require Import Algebra.

(** Position [k] fits two answers: in every row [j], the entry at digit [j] of [k] moved by as much as the challenge did. *)
Definition moved {E : env} (p : params E) (xi xi' : scalar) (pf pf' : proof E) (k : nat) : bool :=
  forallb (fun j => let d := N.to_nat (gray_digit (get_n p) (N.of_nat k) j) in
             seqb (mat (complete xi (pf_f pf)) j d - mat (complete xi' (pf_f pf')) j d)%sc (xi - xi')%sc)
          (seq 0 (N.to_nat (get_m p))).
(** Anyone can look for such a position. *)
Definition find_signer {E : env} (p : params E) (xi xi' : scalar) (pf pf' : proof E) : option N :=
  option_map N.of_nat (find (moved p xi xi' pf pf') (seq 0 (N.to_nat (get_N p)))).

(** What the prover's commitments [A] and [B] contain: entries and mask. *)
Definition opening_of_A (c : coins) : list scalar := concat (map balance (c_a c)) ++ [c_r_A c].
Definition opening_of_B {E : env} (p : params E) (l : N) (c : coins) : list scalar :=
  concat (mkmat (N.to_nat (get_m p)) (N.to_nat (get_n p)) (sigma_at (get_n p) l)) ++ [c_r_B c].
(** The nonces that [A] commits to: its mask and all entries but the first of each row (which the others determine). *)
Definition same_nonces_A (c c' : coins) : Prop := c_r_A c = c_r_A c' /\ map (@tl scalar) (c_a c) = map (@tl scalar) (c_a c').

Section Facts.
Context {E : env} (L : env_laws E).

Lemma same_commitment (CG : list (pt E)) CH F F' u u' :
  length (concat F) = length CG -> length (concat F') = length CG -> com CG CH F u = com CG CH F' u' ->
  (concat F ++ [u] = concat F' ++ [u']) \/ is_relation CG CH (vsub (concat F ++ [u]) (concat F' ++ [u'])).
Proof.
  intros H1 H2 Hc. assert (Hl : length (concat F ++ [u]) = length (concat F' ++ [u'])) by (rewrite !app_length; cbn [length]; congruence).
  destruct (vsub_zero_or _ _ Hl) as [He|He]; [left; exact He|right].
  split; [rewrite vsub_length by exact Hl; rewrite !app_length; cbn [length]; congruence|]. split; [exact He|].
  rewrite (lincomb_vsub L) by exact Hl. apply (psub_0 L). rewrite <- !(com_opening L) by assumption. exact Hc.
Qed.

Lemma balance_tl row row' : length row = length row' -> row <> [] -> (balance row = balance row' <-> tl row = tl row').
Proof.
  destruct row as [|x row], row' as [|y row']; intros Hl Hr; try discriminate; try congruence. cbn [balance tl]. split; intros H; [|rewrite H; reflexivity].
  unfold balance in H. injection H as _ H. exact H.
Qed.

Lemma balance_rows_tl n : (1 <= n)%nat -> forall m a a', shape m n a -> shape m n a' ->
  map balance a = map balance a' -> map (@tl scalar) a = map (@tl scalar) a'.
Proof.
  intros Hn. induction m as [|m IH]; intros a a' [H1 H2] [H1' H2'] H.
  - destruct a; [|discriminate]. destruct a'; [reflexivity|discriminate].
  - destruct a as [|r a]; [discriminate|]. destruct a' as [|r' a']; [discriminate|]. inversion H2; inversion H2'; subst.
    cbn [map] in *. injection H as H H0. f_equal.
    + apply balance_tl; [congruence|destruct r; [cbn in Hn; lia|discriminate]|exact H].
    + apply IH; [split; [cbn in H1; lia|assumption]|split; [cbn in H1'; lia|assumption]|exact H0].
Qed.

Lemma balance_shape m n a : (1 <= n)%nat -> shape m n a -> shape m n (map balance a).
Proof.
  intros Hn [H1 H2]. split; [rewrite map_length; exact H1|]. apply Forall_forall. intros r Hr. apply in_map_iff in Hr.
  destruct Hr as (q & <- & Hq). rewrite Forall_forall in H2. specialize (H2 q Hq). destruct q as [|x q]; [cbn in H2; lia|].
  cbn [balance length] in *. exact H2.
Qed.

(** The position found in two answers that move along the same line. *)
Lemma find_signer_line (p : params E) xi xi' pf pf' l (a : nat -> nat -> scalar) :
  (2 <= get_n p)%N -> (l < get_n p ^ get_m p)%N -> get_N p = (get_n p ^ get_m p)%N -> xi <> xi' ->
  (forall j i, (j < N.to_nat (get_m p))%nat -> (i < N.to_nat (get_n p))%nat ->
     mat (complete xi (pf_f pf)) j i = (sigma_at (get_n p) l j i * xi + a j i)%sc /\
     mat (complete xi' (pf_f pf')) j i = (sigma_at (get_n p) l j i * xi' + a j i)%sc) ->
  find_signer p xi xi' pf pf' = Some l.
Proof.
  intros Hn Hl HN Hx HF. unfold find_signer.
  assert (Hm : forall k, (k < N.to_nat (get_N p))%nat -> (moved p xi xi' pf pf' k = true <-> k = N.to_nat l)).
  { intros k Hk. unfold moved. rewrite forallb_forall. split.
    - intros H. apply Nat2N.inj. rewrite N2Nat.id. apply (gray_code_inj (get_n p) Hn (N.to_nat (get_m p))); rewrite ?N2Nat.id; [lia|exact Hl|].
      unfold gray_code. apply map_ext_in. intros j Hj. specialize (H j Hj). apply seqb_eq in H. apply in_seq in Hj.
      pose proof (gray_digit_lt (get_n p) (N.of_nat k) j ltac:(lia)) as Hd.
      destruct (HF j (N.to_nat (gray_digit (get_n p) (N.of_nat k) j)) ltac:(lia) ltac:(lia)) as [E1 E2]. rewrite E1, E2 in H. unfold sigma_at in H.
      destruct (Nat.eqb_spec (N.to_nat (gray_digit (get_n p) (N.of_nat k) j)) (N.to_nat (gray_digit (get_n p) l j))) as [He|He]; [lia|].
      exfalso. apply Hx. replace xi with ((xi - xi') + xi')%sc by ring. rewrite <- H. ring.
    - intros -> j Hj. apply in_seq in Hj. rewrite N2Nat.id. cbv zeta. apply seqb_eq.
      pose proof (gray_digit_lt (get_n p) l j ltac:(lia)) as Hd.
      destruct (HF j (N.to_nat (gray_digit (get_n p) l j)) ltac:(lia) ltac:(lia)) as [E1 E2]. rewrite E1, E2. unfold sigma_at. rewrite Nat.eqb_refl. ring. }
  destruct (find (moved p xi xi' pf pf') (seq 0 (N.to_nat (get_N p)))) as [k|] eqn:Hf.
  - apply find_some in Hf. destruct Hf as [Hin Hk]. apply in_seq in Hin. apply Hm in Hk; [|lia]. cbn [option_map]. rewrite Hk, N2Nat.id. reflexivity.
  - exfalso. pose proof (find_none _ _ Hf (N.to_nat l) ltac:(apply in_seq; lia)) as Hk.
    rewrite (proj2 (Hm (N.to_nat l) ltac:(lia)) eq_refl) in Hk. discriminate.
Qed.

Lemma honest_same_A (st st' : statement E) l l' r r' r1 r1' c c' xi xi' : good_statement st -> good_statement st' ->
  st_get_params st = st_get_params st' -> good_coins st c -> good_coins st' c' ->
  pf_A (honest_proof st l r r1 c xi) = pf_A (honest_proof st' l' r' r1' c' xi') ->
  (map balance (c_a c) = map balance (c_a c') /\ c_r_A c = c_r_A c') \/
  is_relation (get_CommitmentG (st_get_params st)) (get_CommitmentH (st_get_params st)) (vsub (opening_of_A c) (opening_of_A c')).
Proof.
  intros Hg Hg' Hp [Ha _] [Ha' _] H. pose proof (gs_params st Hg) as Hgp. pose proof (gp_n _ Hgp) as Hn. pose proof (gp_CG _ Hgp) as HCG.
  change (st_params st) with (st_get_params st) in *. change (st_params st') with (st_get_params st') in *. rewrite <- Hp in Ha'.
  unfold honest_proof in H. cbn [pf_A] in H. rewrite <- Hp in H.
  set (p := st_get_params st) in *. set (m := N.to_nat (get_m p)) in *. set (n := N.to_nat (get_n p)) in *.
  change (N.to_nat (p_m p)) with m in *. change (N.to_nat (p_n p)) with n in *. change (p_n p) with (get_n p) in Hn.
  pose proof (balance_shape m n _ ltac:(unfold n; lia) Ha) as Hb. pose proof (balance_shape m n _ ltac:(unfold n; lia) Ha') as Hb'.
  rewrite ?(mkmat_mat m n) in H by assumption.
  destruct (same_commitment _ _ _ _ _ _ ltac:(rewrite (concat_shape_length _ _ _ Hb); symmetry; exact HCG)
    ltac:(rewrite (concat_shape_length _ _ _ Hb'); symmetry; exact HCG) H) as [He|He]; [left|right; exact He].
  apply app_inj_tail in He. destruct He as [He Hr]. split; [|exact Hr]. apply (concat_shape_inj n m); assumption.
Qed.
End Facts.

(** ** C117: two proofs with the same first message and different challenges reveal who signed: anyone can compute the position,
    and it is the same for both.  The alternative is that the two provers hold two openings of one commitment. *)
Theorem C117_reused_nonces_reveal_the_signer :
  forall (E : env), env_laws E -> forall (R R' : Type) (ro : rng_ops R) (ro' : rng_ops R') (w w' : witness E) (st st' : statement E)
    (rng s : R) (rng' s' : R') (t t' u u' : transcript) (pf pf' : proof E),
    made_witness w -> made_statement st -> prove_with_rng ro w st rng t = (Ok pf, u, s) ->
    made_witness w' -> made_statement st' -> prove_with_rng ro' w' st' rng' t' = (Ok pf', u', s') ->
    let p := st_get_params st in
    let c := prover_coins t st w (fst (rng_fill ro rng 32)) in
    let c' := prover_coins t' st' w' (fst (rng_fill ro' rng' 32)) in
    p = st_get_params st' -> same_first_message pf pf' -> challenge t st pf <> challenge t' st' pf' ->
    (w_get_l w = w_get_l w' /\ find_signer p (challenge t st pf) (challenge t' st' pf') pf pf' = Some (w_get_l w)) \/
    is_relation (get_CommitmentG p) (get_CommitmentH p) (vsub (opening_of_A c) (opening_of_A c')) \/
    is_relation (get_CommitmentG p) (get_CommitmentH p) (vsub (opening_of_B p (w_get_l w) c) (opening_of_B p (w_get_l w') c')).
Proof.
  intros E L R R' ro ro' w w' st st' rng s rng' s' t t' u u' pf pf' Hw Hst Hrun Hw' Hst' Hrun' p c c' Hp Hsame Hx.
  destruct (prove_result L ro w st rng t pf u s Hw Hst Hrun) as (Hrel & _ & Hpf & _).
  destruct (prove_result L ro' w' st' rng' t' pf' u' s' Hw' Hst' Hrun') as (Hrel' & _ & Hpf' & _).
  fold c in Hpf. fold c' in Hpf'. set (xi := challenge t st pf) in *. set (xi' := challenge t' st' pf') in *.
  pose proof (made_statement_good L st Hst) as Hg. pose proof (made_statement_good L st' Hst') as Hg'.
  assert (Hc : good_coins st c) by (apply (prover_coins_good (E := E))). assert (Hc' : good_coins st' c') by (apply (prover_coins_good (E := E))).
  destruct Hsame as (HA & HB & _). rewrite Hpf, Hpf' in HA, HB.
  destruct (honest_same_A L st st' _ _ _ _ _ _ c c' xi xi' Hg Hg' Hp Hc Hc' HA) as [[Ha _]|Hr]; [|right; left; exact Hr].
  pose proof (gs_params st Hg) as Hgp. pose proof (gp_n _ Hgp) as Hn. pose proof (gp_CG _ Hgp) as HCG. pose proof (good_N _ Hgp) as HN.
  change (st_params st) with p in *. change (p_n p) with (get_n p) in *. change (p_m p) with (get_m p) in *.
  assert (Hlt : forall (q : statement E) l r r1, good_statement q -> st_get_params q = p -> relation q l r r1 -> (l < get_n p ^ get_m p)%N).
  { intros q l r r1 Hq Hqp [Hk _]. pose proof (gs_len q Hq) as Hl. change (st_params q) with (st_get_params q) in Hl. rewrite Hqp, HN in Hl.
    assert (H : (N.to_nat l < length (get_keys (st_get_input_set q)))%nat) by (apply nth_error_Some; congruence).
    change (get_keys (st_get_input_set q)) with (is_M (st_input_set q)) in H. lia. }
  pose proof (Hlt st _ _ _ Hg eq_refl Hrel) as Hl. pose proof (Hlt st' _ _ _ Hg' (eq_sym Hp) Hrel') as Hl'.
  unfold honest_proof in HB. cbn [pf_B] in HB. fold p in HB. rewrite <- Hp in HB.
  assert (Hcl : forall h, length (concat (mkmat (N.to_nat (get_m p)) (N.to_nat (get_n p)) h)) = length (get_CommitmentG p)).
  { intros h. rewrite (concat_shape_length _ _ _ (mkmat_shape _ _ h)). symmetry. exact HCG. }
  destruct (same_commitment L _ _ _ _ _ _ (Hcl _) (Hcl _) HB) as [He|Hr]; [|right; right; exact Hr].
  left. apply app_inj_tail in He. destruct He as [He _]. apply (concat_shape_inj (N.to_nat (get_n p)) (N.to_nat (get_m p))) in He; [|apply mkmat_shape|apply mkmat_shape].
  assert (Hsig : forall j i, (j < N.to_nat (get_m p))%nat -> (i < N.to_nat (get_n p))%nat ->
    sigma_at (get_n p) (w_get_l w') j i = sigma_at (get_n p) (w_get_l w) j i).
  { intros j i Hj Hi. apply (f_equal (fun F => mat F j i)) in He. rewrite !mat_mkmat in He by assumption. symmetry. exact He. }
  assert (Hll : w_get_l w = w_get_l w').
  { apply (gray_code_inj (get_n p) Hn (N.to_nat (get_m p))); rewrite ?N2Nat.id; [exact Hl|exact Hl'|].
    unfold gray_code. apply map_ext_in. intros j Hj. apply in_seq in Hj.
    pose proof (gray_digit_lt (get_n p) (w_get_l w) j ltac:(lia)) as Hd.
    specialize (Hsig j (N.to_nat (gray_digit (get_n p) (w_get_l w) j)) ltac:(lia) ltac:(lia)). unfold sigma_at in Hsig. rewrite Nat.eqb_refl in Hsig.
    destruct (Nat.eqb_spec (N.to_nat (gray_digit (get_n p) (w_get_l w) j)) (N.to_nat (gray_digit (get_n p) (w_get_l w') j))) as [Hq|Hq]; [lia|].
    exfalso. apply s1_neq_s0. symmetry. exact Hsig. }
  split; [exact Hll|]. apply (find_signer_line p xi xi' pf pf' (w_get_l w) (mat (map balance (c_a c))) Hn Hl HN Hx).
  intros j i Hj Hi. rewrite Hpf, Hpf', (honest_complete st _ _ _ c xi Hg Hc), (honest_complete st' _ _ _ c' xi' Hg' Hc').
  change (st_params st') with (st_get_params st'). rewrite <- Hp. change (st_params st) with p. unfold get_m, get_n in Hj, Hi.
  rewrite !mat_mkmat by assumption. unfold response_entry. change (st_params st') with (st_get_params st'). rewrite <- Hp.
  change (st_params st) with p. change (p_n p) with (get_n p). rewrite <- Ha, <- Hll. split; reflexivity.
Qed.
Print Assumptions C117_reused_nonces_reveal_the_signer.

(** The prover does not reuse nonces, even if the external generator returns the same bytes twice: two runs with the same first
    message returned the same proof, from the same transcript, statement hash, index, keys and bytes; or generators in different
    states returned the same nonces; or the two provers hold two openings of one commitment. *)
Theorem C117_no_reuse_of_nonces :
  forall (E : env), env_laws E -> forall (R R' : Type) (ro : rng_ops R) (ro' : rng_ops R') (w w' : witness E) (st st' : statement E)
    (rng s : R) (rng' s' : R') (t t' u u' : transcript) (pf pf' : proof E),
    made_witness w -> made_statement st -> prove_with_rng ro w st rng t = (Ok pf, u, s) ->
    made_witness w' -> made_statement st' -> prove_with_rng ro' w' st' rng' t' = (Ok pf', u', s') ->
    let p := st_get_params st in
    let seed := fst (rng_fill ro rng 32) in
    let seed' := fst (rng_fill ro' rng' 32) in
    let c := prover_coins t st w seed in
    let c' := prover_coins t' st' w' seed' in
    p = st_get_params st' -> same_first_message pf pf' ->
    (t = t' /\ st_get_hash st = st_get_hash st' /\ w_get_l w = w_get_l w' /\ w_get_r w = w_get_r w' /\ w_get_r1 w = w_get_r1 w' /\ seed = seed' /\ pf = pf') \/
    (prover_rng t st w seed <> prover_rng t' st' w' seed' /\ same_nonces_A c c') \/
    is_relation (get_CommitmentG p) (get_CommitmentH p) (vsub (opening_of_A c) (opening_of_A c')).
Proof.
  intros E L R R' ro ro' w w' st st' rng s rng' s' t t' u u' pf pf' Hw Hst Hrun Hw' Hst' Hrun' p seed seed' c c' Hp Hsame.
  destruct (prove_result L ro w st rng t pf u s Hw Hst Hrun) as (Hrel & _ & Hpf & _).
  destruct (prove_result L ro' w' st' rng' t' pf' u' s' Hw' Hst' Hrun') as (Hrel' & _ & Hpf' & _).
  fold seed c in Hpf. fold seed' c' in Hpf'.
  pose proof (made_statement_good L st Hst) as Hg. pose proof (made_statement_good L st' Hst') as Hg'.
  assert (Hc : good_coins st c) by (apply (prover_coins_good (E := E))). assert (Hc' : good_coins st' c') by (apply (prover_coins_good (E := E))).
  pose proof Hsame as (HA & _). rewrite Hpf, Hpf' in HA.
  destruct (honest_same_A L st st' _ _ _ _ _ _ c c' _ _ Hg Hg' Hp Hc Hc' HA) as [[Ha Hr]|Hr]; [|right; right; exact Hr].
  assert (Hd : {t = t' /\ st_get_hash st = st_get_hash st' /\ w_get_l w = w_get_l w' /\ w_get_r w = w_get_r w' /\ w_get_r1 w = w_get_r1 w' /\ seed = seed'} +
               {~ (t = t' /\ st_get_hash st = st_get_hash st' /\ w_get_l w = w_get_l w' /\ w_get_r w = w_get_r w' /\ w_get_r1 w = w_get_r1 w' /\ seed = seed')}).
  { assert (Hb : forall x y : bytes, {x = y} + {x <> y}) by (apply list_eq_dec; apply Byte.byte_eq_dec).
    destruct (transcript_dec t t') as [H1|H1]; [|right; tauto]. destruct (Hb (st_get_hash st) (st_get_hash st')) as [H2|H2]; [|right; tauto].
    destruct (N.eq_dec (w_get_l w) (w_get_l w')) as [H3|H3]; [|right; tauto]. destruct (scalar_eq_dec (w_get_r w) (w_get_r w')) as [H4|H4]; [|right; tauto].
    destruct (scalar_eq_dec (w_get_r1 w) (w_get_r1 w')) as [H6|H6]; [|right; tauto].
    destruct (Hb seed seed') as [H5|H5]; [left; tauto|right; tauto]. }
  destruct Hd as [(Ht & Hh & Hl & Hk & Hk1 & Hs)|Hd].
  - left. split; [exact Ht|]. split; [exact Hh|]. split; [exact Hl|]. split; [exact Hk|]. split; [exact Hk1|]. split; [exact Hs|].
    assert (Hcc : c = c').
    { unfold c, c', prover_coins. fold p. rewrite <- Hp. f_equal. apply (C61_nonces_hedged E); [exact Hw|exact Hw'|]. tauto. }
    assert (Hxx : challenge t st pf = challenge t' st' pf').
    { unfold challenge. f_equal. f_equal. apply (fs_inj L). split; [exact Ht|]. split; [exact Hh|exact Hsame]. }
    destruct (honest_parts st (w_get_l w) (w_get_r w) (w_get_r1 w) c (challenge t st pf)) as (_ & _ & P3 & P4 & P5 & P6 & P7).
    destruct (honest_parts st' (w_get_l w') (w_get_r w') (w_get_r1 w') c' (challenge t' st' pf')) as (_ & _ & Q3 & Q4 & Q5 & Q6 & Q7).
    rewrite <- Hpf in P3, P4, P5, P6, P7. rewrite <- Hpf' in Q3, Q4, Q5, Q6, Q7. rewrite <- Hp in Q3, Q6, Q7. fold p in P3, P6, P7.
    rewrite <- Hxx, <- Hcc, <- Hl in Q3. rewrite <- Hxx, <- Hcc in Q4, Q5. rewrite <- Hxx, <- Hcc, <- Hk in Q6. rewrite <- Hxx, <- Hcc, <- Hk1 in Q7. rewrite <- P3 in Q3. rewrite <- P4 in Q4. rewrite <- P5 in Q5. rewrite <- P6 in Q6. rewrite <- P7 in Q7.
    clear -Hsame Q3 Q4 Q5 Q6 Q7. destruct Hsame as (S1 & S2 & S3 & S4 & S5 & S5' & S6).
    destruct pf, pf'. cbn in *. congruence.
  - right. left. split.
    + intros He. apply Hd. apply (C61_nonces_hedged E); assumption.
    + split; [exact Hr|]. pose proof (gp_n _ (gs_params st Hg)) as Hn. change (st_params st) with p in Hn.
      destruct Hc as [Hc _], Hc' as [Hc' _]. change (st_params st') with (st_get_params st') in Hc'. rewrite <- Hp in Hc'. change (st_params st) with p in Hc.
      exact (balance_rows_tl (N.to_nat (p_n p)) ltac:(lia) (N.to_nat (p_m p)) _ _ Hc Hc' Ha).
Qed.
Print Assumptions C117_no_reuse_of_nonces.

(** An environment whose generator forgets its state: the nonces of all runs are the same. *)
Definition forgetful (g : trng) : N := 7%N.
Lemma x_forgetful_xi : seqb (x_xi P0 forgetful 2 1) s0 = false /\ seqb (x_xi P0 forgetful 2 2) s0 = false /\
  seqb (x_xi P0 forgetful 2 1) (x_xi P0 forgetful 2 2) = false.
Proof. vm_compute. repeat split. Qed.
Lemma no_relation_self (E : env) (CG : list (pt E)) CH v : ~ is_relation CG CH (vsub v v).
Proof.
  intros (_ & H & _). induction v as [|x v IH]; cbn in H; [inversion H|]. inversion H as [? ? Hx|? ? Hx]; subst; [|exact (IH Hx)].
  apply Hx. ring.
Qed.
Lemma x_forgetful_coins : prover_coins (x_transcript 2) (x_statement P0 forgetful 2) (x_witness P0 forgetful 2) x_seed =
  prover_coins (x_transcript 1) (x_statement P0 forgetful 2) (x_witness P0 forgetful 2) x_seed.
Proof. vm_compute. reflexivity. Qed.
Example C117_example : exists (st : statement (toy P0 forgetful)) w pf pf' u u' s s',
  made_witness w /\ made_statement st /\
  prove_with_rng counter w st 5%N (x_transcript 1) = (Ok pf, u, s) /\ prove_with_rng counter w st 5%N (x_transcript 2) = (Ok pf', u', s') /\
  same_first_message pf pf' /\ challenge (x_transcript 1) st pf <> challenge (x_transcript 2) st pf' /\
  find_signer (st_get_params st) (challenge (x_transcript 1) st pf) (challenge (x_transcript 2) st pf') pf pf' = Some 2%N.
Proof.
  destruct x_forgetful_xi as (H1 & H2 & H3). apply seqb_neq in H1, H2, H3.
  destruct (x_proved P0 forgetful 2 1 ltac:(lia) H1) as [C1 R1]. destruct (x_proved P0 forgetful 2 2 ltac:(lia) H2) as [C2 R2].
  pose proof (x_witness_made P0 forgetful 2 ltac:(lia)) as Hw. pose proof (x_statement_made P0 forgetful 2) as Hst.
  pose proof x_forgetful_coins as Hc.
  assert (Hsame : same_first_message (x_proof P0 forgetful 2 1) (x_proof P0 forgetful 2 2)).
  { unfold x_proof. rewrite Hc. apply honest_same_first. }
  exists (x_statement P0 forgetful 2), (x_witness P0 forgetful 2), (x_proof P0 forgetful 2 1), (x_proof P0 forgetful 2 2). do 4 eexists.
  split; [exact Hw|]. split; [exact Hst|]. split; [exact R1|]. split; [exact R2|]. split; [exact Hsame|].
  rewrite C1, C2. split; [exact H3|].
  destruct (C117_reused_nonces_reveal_the_signer _ (toy_laws P0 forgetful) _ _ _ _ _ _ _ _ _ _ _ _ _ _ _ _ _ _ Hw Hst R1 Hw Hst R2 eq_refl Hsame) as [[_ H]|[H|H]].
  - rewrite C1, C2. exact H3.
  - rewrite C1, C2 in H. exact H.
  - exfalso. change (fst (rng_fill counter 5%N 32)) with x_seed in H. rewrite Hc in H. exact (no_relation_self _ _ _ _ H).
  - exfalso. change (fst (rng_fill counter 5%N 32)) with x_seed in H. rewrite Hc in H. exact (no_relation_self _ _ _ _ H).
Qed.
