(** Property C107: parallel proofs cannot be moved.  A proof is bound to its transcript and statement even where the verification equations do
    not mention them: a proof accepted under two different challenges has a public first message that no honest prover sends. *)
From Verif Require Import ParSpecSound ParFacts ParProverFacts ParVerifierFacts ParCompleteness ParVerdict ParProverApi ParBinding ParVerifierApi ParZK ParExamples Properties_ParParams Properties_ParVerifier Properties_ParLedger.
From Verif Require Import GrayFacts CoreFacts Algebra.

(** The response matrix with the negated missing column, without the challenge... *)
Definition public_C (f : list (list scalar)) (j i : nat) : scalar := match i with O => ssum (nth j f []) | S i => mat f j i end.

Lemma shape_nth {A} m n (f : list (list A)) j : shape m n f -> (j < m)%nat -> length (nth j f []) = n.
Proof. intros [Hl Hf] Hj. rewrite Forall_forall in Hf. apply Hf. apply nth_In. lia. Qed.
Lemma mat_complete xi m n f j i : shape m n f -> (j < m)%nat ->
  mat (complete xi f) j i = match i with O => (xi - ssum (nth j f []))%sc | S i => mat f j i end.
Proof.
  intros [Hl _] Hj. unfold mat, complete. rewrite (nth_indep _ [] ((xi - ssum [])%sc :: [])) by (rewrite map_length; lia).
  rewrite (map_nth (fun row => (xi - ssum row)%sc :: row) f []). destruct i; reflexivity.
Qed.
Lemma complete_shape xi m n f : shape m n f -> shape m (S n) (complete xi f).
Proof.
  intros [Hl Hf]. unfold complete. split; [rewrite map_length; exact Hl|]. rewrite Forall_forall in *. intros row Hr.
  apply in_map_iff in Hr. destruct Hr as (r & <- & Hr). cbn [length]. rewrite (Hf r Hr). reflexivity.
Qed.
Lemma sigma_at_0 n j i : n <> 0%N -> sigma_at n 0 j i = match i with O => s1 | S _ => s0 end.
Proof.
  intros Hn. unfold sigma_at. assert (H : gray_digit n 0 j = 0%N).
  { unfold gray_digit, base_digit. rewrite !N.div_0_l by (apply N.pow_nonzero; exact Hn). rewrite N.mod_0_l by exact Hn.
    rewrite N.sub_0_r, N.add_0_l. apply N.mod_same. exact Hn. }
  rewrite H. destruct i; reflexivity.
Qed.

Lemma differing_digit n m l : (2 <= n)%N -> (l < n ^ N.of_nat m)%N -> l <> 0%N -> exists j, (j < m)%nat /\ gray_digit n l j <> gray_digit n 0 j.
Proof.
  intros Hn Hl H0. destruct (existsb (fun j => negb (N.eqb (gray_digit n l j) (gray_digit n 0 j))) (seq 0 m)) eqn:He.
  - apply existsb_exists in He. destruct He as (j & Hj & Hd). apply in_seq in Hj. exists j. split; [lia|].
    apply negb_true_iff in Hd. apply N.eqb_neq. exact Hd.
  - exfalso. apply H0. apply (gray_code_inj n Hn m); [exact Hl|apply N.neq_0_lt_0; apply N.pow_nonzero; lia|].
    unfold gray_code. apply map_ext_in. intros j Hj. destruct (N.eqb_spec (gray_digit n l j) (gray_digit n 0 j)) as [Hd|Hd]; [exact Hd|].
    assert (Ht : existsb (fun j => negb (N.eqb (gray_digit n l j) (gray_digit n 0 j))) (seq 0 m) = true).
    { apply existsb_exists. exists j. split; [exact Hj|]. apply negb_true_iff. apply N.eqb_neq. exact Hd. }
    congruence.
Qed.

Section Lines.
Context {E : env} (L : env_laws E).

(** Two points of a line determine its slope. *)
Lemma same_line (xi xi' : scalar) (P Q P' Q' : pt E) : xi <> xi' ->
  padd E (pmul E xi P) Q = padd E (pmul E xi P') Q' -> padd E (pmul E xi' P) Q = padd E (pmul E xi' P') Q' -> P = P'.
Proof.
  intros Hne H1 H2. apply (psub_0 L). apply (pmul_cancel L (xi - xi')%sc).
  - intros H0. apply Hne. replace xi with ((xi - xi') + xi')%sc by ring. rewrite H0. ring.
  - transitivity (psub (psub (padd E (pmul E xi P) Q) (padd E (pmul E xi P') Q')) (psub (padd E (pmul E xi' P) Q) (padd E (pmul E xi' P') Q'))); [module L|].
    rewrite H1, H2. module L.
Qed.

Lemma line_A CG CH n m f z (xi : scalar) : (2 <= n)%N -> shape m (N.to_nat n - 1) f ->
  com CG CH (complete xi f) z
  = padd E (pmul E xi (com CG CH (mkmat m (N.to_nat n) (sigma_at n 0)) s0))
           (com CG CH (mkmat m (N.to_nat n) (fun j i => match i with O => - ssum (nth j f []) | S i => mat f j i end)%sc) z).
Proof.
  intros Hn Hs. rewrite <- (com_mkmat L). replace (s0 * xi + z)%sc with z by ring. f_equal.
  rewrite <- (mkmat_mat m (N.to_nat n) (complete xi f)) by (replace (N.to_nat n) with (S (N.to_nat n - 1)) by lia; apply complete_shape; exact Hs).
  apply mkmat_ext. intros j i Hj Hi. rewrite (mat_complete xi m _ f j i Hs Hj), sigma_at_0 by lia. destruct i; ring.
Qed.
Lemma line_C CG CH n m f z (xi : scalar) : (2 <= n)%N -> shape m (N.to_nat n - 1) f ->
  com CG CH (map (map (fun x => x * (xi - x))%sc) (complete xi f)) z
  = padd E (pmul E xi (com CG CH (mkmat m (N.to_nat n) (public_C f)) s0))
           (com CG CH (mkmat m (N.to_nat n) (fun j i => match i with O => - (ssum (nth j f []) * ssum (nth j f [])) | S i => - (mat f j i * mat f j i) end)%sc) z).
Proof.
  intros Hn Hs. rewrite <- (com_mkmat L). replace (s0 * xi + z)%sc with z by ring. f_equal.
  rewrite <- (mkmat_mat m (N.to_nat n) (complete xi f)) by (replace (N.to_nat n) with (S (N.to_nat n - 1)) by lia; apply complete_shape; exact Hs).
  rewrite mkmat_map. apply mkmat_ext. intros j i Hj Hi. rewrite (mat_complete xi m _ f j i Hs Hj). unfold public_C. destruct i; ring.
Qed.

(** The shape of a proof determines the sizes. *)
Lemma shape_sizes (p p' : params E) pf : made_params p -> made_params p' -> well_shaped p pf -> well_shaped p' pf ->
  get_n p = get_n p' /\ get_m p = get_m p'.
Proof.
  intros Hp Hp' (HX & _ & _ & Hf) (HX' & _ & _ & Hf'). pose proof (made_good p Hp) as Hg. pose proof (made_good p' Hp') as Hg'.
  pose proof (gp_n _ Hg). pose proof (gp_n _ Hg'). pose proof (gp_m _ Hg). pose proof (gp_m _ Hg').
  change (p_n p) with (get_n p) in *. change (p_n p') with (get_n p') in *. change (p_m p) with (get_m p) in *. change (p_m p') with (get_m p') in *.
  pose proof (shape_nth _ _ _ 0%nat Hf ltac:(lia)). pose proof (shape_nth _ _ _ 0%nat Hf' ltac:(lia)). split; lia.
Qed.
End Lines.

Lemma equations_twice {E : env} (L : env_laws E) (st st' : statement E) (pf : proof E) xi xi' :
  made_statement st -> made_statement st' -> well_shaped (st_get_params st) pf -> well_shaped (st_get_params st') pf -> xi <> xi' ->
  equations (st_get_params st) (get_keys (st_get_input_set st)) (get_auxiliary_keys (st_get_input_set st)) (st_get_offset st) (st_get_J st) pf xi ->
  equations (st_get_params st') (get_keys (st_get_input_set st')) (get_auxiliary_keys (st_get_input_set st')) (st_get_offset st') (st_get_J st') pf xi' ->
  let p := st_get_params st in let m := N.to_nat (get_m p) in let n := N.to_nat (get_n p) in
  pf_B pf = com (get_CommitmentG p) (get_CommitmentH p) (mkmat m n (sigma_at (get_n p) 0)) s0 /\
  pf_C pf = com (get_CommitmentG p) (get_CommitmentH p) (mkmat m n (public_C (pf_f pf))) s0.
Proof.
  intros Hst Hst' Hw Hw' Hne He He' p m n.
  pose proof (made_statement_parts L st Hst) as [Hp _]. pose proof (made_statement_parts L st' Hst') as [Hp' _].
  destruct (shape_sizes _ _ _ Hp Hp' Hw Hw') as [Hn Hm].
  destruct (C57_generators_depend_on_n_m_only E _ _ Hp Hp' Hn Hm) as [HG HH].
  pose proof (gp_n _ (made_good _ Hp)) as H2. change (p_n (st_get_params st)) with (get_n (st_get_params st)) in H2.
  destruct He as [eA eC _ _ _]. destruct He' as [eA' eC' _ _ _]. rewrite <- HG, <- HH in eA', eC'.
  destruct Hw as (_ & _ & _ & Hs). fold p m n in Hs, eA, eC, eA', eC', H2, Hs |- *.
  rewrite (line_A L _ _ (get_n p) m) in eA by assumption. rewrite (line_A L _ _ (get_n p) m) in eA' by assumption.
  rewrite (line_C L _ _ (get_n p) m) in eC by assumption. rewrite (line_C L _ _ (get_n p) m) in eC' by assumption.
  rewrite (padd_comm E L (pf_A pf)) in eA. rewrite (padd_comm E L (pf_A pf)) in eA'.
  split; symmetry.
  - exact (same_line L _ _ _ _ _ _ Hne eA eA').
  - exact (same_line L _ _ _ _ _ _ Hne eC eC').
Qed.

(** ** C107: a proof that is valid for two transcripts and statements with different challenges has a [B] and a [C] that anybody can
    compute: [B] commits to position 0 without any mask, [C] to the responses in the proof. *)
Theorem C107_valid_twice :
  forall (E : env), env_laws E -> forall t t' (st st' : statement E) (pf : proof E),
    made_statement st -> made_statement st' -> valid_proof t st pf -> valid_proof t' st' pf -> challenge t st pf <> challenge t' st' pf ->
    let p := st_get_params st in let m := N.to_nat (get_m p) in let n := N.to_nat (get_n p) in
    pf_B pf = com (get_CommitmentG p) (get_CommitmentH p) (mkmat m n (sigma_at (get_n p) 0)) s0 /\
    pf_C pf = com (get_CommitmentG p) (get_CommitmentH p) (mkmat m n (public_C (pf_f pf))) s0.
Proof.
  intros E L t t' st st' pf Hst Hst' (Hw & _ & _ & He) (Hw' & _ & _ & He') Hne.
  exact (equations_twice L st st' pf _ _ Hst Hst' Hw Hw' Hne He He').
Qed.
Print Assumptions C107_valid_twice.

(** The events that let a proof returned by the prover be accepted elsewhere. *)
Lemma no_replay_core :
  forall (E : env), env_laws E -> forall (R : Type) (ro : rng_ops R) md (w : witness E) (st st' : statement E) rng rng' t t1 t' t'' pf,
    made_witness w -> made_statement st -> made_statement st' ->
    prove_with_rng ro w st rng t = (Ok pf, t1, rng') ->
    verify_returns md pf st' t' (Ok tt) t'' ->
    let p := st_get_params st in
    let r_B := c_r_B (prover_coins t st w (fst (rng_fill ro rng 32))) in
    challenge t' st' pf = challenge t st pf \/
    weights_cancel (st_get_params st') (get_keys (st_get_input_set st')) (get_auxiliary_keys (st_get_input_set st')) [st'] [pf] [t'] \/
    (w_get_l w = 0%N /\ r_B = s0) \/
    is_relation (get_CommitmentG p) (get_CommitmentH p)
      (concat (mkmat (N.to_nat (get_m p)) (N.to_nat (get_n p)) (fun j i => sigma_at (get_n p) (w_get_l w) j i - sigma_at (get_n p) 0 j i)%sc) ++ [r_B]).
Proof.
  intros E L R ro md w st st' rng rng' t t1 t' t'' pf Hw Hst Hst' Hp Hv p r_B.
  destruct (prove_result L ro w st rng t pf t1 rng' Hw Hst Hp) as (Hrel & Hx & Hpf & _).
  pose proof (made_statement_good L st Hst) as Hg. pose proof (gs_params _ Hg) as Hgp. change (st_params st) with p in Hgp.
  assert (Hws : well_shaped (st_get_params st) pf) by (rewrite Hpf; exact (honest_well_shaped st (w_get_l w) (w_get_r w) (w_get_r1 w) _ _)).
  assert (Heq : equations (st_get_params st) (get_keys (st_get_input_set st)) (get_auxiliary_keys (st_get_input_set st)) (st_get_offset st) (st_get_J st) pf (challenge t st pf)).
  { rewrite Hpf at 1. apply (honest_equations L st (w_get_l w) (w_get_r w) (w_get_r1 w)); [exact Hg|exact Hrel|exact (prover_coins_good t st w _)]. }
  apply verify_returns_batch in Hv.
  assert (Hm1 : Forall made_statement [st']) by (constructor; [exact Hst'|constructor]).
  destruct (accepted_batch L md st' [] [pf] [t'] [t''] Hm1 Hv) as (_ & _ & _ & [Hav|[Hwc|(s & [] & _)]]); [|right; left; exact Hwc].
  assert (Hval' : valid_proof t' st' pf) by (apply (Hav 0%nat st' pf t'); repeat split; reflexivity).
  destruct (scalar_eq_dec (challenge t' st' pf) (challenge t st pf)) as [Hc|Hc]; [left; exact Hc|].
  right; right.
  destruct (equations_twice L st st' pf _ _ Hst Hst' Hws (proj1 Hval') (fun H => Hc (eq_sym H)) Heq (proj2 (proj2 (proj2 Hval')))) as [HB _]. fold p in HB.
  pose proof (honest_parts st (w_get_l w) (w_get_r w) (w_get_r1 w) (prover_coins t st w (fst (rng_fill ro rng 32))) (challenge t st pf)) as Hparts.
  cbv zeta in Hparts. rewrite <- Hpf in Hparts. destruct Hparts as (HB' & _). fold p r_B in HB'. rewrite HB in HB'.
  set (m := N.to_nat (get_m p)) in *. set (n := N.to_nat (get_n p)) in *.
  set (D := mkmat m n (fun j i => sigma_at (get_n p) (w_get_l w) j i - sigma_at (get_n p) 0 j i)%sc) in *.
  assert (Hlen : length (concat D) = length (get_CommitmentG p)).
  { pose proof (gp_CG _ Hgp) as HCG. change (p_CommitmentG p) with (get_CommitmentG p) in HCG. rewrite HCG.
    change (p_m p) with (get_m p). change (p_n p) with (get_n p). fold m n. apply concat_shape_length. apply mkmat_shape. }
  assert (Hsum : lincomb (concat D ++ [r_B]) (get_CommitmentG p ++ [get_CommitmentH p]) = pid E).
  { rewrite (lincomb_app L) by exact Hlen.
    transitivity (com (get_CommitmentG p) (get_CommitmentH p) D r_B); [unfold com; f_equal; cbn; module L|].
    transitivity (com (get_CommitmentG p) (get_CommitmentH p)
      (mkmat m n (fun j i => sigma_at (get_n p) 0 j i * (- s1) + sigma_at (get_n p) (w_get_l w) j i)%sc) (s0 * (- s1) + r_B)%sc).
    { f_equal; [|ring]. apply mkmat_ext. intros j i _ _. ring. }
    rewrite (com_mkmat L), <- HB'. module L. }
  destruct (scalar_eq_dec r_B s0) as [Hr|Hr].
  - destruct (N.eq_dec (w_get_l w) 0) as [Hl|Hl]; [left; split; assumption|right].
    split; [rewrite !app_length; cbn [length]; rewrite Hlen; reflexivity|]. split; [|exact Hsum].
    apply Exists_app. left.
    assert (Hj : exists j, (j < m)%nat /\ gray_digit (get_n p) (w_get_l w) j <> gray_digit (get_n p) 0 j).
    { apply (differing_digit (get_n p) m (w_get_l w)); [exact (gp_n _ Hgp)| |exact Hl].
      destruct Hrel as [Hk _]. assert (Hlt : (N.to_nat (w_get_l w) < length (get_keys (st_get_input_set st)))%nat) by (apply nth_error_Some; congruence).
      pose proof (gs_len _ Hg) as Hlen'. change (is_M (st_input_set st)) with (get_keys (st_get_input_set st)) in Hlen'. change (st_params st) with p in Hlen'.
      rewrite (good_N p Hgp) in Hlen'. change (p_n p) with (get_n p) in Hlen'. change (p_m p) with (get_m p) in Hlen'. unfold m. rewrite N2Nat.id. lia. }
    destruct Hj as (j & Hj & Hd). pose proof (gp_n _ Hgp) as Hn2. change (p_n p) with (get_n p) in Hn2.
    assert (Hi : (N.to_nat (gray_digit (get_n p) (w_get_l w) j) < n)%nat) by (pose proof (gray_digit_lt (get_n p) (w_get_l w) j ltac:(lia)); unfold n; lia).
    apply Exists_exists. exists (mat D j (N.to_nat (gray_digit (get_n p) (w_get_l w) j))). split.
    + unfold mat. apply in_concat. exists (nth j D []). pose proof (mkmat_shape m n (fun j i => sigma_at (get_n p) (w_get_l w) j i - sigma_at (get_n p) 0 j i)%sc) as Hsh.
      fold D in Hsh. split; [apply nth_In; destruct Hsh as [-> _]; exact Hj|]. apply nth_In. rewrite (shape_nth m n D j Hsh Hj). exact Hi.
    + unfold D. rewrite mat_mkmat by assumption. unfold sigma_at at 1. rewrite Nat.eqb_refl. unfold sigma_at.
      destruct (Nat.eqb_spec (N.to_nat (gray_digit (get_n p) (w_get_l w) j)) (N.to_nat (gray_digit (get_n p) 0 j))) as [He|_]; [lia|].
      intros H0. apply s1_neq_s0. rewrite <- H0. ring.
  - right. split; [rewrite !app_length; cbn [length]; rewrite Hlen; reflexivity|]. split; [|exact Hsum].
    apply Exists_app. right. constructor. exact Hr.
Qed.

(** Hence a proof returned by the prover is accepted for another transcript or statement only if one of these happened: a collision of
    Merlin's hash, two queries with the same challenge, weights that cancel, a mask [r_B] equal to zero for a signer at position 0, or a
    known relation between the commitment generators. *)
Theorem C107_no_replay :
  forall (E : env), env_laws E -> forall (R : Type) (ro : rng_ops R) md (w : witness E) (st st' : statement E) rng rng' t t1 t' t'' pf,
    made_witness w -> made_statement st -> made_statement st' ->
    prove_with_rng ro w st rng t = (Ok pf, t1, rng') ->
    verify_returns md pf st' t' (Ok tt) t'' ->
    let p := st_get_params st in
    let r_B := c_r_B (prover_coins t st w (fst (rng_fill ro rng 32))) in
    (t' = t /\ st_get_params st' = p /\ get_keys (st_get_input_set st') = get_keys (st_get_input_set st) /\
     get_auxiliary_keys (st_get_input_set st') = get_auxiliary_keys (st_get_input_set st) /\ st_get_offset st' = st_get_offset st /\ st_get_J st' = st_get_J st) \/
    (statements_collide st' st \/ params_collide (st_get_params st') p \/ input_sets_collide (st_get_input_set st') (st_get_input_set st)) \/
    (fs_transcript t' st' pf <> fs_transcript t st pf /\ challenge t' st' pf = challenge t st pf) \/
    weights_cancel (st_get_params st') (get_keys (st_get_input_set st')) (get_auxiliary_keys (st_get_input_set st')) [st'] [pf] [t'] \/
    (w_get_l w = 0%N /\ r_B = s0) \/
    is_relation (get_CommitmentG p) (get_CommitmentH p)
      (concat (mkmat (N.to_nat (get_m p)) (N.to_nat (get_n p)) (fun j i => sigma_at (get_n p) (w_get_l w) j i - sigma_at (get_n p) 0 j i)%sc) ++ [r_B]).
Proof.
  intros E L R ro md w st st' rng rng' t t1 t' t'' pf Hw Hst Hst' Hp Hv p r_B.
  destruct (transcript_dec (fs_transcript t' st' pf) (fs_transcript t st pf)) as [Hfs|Hfs].
  { apply (fs_inj L) in Hfs. destruct Hfs as (Ht & Hh & _).
    destruct (statement_hash_binding L st' st Hst' Hst Hh) as [(H1 & H2 & H3 & H4 & H5)|Hc]; [left|right; left; exact Hc].
    split; [exact Ht|]. split; [exact H1|]. split; [exact H2|]. split; [exact H3|]. split; [exact H4|exact H5]. }
  right; right.
  destruct (no_replay_core E L R ro md w st st' rng rng' t t1 t' t'' pf Hw Hst Hst' Hp Hv) as [H|H]; [left; split; assumption|right; exact H].
Qed.
Print Assumptions C107_no_replay.

(** Both kinds of hypotheses can be met.  A proof accepted twice: [B] and [C] public, [A], [D], [X] and [Y] solved for. *)
Definition solve1 {E : env} (xi xi' : scalar) (K K' : pt E) : pt E := pmul E (sinv (xi - xi')) (psub K K').
Definition solve {E : env} (xi xi' : scalar) (K K' : pt E) (m : nat) : list (pt E) :=
  psub K (pmul E xi (solve1 xi xi' K K')) :: solve1 xi xi' K K' :: repeat (pid E) (m - 2).
Definition twice_proof {E : env} (st : statement E) (xi xi' : scalar) (f : list (list scalar)) (zA zC z z1 : scalar) : proof E :=
  let p := st_get_params st in let m := N.to_nat (get_m p) in let n := N.to_nat (get_n p) in
  let M := get_keys (st_get_input_set st) in
  let commit := com (get_CommitmentG p) (get_CommitmentH p) in
  let K xi := psub (lincomb (map (code_product (get_n p) m (mat (complete xi f))) (seq 0 (length M))) M) (pmul E z (get_G p)) in
  let K1 xi := psub (lincomb (map (code_product (get_n p) m (mat (complete xi f))) (seq 0 (length M)))
                              (shifted (get_auxiliary_keys (st_get_input_set st)) (st_get_offset st))) (pmul E z1 (get_G1 p)) in
  let K' xi := psub (pmul E (spow xi m) (get_U p)) (pmul E z (st_get_J st)) in
  mk_proof
    (commit (mkmat m n (fun j i => match i with O => - ssum (nth j f []) | S i => mat f j i end)%sc) zA)
    (commit (mkmat m n (sigma_at (get_n p) 0)) s0)
    (commit (mkmat m n (public_C f)) s0)
    (commit (mkmat m n (fun j i => match i with O => - (ssum (nth j f []) * ssum (nth j f [])) | S i => - (mat f j i * mat f j i) end)%sc) zC)
    (solve xi xi' (K xi) (K xi') m) (solve xi xi' (K1 xi) (K1 xi') m) (solve xi xi' (K' xi) (K' xi') m) f zA zC z z1.

Lemma lincomb_repeat_pid {E : env} (L : env_laws E) ss k : @lincomb E ss (repeat (pid E) k) = pid E.
Proof.
  revert ss. induction k as [|k IH]; intros ss; [destruct ss; reflexivity|]. destruct ss as [|s ss]; [reflexivity|].
  cbn [repeat]. change (@lincomb E (s :: ss) (pid E :: repeat (pid E) k)) with (padd E (pmul E s (pid E)) (@lincomb E ss (repeat (pid E) k))).
  rewrite IH. module L.
Qed.
Lemma solve_ok {E : env} (L : env_laws E) xi xi' (K K' : pt E) m : (2 <= m)%nat -> xi <> xi' ->
  lincomb (powers xi m) (solve xi xi' K K' m) = K /\ lincomb (powers xi' m) (solve xi xi' K K' m) = K'.
Proof.
  intros Hm Hne. assert (Hx : (xi - xi')%sc <> s0) by (intros H0; apply Hne; replace xi with ((xi - xi') + xi')%sc by ring; rewrite H0; ring).
  assert (Hp : forall x (P Q : pt E), lincomb (powers x m) (P :: Q :: repeat (pid E) (m - 2)) = padd E P (pmul E x Q)).
  { intros x P Q. destruct m as [|[|m]]; [lia|lia|]. unfold powers. cbn [seq map]. cbn [spow].
    change (padd E (pmul E s1 P) (padd E (pmul E (x * s1)%sc Q) (lincomb (map (spow x) (seq 2 m)) (repeat (pid E) (S (S m) - 2)))) = padd E P (pmul E x Q)).
    rewrite (lincomb_repeat_pid L). module L. }
  unfold solve. rewrite !Hp. split; [module L|].
  assert (Hs : pmul E (xi - xi')%sc (solve1 xi xi' K K') = psub K K').
  { unfold solve1. rewrite (pmul_assoc E L). replace ((xi - xi') * sinv (xi - xi'))%sc with s1 by (field; exact Hx). apply (pmul_1_l E L). }
  transitivity (psub K (pmul E (xi - xi')%sc (solve1 xi xi' K K'))); [module L|]. rewrite Hs. module L.
Qed.

Theorem C107_public_proofs_exist :
  forall (E : env), env_laws E -> forall (st : statement E) xi xi' f zA zC z z1,
    made_statement st -> xi <> xi' -> shape (N.to_nat (get_m (st_get_params st))) (N.to_nat (get_n (st_get_params st)) - 1) f ->
    let pf := twice_proof st xi xi' f zA zC z z1 in
    well_shaped (st_get_params st) pf /\
    equations (st_get_params st) (get_keys (st_get_input_set st)) (get_auxiliary_keys (st_get_input_set st)) (st_get_offset st) (st_get_J st) pf xi /\
    equations (st_get_params st) (get_keys (st_get_input_set st)) (get_auxiliary_keys (st_get_input_set st)) (st_get_offset st) (st_get_J st) pf xi'.
Proof.
  intros E L st xi xi' f zA zC z z1 Hst Hne Hs pf. pose proof (gs_params _ (made_statement_good L st Hst)) as Hg.
  pose proof (gp_n _ Hg) as Hn. pose proof (gp_m _ Hg) as Hm. change (p_n (st_params st)) with (get_n (st_get_params st)) in Hn.
  change (p_m (st_params st)) with (get_m (st_get_params st)) in Hm.
  assert (Hpf : pf = twice_proof st xi xi' f zA zC z z1) by reflexivity. clearbody pf. unfold twice_proof in Hpf. cbv zeta in Hpf.
  set (p := st_get_params st) in *. set (m := N.to_nat (get_m p)) in *. assert (Hm2 : (2 <= m)%nat) by (unfold m; lia).
  assert (Hsx : forall K K' : pt E, length (solve xi xi' K K' m) = m) by (intros K K'; unfold solve; cbn [length]; rewrite repeat_length; lia).
  assert (HX : forall K K' : pt E, lincomb (powers xi m) (solve xi xi' K K' m) = K) by (intros K K'; exact (proj1 (solve_ok L xi xi' K K' m Hm2 Hne))).
  assert (HX' : forall K K' : pt E, lincomb (powers xi' m) (solve xi xi' K K' m) = K') by (intros K K'; exact (proj2 (solve_ok L xi xi' K K' m Hm2 Hne))).
  rewrite Hpf. split; [split; [apply Hsx|split; [apply Hsx|split; [apply Hsx|exact Hs]]]|].
  split; constructor; cbn [pf_A pf_B pf_C pf_D pf_X pf_X1 pf_Y pf_f pf_z_A pf_z_C pf_z pf_z1]; fold m.
  1,6: rewrite (line_A L _ _ (get_n p) m) by assumption; apply (padd_comm E L).
  1,5: apply (line_C L _ _ (get_n p) m); assumption.
  - rewrite HX. module L.
  - rewrite HX. module L.
  - rewrite HX. module L.
  - rewrite HX'. module L.
  - rewrite HX'. module L.
  - rewrite HX'. module L.
Qed.
Print Assumptions C107_public_proofs_exist.

(** A Merlin whose answers look at the first operation only: two transcripts, two challenges, one proof. *)
Definition P_first (t : transcript) (label : bytes) : N := match t with TAppend _ [_] :: _ => 5%N | _ => 7%N end.
Example C107_example :
  let st := x_statement P_first T0 2 in
  let t := [TAppend (b_ "a") [x00]] in let t' := [TAppend (b_ "a") []] in
  let pf := twice_proof st (scalar_from_wide (le_bytes 64 5)) (scalar_from_wide (le_bytes 64 7)) [[s1]; [s1]] s1 s1 s1 s1 in
  made_statement st /\ valid_proof t st pf /\ valid_proof t' st pf /\ challenge t st pf <> challenge t' st pf.
Proof.
  set (xi := scalar_from_wide (le_bytes 64 5)). set (xi' := scalar_from_wide (le_bytes 64 7)). cbv zeta.
  assert (Hne : xi <> xi') by scalars_differ.
  assert (Hsh : shape 2 1 [[s1]; [s1]]) by (split; [reflexivity|repeat constructor]).
  pose proof (x_statement_made P_first T0 2) as Hm.
  destruct (C107_public_proofs_exist _ (toy_laws P_first T0) _ xi xi' [[s1]; [s1]] s1 s1 s1 s1 Hm Hne Hsh) as (Hw & He & He').
  set (pf := twice_proof (x_statement P_first T0 2) xi xi' [[s1]; [s1]] s1 s1 s1 s1) in *.
  assert (Hf : pf_f pf = [[s1]; [s1]]) by reflexivity.
  assert (Hc : challenge [TAppend (b_ "a") [x00]] (x_statement P_first T0 2) pf = xi) by reflexivity.
  assert (Hc' : challenge [TAppend (b_ "a") []] (x_statement P_first T0 2) pf = xi') by reflexivity.
  assert (Hz : forall x, (x - (s1 + s0))%sc <> s0 -> forall row, In row (complete x [[s1]; [s1]]) -> ~ In s0 row).
  { intros x Hx row [<-|[<-|[]]] [H|[H|[]]]; try (apply Hx; exact H); exact (s1_neq_s0 H). }
  split; [exact Hm|]. split; [|split; [|rewrite Hc, Hc'; exact Hne]].
  - unfold valid_proof. rewrite Hc, Hf. split; [exact Hw|]. split; [scalars_differ|]. split; [apply Hz; scalars_differ|exact He].
  - unfold valid_proof. rewrite Hc', Hf. split; [exact Hw|]. split; [scalars_differ|]. split; [apply Hz; scalars_differ|exact He'].
Qed.

(** The proof of C62's example is accepted for its own transcript and statement. *)
Example C107_replay_example : exists (w : witness E0) st pf t' t'',
  made_witness w /\ made_statement st /\ prove_with_rng counter w st 5%N (x_transcript 1) = (Ok pf, t', 7%N) /\
  verify_returns OverflowPanics pf st (x_transcript 1) (Ok tt) t''.
Proof.
  destruct C62_completeness_example as (w & st & pf & t' & H1 & H2 & _ & _ & _ & H3 & H4). exists w, st, pf, t', (verifier_transcript (x_transcript 1) st pf).
  split; [exact H1|]. split; [exact H2|]. split; [exact H3|exact H4].
Qed.
