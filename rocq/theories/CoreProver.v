(** Closed forms of the prover's inner computations. *)
From Verif Require Export CoreFacts.

(** * Random values *)

Lemma draws_length {E : env} k : forall g, length (fst (draws (E := E) k g)) = k.
Proof.
  induction k as [|k IH]; intros g; [reflexivity|]. cbn [draws].
  destruct (draw g) as [s g1]. specialize (IH g1). destruct (draws k g1) as [ss g2]. cbn [fst length] in *. lia.
Qed.

Lemma draw_rows_shape {E : env} m n : forall g, shape m n (fst (draw_rows (E := E) m n g)).
Proof.
  induction m as [|m IH]; intros g; [split; [reflexivity|constructor]|]. cbn [draw_rows].
  pose proof (@draws_length E n g) as Hl.
  destruct (draws n g) as [row g1]. specialize (IH g1). destruct (draw_rows m n g1) as [rows g2]. cbn [fst] in *.
  destruct IH as [H1 H2]. split; [cbn [length]; lia|]. constructor; assumption.
Qed.

(** * Balanced rows *)

Lemma balance_rows m n a : (0 < n)%nat -> shape m n a -> mapM balance_row a = Ok (map balance a).
Proof.
  intros Hn [_ Ha]. apply mapM_pure. intros row Hr. rewrite Forall_forall in Ha. specialize (Ha row Hr).
  destruct row; [simpl in Ha; lia|reflexivity].
Qed.

Lemma balance_shape m n a : shape m n a -> shape m n (map balance a).
Proof.
  intros [Hm Ha]. split; [rewrite map_length; exact Hm|]. apply Forall_forall. intros row Hr.
  apply in_map_iff in Hr. destruct Hr as (r & <- & Hr). rewrite Forall_forall in Ha. rewrite <- (Ha r Hr).
  destruct r; reflexivity.
Qed.

Lemma balance_sum row : ssum (balance row) = s0.
Proof. destruct row as [|x r]; cbn [balance]; [reflexivity|]. rewrite ssum_cons. ring. Qed.

Lemma balance_row_sum m n a j : shape m n a -> (j < m)%nat -> ssum (map (mat (map balance a) j) (seq 0 n)) = s0.
Proof.
  intros Hs Hj. pose proof (balance_shape _ _ _ Hs) as Hb.
  unfold mat. rewrite <- (shape_row m n (map balance a) j [] Hb Hj), map_nth_seq.
  rewrite (nth_map balance a j [] []) by (destruct Hs; lia). apply balance_sum.
Qed.

(** * The index matrix *)

Lemma decompose_index_spec tm n m l : (2 <= n)%N -> m <> 0%N -> (n ^ m < u32_bound)%N -> (l < n ^ m)%N ->
  decompose_index tm n m l = Ok (gray_code n (N.to_nat m) l).
Proof.
  intros Hn Hm Hb Hl. unfold decompose_index.
  destruct tm; [rewrite decompose_spec by assumption|rewrite decompose_vartime_spec by assumption]; reflexivity.
Qed.

Lemma delta_sigma tm (d : N) i : delta d (N.of_nat i) tm = if Nat.eqb i (N.to_nat d) then s1 else s0.
Proof.
  unfold delta. destruct (N.eqb_spec d (N.of_nat i)) as [->|H].
  - rewrite Nat2N.id, Nat.eqb_refl. destruct tm; reflexivity.
  - rewrite (proj2 (Nat.eqb_neq _ _)) by lia. destruct tm; reflexivity.
Qed.

Lemma sigma_matrix_spec tm n m l :
  sigma_matrix tm n m (gray_code n (N.to_nat m) l) = Ok (mkmat (N.to_nat m) (N.to_nat n) (sigma_at n l)).
Proof.
  unfold sigma_matrix, mkmat, range.
  apply (mapM_pure _ (fun j => map (sigma_at n l j) (seq 0 (N.to_nat n)))).
  intros j Hj. apply in_seq in Hj.
  assert (Hi : @index proof_error _ (gray_code n (N.to_nat m) l) j = Ok (gray_digit n l j))
    by (apply index_Ok; apply gray_code_nth; lia).
  rewrite Hi. cbn [obind]. f_equal. apply map_ext. intros i. apply delta_sigma.
Qed.

Lemma sigma_row_sum n l j : n <> 0%N -> ssum (map (sigma_at n l j) (seq 0 (N.to_nat n))) = s1.
Proof.
  intros Hn. unfold sigma_at.
  apply (ssum_delta Nat.eqb Nat.eqb_eq s1 (seq 0 (N.to_nat n)) (N.to_nat (gray_digit n l j))).
  - apply seq_NoDup.
  - apply in_seq. pose proof (gray_digit_lt n l j Hn). lia.
Qed.

(** * Entrywise matrices *)

Lemma mapM_mkmat m n (h : nat -> nat -> outcome proof_error scalar) (g : nat -> nat -> scalar) :
  (forall j i, (j < m)%nat -> (i < n)%nat -> h j i = Ok (g j i)) ->
  mapM (fun j => mapM (fun i => h j i) (seq 0 n)) (seq 0 m) = Ok (mkmat m n g).
Proof.
  intros H. unfold mkmat. apply (mapM_pure _ (fun j => map (g j) (seq 0 n))).
  intros j Hj. apply in_seq in Hj. apply mapM_pure. intros i Hi. apply in_seq in Hi. apply H; lia.
Qed.

Lemma a_sigma_spec n m a sigma : shape (N.to_nat m) (N.to_nat n) a -> shape (N.to_nat m) (N.to_nat n) sigma ->
  a_sigma_matrix n m a sigma =
  Ok (mkmat (N.to_nat m) (N.to_nat n) (fun j i => mat a j i * (s1 - s2 * mat sigma j i))%sc).
Proof.
  intros Ha Hs. unfold a_sigma_matrix, range.
  apply (mapM_mkmat _ _ (fun j i => let* aji := index2 a j i in let* sji := index2 sigma j i in Ok (aji * (s1 - s2 * sji))%sc)).
  intros j i Hj Hi. rewrite (index2_mat _ _ a j i Ha Hj Hi), (index2_mat _ _ sigma j i Hs Hj Hi). reflexivity.
Qed.

Lemma a_square_spec n m a : shape (N.to_nat m) (N.to_nat n) a ->
  a_square_matrix n m a = Ok (mkmat (N.to_nat m) (N.to_nat n) (fun j i => (- mat a j i) * mat a j i)%sc).
Proof.
  intros Ha. unfold a_square_matrix, range.
  apply (mapM_mkmat _ _ (fun j i => let* aji := index2 a j i in Ok ((- aji) * aji)%sc)).
  intros j i Hj Hi. rewrite (index2_mat _ _ a j i Ha Hj Hi). reflexivity.
Qed.

Lemma f_matrix_spec n m a sigma xi : (2 <= n)%N -> (1 <= m)%N ->
  shape (N.to_nat m) (N.to_nat n) a -> shape (N.to_nat m) (N.to_nat n) sigma ->
  f_matrix n m a sigma (powers xi (S (N.to_nat m))) =
  Ok (mkmat (N.to_nat m) (N.to_nat n - 1) (fun j i => mat sigma j (S i) * xi + mat a j (S i))%sc).
Proof.
  intros Hn Hm Ha Hs. unfold f_matrix, range, mkmat.
  apply (mapM_pure _ (fun j => map (fun i => mat sigma j (S i) * xi + mat a j (S i))%sc (seq 0 (N.to_nat n - 1)))).
  intros j Hj. apply in_seq in Hj.
  rewrite <- (map_map S (fun i => mat sigma j i * xi + mat a j i)%sc), seq_shift.
  apply mapM_pure. intros i Hi. apply in_seq in Hi.
  rewrite (index2_mat _ _ sigma j i Hs) by lia. cbn [obind].
  assert (H1 : @index proof_error _ (powers xi (S (N.to_nat m))) 1 = Ok xi).
  { apply index_Ok. rewrite powers_nth by lia. f_equal. cbn [spow]. ring. }
  rewrite H1. cbn [obind]. rewrite (index2_mat _ _ a j i Ha) by lia. reflexivity.
Qed.

Lemma z_response_spec m r rho xi : length rho = N.to_nat m ->
  z_response m r rho (powers xi (S (N.to_nat m))) =
  Ok (r * spow xi (N.to_nat m) - sdot rho (powers xi (N.to_nat m)))%sc.
Proof.
  intros Hl. unfold z_response.
  assert (H1 : @index proof_error _ (powers xi (S (N.to_nat m))) (N.to_nat m) = Ok (spow xi (N.to_nat m))).
  { apply index_Ok. apply powers_nth. lia. }
  rewrite H1. cbn [obind]. f_equal. f_equal. unfold sdot. f_equal. f_equal.
  assert (Hc : forall (A B : Type) (l : list A) (k1 k2 : list B), length l = length k1 -> combine l (k1 ++ k2) = combine l k1).
  { clear. induction l as [|x l IH]; intros k1 k2 Hl; [reflexivity|]. destruct k1 as [|y k1]; [discriminate|].
    cbn [app combine]. rewrite IH by (simpl in Hl; lia). reflexivity. }
  unfold powers. rewrite seq_S, map_app. apply Hc. rewrite map_length, seq_length. exact Hl.
Qed.

(** The completed response matrix. *)
Lemma complete_prover m n (A S_ : nat -> nat -> scalar) xi : (1 <= n)%nat ->
  (forall j, (j < m)%nat -> ssum (map (A j) (seq 0 n)) = s0) ->
  (forall j, (j < m)%nat -> ssum (map (S_ j) (seq 0 n)) = s1) ->
  complete xi (mkmat m (n - 1) (fun j i => S_ j (S i) * xi + A j (S i))%sc) = mkmat m n (fun j i => S_ j i * xi + A j i)%sc.
Proof.
  intros Hn HA HS. unfold complete, mkmat. rewrite map_map. apply map_ext_in. intros j Hj. apply in_seq in Hj.
  replace n with (S (n - 1)) at 3 by lia. cbn [seq map]. rewrite <- seq_shift, map_map. f_equal.
  specialize (HA j ltac:(lia)). specialize (HS j ltac:(lia)).
  replace n with (S (n - 1)) in HA, HS by lia. cbn [seq map] in HA, HS. rewrite ssum_cons in HA, HS.
  rewrite <- seq_shift, map_map in HA, HS.
  rewrite ssum_add_f, (ssum_ext (fun i => S_ j (S i) * xi)%sc (fun i => xi * S_ j (S i))%sc) by (intros; ring).
  rewrite ssum_scale_f.
  set (sa := ssum (map (fun x => A j (S x)) _)) in *. set (ss := ssum (map (fun x => S_ j (S x)) _)) in *.
  replace (A j 0%nat) with (s0 - sa)%sc by (rewrite <- HA; ring).
  replace (S_ j 0%nat) with (s1 - ss)%sc by (rewrite <- HS; ring). ring.
Qed.

(** * Commitments *)

Lemma commit_matrix_spec {E : env} (L : env_laws E) n m (CG : list (pt E)) CH matrix mask tm :
  shape (N.to_nat m) (N.to_nat n) matrix -> length CG = (N.to_nat m * N.to_nat n)%nat ->
  commit_matrix_with n m CG CH matrix mask tm = Ok (com CG CH matrix mask).
Proof.
  intros Hs HCG. unfold commit_matrix_with.
  rewrite (proj2 (N.eqb_eq (N.of_nat (length matrix)) m)) by (destruct Hs; lia). cbn [negb].
  assert (Hrows : existsb (fun row => negb (N.of_nat (length row) =? n)%N) matrix = false).
  { destruct (existsb _ matrix) eqn:He; [|reflexivity]. apply existsb_exists in He. destruct He as (row & Hr & Hne).
    destruct Hs as [_ Hs]. rewrite Forall_forall in Hs. specialize (Hs row Hr).
    rewrite (proj2 (N.eqb_eq (N.of_nat (length row)) n)) in Hne by lia. discriminate. }
  rewrite Hrows. unfold multiscalar_mul, vartime_multiscalar_mul, com.
  rewrite !app_length, (concat_shape_length _ _ _ Hs), HCG. cbn [length]. rewrite Nat.eqb_refl.
  rewrite (lincomb_app L) by (rewrite (concat_shape_length _ _ _ Hs), HCG; reflexivity).
  rewrite (lincomb_single L). destruct tm; reflexivity.
Qed.

(** * The polynomials of the ring positions *)

Lemma fold_lin_mul fs : forall c,
  length (fold_left (fun c f => lin_mul (fst f) (snd f) c) fs c) = (length c + length fs)%nat /\
  (forall x, peval (fold_left (fun c f => lin_mul (fst f) (snd f) c) fs c) x
             = (peval c x * sprod (map (fun f => fst f + snd f * x)%sc fs))%sc) /\
  (c <> [] -> forall d, last (fold_left (fun c f => lin_mul (fst f) (snd f) c) fs c) d = (last c d * sprod (map snd fs))%sc).
Proof.
  induction fs as [|[a s] fs IH]; intros c; cbn [fold_left map length fst snd].
  - split; [lia|]. split; intros; rewrite ?sprod_nil; ring.
  - destruct (IH (lin_mul a s c)) as (H1 & H2 & H3). split; [rewrite H1, lin_mul_length; lia|]. split.
    + intros x. rewrite H2, lin_mul_peval, sprod_cons. ring.
    + intros Hc d. rewrite H3.
      * rewrite lin_mul_last by exact Hc. rewrite sprod_cons. ring.
      * intros H. apply (f_equal (@length _)) in H. rewrite lin_mul_length in H. discriminate.
Qed.

Lemma rotate_zeros q r : rotate_right1 (q ++ repeat s0 (S r)) = Ok (s0 :: q ++ repeat s0 r).
Proof.
  unfold rotate_right1. replace (S r) with (r + 1)%nat by lia. rewrite repeat_app, app_assoc, rev_app_distr.
  cbn [repeat rev app]. rewrite rev_involutive. reflexivity.
Qed.

Lemma combine_app {A B : Type} (l1 l2 : list A) (k1 k2 : list B) : length l1 = length k1 ->
  combine (l1 ++ l2) (k1 ++ k2) = combine l1 k1 ++ combine l2 k2.
Proof.
  revert k1; induction l1 as [|x l1 IH]; intros k1 Hl; destruct k1 as [|z k1]; try discriminate; [reflexivity|].
  cbn [app combine]. rewrite IH by (simpl in Hl; lia). reflexivity.
Qed.

Lemma map_zeros w k : map (fun y => w * y)%sc (repeat s0 k) = repeat s0 k.
Proof. induction k as [|k IH]; [reflexivity|]. cbn [repeat map]. rewrite IH. f_equal. ring. Qed.

Lemma combine_zeros k : map (fun xy => fst xy + snd xy)%sc (combine (repeat s0 k) (repeat s0 k)) = repeat s0 k.
Proof. induction k as [|k IH]; [reflexivity|]. cbn [repeat combine map fst snd]. rewrite IH. f_equal; ring. Qed.

Lemma convolve_spec m n a sigma ks j q r : shape m n a -> shape m n sigma -> (j < m)%nat ->
  (exists d, nth_error ks j = Some d /\ (N.to_nat d < n)%nat) ->
  forall d, nth_error ks j = Some d ->
  convolve a sigma ks j (q ++ repeat s0 (S r)) =
  Ok (lin_mul (mat a j (N.to_nat d)) (mat sigma j (N.to_nat d)) q ++ repeat s0 r).
Proof.
  intros Ha Hs Hj (d0 & Hd0 & Hlt) d Hd. rewrite Hd in Hd0. injection Hd0 as <-.
  unfold convolve. rewrite (proj2 (index_Ok ks j d) Hd). cbn [obind].
  rewrite (index2_mat m n a j (N.to_nat d) Ha Hj Hlt). cbn [obind].
  rewrite rotate_zeros. cbn [obind].
  rewrite (index2_mat m n sigma j (N.to_nat d) Hs Hj Hlt). cbn [obind]. f_equal.
  rewrite !map_app. cbn [map]. rewrite map_app, !map_zeros. cbn [repeat].
  set (x := mat a j (N.to_nat d)). set (y := mat sigma j (N.to_nat d)).
  unfold lin_mul.
  replace (map (fun c => x * c)%sc q ++ s0 :: repeat s0 r) with ((map (fun c => x * c)%sc q ++ [s0]) ++ repeat s0 r)
    by (rewrite <- app_assoc; reflexivity).
  replace ((y * s0)%sc :: map (fun c => y * c)%sc q ++ repeat s0 r)
    with ((s0 :: map (fun c => y * c)%sc q) ++ repeat s0 r) by (cbn [app]; f_equal; ring).
  rewrite combine_app by (rewrite app_length; cbn [length]; rewrite !map_length; lia).
  rewrite map_app, combine_zeros. reflexivity.
Qed.

Lemma convolve_all_spec m n a sigma ks : shape m n a -> shape m n sigma ->
  length ks = m -> Forall (fun d => (N.to_nat d < n)%nat) ks ->
  forall count j q, (j + count = m)%nat ->
  convolve_all a sigma ks (seq j count) (q ++ repeat s0 count) =
  Ok (fold_left (fun c f => lin_mul (fst f) (snd f) c)
        (map (fun j => (mat a j (N.to_nat (nth j ks 0%N)), mat sigma j (N.to_nat (nth j ks 0%N)))) (seq j count)) q).
Proof.
  intros Ha Hs Hk Hd. induction count as [|count IH]; intros j q Hc.
  - cbn [seq map fold_left convolve_all repeat]. rewrite app_nil_r. reflexivity.
  - cbn [seq convolve_all map fold_left fst snd].
    assert (Hn : nth_error ks j = Some (nth j ks 0%N)) by (apply nth_error_nth'; lia).
    rewrite (convolve_spec m n a sigma ks j q count Ha Hs ltac:(lia)) with (d := nth j ks 0%N).
    + cbn [obind]. rewrite IH by lia. reflexivity.
    + exists (nth j ks 0%N). split; [exact Hn|]. rewrite Forall_forall in Hd. apply Hd. apply nth_In. lia.
    + exact Hn.
Qed.

Lemma poly_coefficients_spec m n a sigma ks : (1 <= m)%N -> (m < u32_bound)%N ->
  shape (N.to_nat m) n a -> shape (N.to_nat m) n sigma ->
  length ks = N.to_nat m -> Forall (fun d => (N.to_nat d < n)%nat) ks ->
  poly_coefficients m a sigma ks =
  Ok (poly_prod (map (fun j => (mat a j (N.to_nat (nth j ks 0%N)), mat sigma j (N.to_nat (nth j ks 0%N)))) (seq 0 (N.to_nat m)))).
Proof.
  intros Hm1 Hm Ha Hs Hk Hd. unfold poly_coefficients, checked_add, checked.
  assert (u32_bound + 1 < usize_bound)%N by reflexivity.
  rewrite (proj2 (N.ltb_lt (m + 1) usize_bound)) by lia. cbn [ok_or obind].
  destruct ks as [|d ks]; [simpl in Hk; lia|]. cbn [index nth_error obind].
  change (@index proof_error N (d :: ks) 0) with (@Ok proof_error N d). cbn [obind].
  inversion Hd as [|d' ks' Hd0 Hds]; subst d' ks'.
  rewrite (index2_mat (N.to_nat m) n a 0 (N.to_nat d) Ha) by lia. cbn [obind].
  rewrite (index2_mat (N.to_nat m) n sigma 0 (N.to_nat d) Hs) by lia.
  replace (N.to_nat (m + 1)) with (S (S (N.to_nat m - 1))) by lia.
  cbn [repeat]. unfold vec_set. cbn [set_nth obind].
  pose proof (convolve_all_spec (N.to_nat m) n a sigma (d :: ks) Ha Hs Hk Hd (N.to_nat m - 1) 1
                [mat a 0 (N.to_nat d); mat sigma 0 (N.to_nat d)] ltac:(lia)) as Hc.
  cbn [app] in Hc. rewrite Hc. f_equal. unfold poly_prod.
  replace (N.to_nat m) with (S (N.to_nat m - 1)) at 2 by lia. cbn [seq map fold_left fst snd nth].
  f_equal. unfold lin_mul. cbn [map combine app fst snd]. f_equal; [ring|]. f_equal. ring.
Qed.

Lemma gray_digits_nth n m k j : (j < m)%nat -> nth j (gray_code n m k) 0%N = gray_digit n k j.
Proof. intros H. unfold gray_code. apply nth_map_seq. exact H. Qed.

Lemma p_loop_S fuel m a sigma it ks : p_loop (S fuel) m a sigma it ks =
  match gray_next it with
  | (None, _) => Ok []
  | (Some (gray_index, _, gray_new), it') =>
      let* ks := vec_set ks gray_index gray_new in
      let* coefficients := poly_coefficients m a sigma ks in
      let* rest := p_loop fuel m a sigma it' ks in
      Ok (coefficients :: rest)
  end.
Proof. reflexivity. Qed.

Lemma p_loop_spec n m a sigma : (2 <= n)%N -> (1 <= m)%N -> (n ^ m < u32_bound)%N -> (m < u32_bound)%N ->
  shape (N.to_nat m) (N.to_nat n) a -> shape (N.to_nat m) (N.to_nat n) sigma ->
  forall count i, (0 < i)%N -> (i + N.of_nat count = n ^ m)%N ->
  p_loop (S count) m a sigma (gray_at n m i) (gray_code n (N.to_nat m) (i - 1)) =
  Ok (map (fun k => poly_prod (position_factors n (N.to_nat m) (mat a) (mat sigma) k)) (seq (N.to_nat i) count)).
Proof.
  intros Hn Hm Hb Hm32 Ha Hs. assert (Hn0 : n <> 0%N) by lia. assert (Hm0 : m <> 0%N) by lia.
  induction count as [|count IH]; intros i Hi Hc.
  - replace i with (n ^ m)%N by lia. cbn [p_loop]. rewrite gray_next_done by assumption. reflexivity.
  - rewrite p_loop_S.
    destruct (gray_next_step n m i Hn Hm0 Hb Hi ltac:(lia)) as (idx & Hidx & Hnext & _ & Hother).
    rewrite Hnext.
    assert (Hset : @vec_set proof_error _ (gray_code n (N.to_nat m) (i - 1)) idx (gray_digit n i idx)
                   = Ok (gray_code n (N.to_nat m) i)).
    { unfold vec_set. destruct (set_nth_Some (gray_code n (N.to_nat m) (i - 1)) idx (gray_digit n i idx)) as [r Hr];
        [rewrite gray_code_length; exact Hidx|]. rewrite Hr. f_equal.
      apply (nth_ext _ _ 0%N 0%N).
      - rewrite (set_nth_length _ _ _ _ Hr), !gray_code_length. reflexivity.
      - rewrite (set_nth_length _ _ _ _ Hr), gray_code_length. intros j Hj.
        rewrite (set_nth_nth _ _ _ _ 0%N j Hr), !gray_digits_nth by exact Hj.
        destruct (Nat.eqb_spec j idx) as [->|Hne]; [reflexivity|]. symmetry. apply Hother. exact Hne. }
    rewrite Hset. cbn [obind].
    rewrite (poly_coefficients_spec m (N.to_nat n)); try assumption.
    + cbn [obind]. specialize (IH (i + 1)%N ltac:(lia) ltac:(lia)).
      replace (i + 1 - 1)%N with i in IH by lia. rewrite IH. cbn [obind seq map].
      replace (N.to_nat (i + 1)) with (S (N.to_nat i)) by lia. do 3 f_equal.
      unfold position_factors. apply map_ext_in. intros j Hj. apply in_seq in Hj.
      rewrite gray_digits_nth by lia. rewrite N2Nat.id. reflexivity.
    + apply gray_code_length.
    + eapply Forall_impl; [|apply gray_code_lt; exact Hn0]. intros x Hx. cbn beta in Hx. lia.
Qed.

Lemma p_vector_spec n m a sigma : (2 <= n)%N -> (1 <= m)%N -> (n ^ m < u32_bound)%N ->
  shape (N.to_nat m) (N.to_nat n) a -> shape (N.to_nat m) (N.to_nat n) sigma ->
  p_vector n m a sigma =
  Ok (map (fun k => poly_prod (position_factors n (N.to_nat m) (mat a) (mat sigma) k)) (seq 0 (N.to_nat (n ^ m)))).
Proof.
  intros Hn Hm Hb Ha Hs. assert (Hn0 : n <> 0%N) by lia.
  assert (Hm32 : (m < u32_bound)%N).
  { pose proof (mul_lt_of_pow n m u32_bound Hn Hb ltac:(lia)). nia. }
  unfold p_vector. rewrite gray_new_spec by (assumption || lia). cbn [ok_or obind].
  unfold pow_u32. rewrite N.mod_small by exact Hb.
  assert (Hpos : (0 < n ^ m)%N) by (pose proof (npow_pos n m Hn0); lia).
  replace (N.to_nat (n ^ m)) with (S (N.to_nat (n ^ m - 1))) by lia.
  set (cnt := N.to_nat (n ^ m - 1)). rewrite p_loop_S. rewrite gray_next_first by exact Hn0.
  assert (Hset : @vec_set proof_error _ (repeat 0%N (N.to_nat m)) 0 0%N = Ok (repeat 0%N (N.to_nat m))).
  { destruct (N.to_nat m) as [|k] eqn:Hk; [lia|]. reflexivity. }
  rewrite Hset. cbn [obind].
  rewrite (poly_coefficients_spec m (N.to_nat n)); try assumption.
  - cbn [obind]. rewrite <- (gray_zero n (N.to_nat m) Hn0).
    pose proof (p_loop_spec n m a sigma Hn Hm Hb Hm32 Ha Hs cnt 1%N ltac:(lia) ltac:(lia)) as Hl.
    change (1 - 1)%N with 0%N in Hl. rewrite Hl. cbn [obind].
    change (N.to_nat 1) with 1%nat. cbn [seq map]. do 3 f_equal.
    unfold position_factors. apply map_ext_in. intros j Hj. apply in_seq in Hj.
    rewrite gray_digits_nth by lia. reflexivity.
  - apply repeat_length.
  - apply Forall_forall. intros x Hx. apply repeat_spec in Hx. subst x. lia.
Qed.

Lemma poly_position n m A S_ k :
  length (poly_prod (position_factors n m A S_ k)) = S m /\
  (forall x, peval (poly_prod (position_factors n m A S_ k)) x = code_product n m (fun j i => S_ j i * x + A j i)%sc k) /\
  (forall d, last (poly_prod (position_factors n m A S_ k)) d = code_product n m S_ k).
Proof.
  unfold poly_prod. destruct (fold_lin_mul (position_factors n m A S_ k) [s1]) as (H1 & H2 & H3).
  split; [|split].
  - rewrite H1. unfold position_factors. rewrite map_length, seq_length. reflexivity.
  - intros x. rewrite H2. cbn [peval]. unfold position_factors, code_product. rewrite map_map. cbn [fst snd].
    rewrite (sprod_ext _ (fun j => S_ j (N.to_nat (gray_digit n (N.of_nat k) j)) * x + A j (N.to_nat (gray_digit n (N.of_nat k) j)))%sc)
      by (intros; ring). ring.
  - intros d. rewrite H3 by discriminate. cbn [last]. unfold position_factors, code_product. rewrite map_map. cbn [snd]. ring.
Qed.

(** * The vector [X] *)

Lemma X_vector_spec {E : env} (L : env_laws E) tm p (M : list (pt E)) G rho k :
  length p = length M -> (forall row, In row p -> (length rho <= length row)%nat) -> length rho = k ->
  X_vector tm p M G rho =
  Ok (map (fun j => padd E (lincomb (map (fun row => nth j row s0) p) M) (pmul E (nth j rho s0) G)) (seq 0 k)).
Proof.
  intros Hp Hrow Hk. unfold X_vector.
  rewrite (mapM_pure _ (fun jr => padd E (lincomb (map (fun row => nth (fst jr) row s0) p) M) (pmul E (snd jr) G))).
  - f_equal. subst k. rewrite <- (map_nth_seq rho s0) at 2.
    assert (Hc : forall a k (h : nat -> scalar), combine (seq a k) (map h (seq a k)) = map (fun j => (j, h j)) (seq a k)).
    { clear. intros a k h. revert a. induction k as [|k IH]; intros a; [reflexivity|]. cbn [seq map combine]. rewrite IH. reflexivity. }
    rewrite Hc, map_map. reflexivity.
  - intros [j r] Hin. cbn [fst snd].
    assert (Hj : (j < length rho)%nat).
    { apply in_combine_l in Hin. apply in_seq in Hin. lia. }
    unfold p_column. rewrite (mapM_pure _ (fun row => nth j row s0)).
    2:{ intros row Hr. apply index_nth. specialize (Hrow row Hr). lia. }
    cbn [obind]. unfold msm, multiscalar_mul, vartime_multiscalar_mul.
    rewrite !app_length, map_length, Hp. cbn [length]. rewrite Nat.eqb_refl.
    rewrite (lincomb_app L) by (rewrite map_length; exact Hp). rewrite (lincomb_single L). destruct tm; reflexivity.
Qed.

(** [sum_j xi^j X_j] *)
Lemma X_combination {E : env} (L : env_laws E) (p : list (list scalar)) (M : list (pt E)) G rho m xi :
  length rho = m ->
  lincomb (powers xi m) (map (fun j => padd E (lincomb (map (fun row => nth j row s0) p) M) (pmul E (nth j rho s0) G)) (seq 0 m))
  = padd E (lincomb (map (fun row => sdot (map (fun j => nth j row s0) (seq 0 m)) (powers xi m)) p) M)
           (pmul E (sdot rho (powers xi m)) G).
Proof.
  intros Hrho. subst m.
  replace (sdot rho) with (sdot (map (fun i => nth i rho s0) (seq 0 (length rho)))) by (rewrite map_nth_seq; reflexivity).
  unfold powers.
  assert (Hd : forall (h g : nat -> scalar) l, sdot (map h l) (map g l) = ssum (map (fun j => h j * g j)%sc l)).
  { clear. intros h g l. induction l as [|x l IH]; [reflexivity|]. cbn [map]. rewrite sdot_cons, ssum_cons, IH. reflexivity. }
  rewrite (map_ext (fun row => sdot _ _) (fun row => ssum (map (fun j => nth j row s0 * spow xi j)%sc (seq 0 (length rho)))))
    by (intros row; apply Hd).
  rewrite Hd. generalize (seq 0 (length rho)) as l.
  induction l as [|j l IH].
  - cbn [map]. rewrite !lincomb_nil_l, ssum_nil.
    assert (Hz : map (fun _ : list scalar => s0) p = repeat s0 (length p)) by
      (clear; induction p as [|x p IH]; [reflexivity|]; cbn [map length repeat]; rewrite IH; reflexivity).
    rewrite Hz, (lincomb_zeros L). module L.
  - cbn [map]. rewrite lincomb_cons, IH, ssum_cons.
    rewrite (map_ext (fun row => ssum (nth j row s0 * spow xi j :: map _ l)%sc)
                     (fun row => spow xi j * nth j row s0 + ssum (map (fun j => nth j row s0 * spow xi j)%sc l))%sc)
      by (intros row; rewrite ssum_cons; ring).
    rewrite (lincomb_add L), (lincomb_scale_r L). module L.
Qed.

(** The low part of a position polynomial. *)
Lemma poly_low (c : list scalar) m xi : length c = S m ->
  sdot (map (fun j => nth j c s0) (seq 0 m)) (powers xi m) = (peval c xi - spow xi m * last c s0)%sc.
Proof.
  intros Hl. destruct (@exists_last _ c) as (q & y & ->); [intros ->; discriminate|].
  rewrite app_length in Hl. cbn [length] in Hl. assert (Hq : length q = m) by lia. subst m.
  rewrite last_last, peval_app. cbn [peval].
  rewrite (map_ext_in _ (fun j => nth j q s0)).
  - rewrite map_nth_seq, sdot_powers by reflexivity. ring.
  - intros j Hj. apply in_seq in Hj. apply app_nth1. lia.
Qed.

Lemma Y_combination {E : env} (L : env_laws E) (J : pt E) xi : forall rho a,
  lincomb (map (spow xi) (seq a (length rho))) (map (fun rh => pmul E rh J) rho)
  = pmul E (sdot rho (map (spow xi) (seq a (length rho)))) J.
Proof.
  induction rho as [|r rho IH]; intros a.
  - cbn [length seq map]. rewrite lincomb_nil_l. unfold sdot. cbn [combine map]. rewrite ssum_nil. module L.
  - cbn [length seq map]. rewrite lincomb_cons, sdot_cons, IH. module L.
Qed.

(** Selecting the ring member. *)
Lemma select_ct_spec {E : env} (M : list (pt E)) l : (N.to_nat l < length M)%nat ->
  select_ct M l = nth (N.to_nat l) M (pid E).
Proof.
  unfold select_ct. intros Hl.
  assert (H : forall M a acc, fold_left (fun acc it => if (N.of_nat (fst it) =? l)%N then snd it else acc) (combine (seq a (length M)) M) acc
            = if ((a <=? N.to_nat l) && (N.to_nat l <? a + length M))%nat then nth (N.to_nat l - a) M (pid E) else acc).
  { clear. induction M as [|P M IH]; intros a acc.
    - cbn [length seq combine fold_left]. destruct (Nat.leb_spec a (N.to_nat l)); destruct (Nat.ltb_spec (N.to_nat l) (a + 0)); cbn [andb]; reflexivity || lia.
    - cbn [length seq combine fold_left fst snd]. rewrite IH.
      destruct (N.eqb_spec (N.of_nat a) l) as [He|He].
      + rewrite (proj2 (Nat.leb_gt (S a) (N.to_nat l))) by lia. cbn [andb].
        rewrite (proj2 (Nat.leb_le a (N.to_nat l))) by lia.
        rewrite (proj2 (Nat.ltb_lt (N.to_nat l) (a + S (length M)))) by lia. cbn [andb].
        replace (N.to_nat l - a)%nat with 0%nat by lia. reflexivity.
      + destruct (Nat.leb_spec (S a) (N.to_nat l)) as [Hle|Hgt]; cbn [andb].
        * rewrite (proj2 (Nat.leb_le a (N.to_nat l))) by lia. cbn [andb].
          replace (a + S (length M))%nat with (S a + length M)%nat by lia.
          destruct (N.to_nat l <? S a + length M)%nat; [|reflexivity].
          replace (N.to_nat l - a)%nat with (S (N.to_nat l - S a)) by lia. reflexivity.
        * rewrite (proj2 (Nat.leb_gt a (N.to_nat l))) by lia. reflexivity. }
  rewrite H. cbn [Nat.leb andb plus]. rewrite (proj2 (Nat.ltb_lt _ _) Hl), Nat.sub_0_r. reflexivity.
Qed.

Lemma select_key_spec {E : env} tm (M : list (pt E)) l : (N.to_nat l < length M)%nat ->
  select_key tm M l = Ok (nth (N.to_nat l) M (pid E)).
Proof.
  intros Hl. unfold select_key. destruct tm; [rewrite select_ct_spec by exact Hl; reflexivity|].
  apply index_nth. exact Hl.
Qed.
