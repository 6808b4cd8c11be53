(** Facts about the shared loops of [Core.v]. *)
From Verif Require Export Core RingSum.

(** * Matrices *)

Lemma nth_map_seq {A} (h : nat -> A) k j d : (j < k)%nat -> nth j (map h (seq 0 k)) d = h j.
Proof.
  intros H. rewrite (nth_indep _ d (h 0%nat)) by (rewrite map_length, seq_length; exact H).
  rewrite map_nth, seq_nth by exact H. reflexivity.
Qed.

Lemma nth_map {A B} (g : A -> B) l j d d' : (j < length l)%nat -> nth j (map g l) d = g (nth j l d').
Proof.
  intros H. rewrite (nth_indep _ d (g d')) by (rewrite map_length; exact H). apply map_nth.
Qed.

Lemma mkmat_shape m n h : shape m n (mkmat m n h).
Proof.
  unfold mkmat. split; [rewrite map_length, seq_length; reflexivity|].
  apply Forall_forall. intros row Hr. apply in_map_iff in Hr. destruct Hr as (j & <- & _).
  rewrite map_length, seq_length. reflexivity.
Qed.

Lemma mat_mkmat m n h j i : (j < m)%nat -> (i < n)%nat -> mat (mkmat m n h) j i = h j i.
Proof.
  intros Hj Hi. unfold mat, mkmat. rewrite (nth_map_seq (fun j => map (h j) (seq 0 n))) by exact Hj.
  apply nth_map_seq. exact Hi.
Qed.

Lemma map_nth_seq {A} (l : list A) d : map (fun i => nth i l d) (seq 0 (length l)) = l.
Proof.
  induction l as [|x l IH]; [reflexivity|]. cbn [length seq map nth]. f_equal.
  rewrite <- seq_shift, map_map. exact IH.
Qed.

Lemma mkmat_mat m n f : shape m n f -> mkmat m n (mat f) = f.
Proof.
  intros [Hm Hn]. unfold mkmat, mat. subst m.
  rewrite <- (map_nth_seq f []) at 2. apply map_ext_in. intros j Hj. apply in_seq in Hj.
  rewrite Forall_forall in Hn. rewrite <- (Hn (nth j f [])) by (apply nth_In; lia). apply map_nth_seq.
Qed.

Lemma mkmat_ext m n h g : (forall j i, (j < m)%nat -> (i < n)%nat -> h j i = g j i) -> mkmat m n h = mkmat m n g.
Proof.
  intros H. unfold mkmat. apply map_ext_in. intros j Hj. apply in_seq in Hj.
  apply map_ext_in. intros i Hi. apply in_seq in Hi. apply H; lia.
Qed.

Lemma shape_row {A} m n (f : list (list A)) j d : shape m n f -> (j < m)%nat -> length (nth j f d) = n.
Proof.
  intros [Hm Hn] Hj. rewrite Forall_forall in Hn. apply Hn. apply nth_In. lia.
Qed.

Lemma index2_mat m n f j i : shape m n f -> (j < m)%nat -> (i < n)%nat -> index2 f j i = Ok (mat f j i).
Proof.
  intros Hs Hj Hi. unfold index2, mat. rewrite (index_nth f j []) by (destruct Hs; lia). cbn [obind].
  apply index_nth. rewrite (shape_row m n f j [] Hs Hj). exact Hi.
Qed.

Lemma concat_shape_length {A} m n (f : list (list A)) : shape m n f -> length (concat f) = (m * n)%nat.
Proof.
  intros [Hm Hn]. subst m. induction Hn as [|row f Hr Hf IH]; [reflexivity|].
  cbn [concat length]. rewrite app_length, Hr, IH. lia.
Qed.

Lemma mkmat_S m n h : mkmat (S m) n h = map (h 0%nat) (seq 0 n) :: mkmat m n (fun j => h (S j)).
Proof. unfold mkmat. cbn [seq map]. rewrite <- seq_shift, map_map. reflexivity. Qed.

Lemma concat_mkmat_map m n h (g : scalar -> scalar) :
  map g (concat (mkmat m n h)) = concat (mkmat m n (fun j i => g (h j i))).
Proof.
  revert h; induction m as [|m IH]; intros h; [reflexivity|]. rewrite !mkmat_S. cbn [concat].
  rewrite map_app, IH, map_map. reflexivity.
Qed.

(** * Challenge powers *)

Lemma powers_loop_spec xi : xi <> s0 -> forall k c, c <> s0 ->
  powers_loop k xi c = Ok (map (fun y => c * y)%sc (powers xi k)).
Proof.
  intros Hxi. induction k as [|k IH]; intros c Hc; [reflexivity|].
  cbn [powers_loop]. rewrite (proj2 (seqb_neq c s0) Hc). rewrite IH.
  - cbn [obind]. rewrite powers_S. cbn [map]. f_equal. f_equal; [ring|].
    rewrite map_map. apply map_ext. intros y. ring.
  - intros H. apply smul_eq_0 in H. tauto.
Qed.

Lemma map_id_mul (l : list scalar) : map (fun y => s1 * y)%sc l = l.
Proof. induction l as [|x l IH]; [reflexivity|]. cbn [map]. rewrite IH. f_equal. ring. Qed.

Lemma challenge_powers_ok m xi : (m < u32_bound)%N -> xi <> s0 ->
  challenge_powers m xi = Ok (powers xi (S (N.to_nat m))).
Proof.
  intros Hm Hxi. unfold challenge_powers, checked_add, checked.
  assert (u32_bound + 1 < usize_bound)%N by reflexivity.
  rewrite (proj2 (N.ltb_lt (m + 1) usize_bound)) by lia. cbn [ok_or obind].
  rewrite powers_loop_spec by (assumption || apply s1_neq_s0). rewrite map_id_mul.
  replace (N.to_nat (m + 1)) with (S (N.to_nat m)) by lia. reflexivity.
Qed.

Lemma challenge_powers_zero m : (1 <= m)%N -> (m < u32_bound)%N -> challenge_powers m s0 = Err InvalidChallenge.
Proof.
  intros Hm1 Hm. unfold challenge_powers, checked_add, checked.
  assert (u32_bound + 1 < usize_bound)%N by reflexivity.
  rewrite (proj2 (N.ltb_lt (m + 1) usize_bound)) by lia. cbn [ok_or obind].
  replace (N.to_nat (m + 1)) with (S (S (N.to_nat (m - 1)))) by lia. cbn [powers_loop].
  rewrite (proj2 (seqb_neq s1 s0) s1_neq_s0).
  rewrite (proj2 (seqb_eq (s1 * s0)%sc s0)) by ring. reflexivity.
Qed.

(** * The completed response matrix *)

Lemma f_full_spec m xi f : (1 <= m)%N -> N.of_nat (length f) = m ->
  f_full m (powers xi (S (N.to_nat m))) f = Ok (complete xi f).
Proof.
  intros Hm1 Hm. unfold complete, f_full, range. replace (N.to_nat m) with (length f) by lia.
  rewrite (mapM_pure _ (fun j => (xi - ssum (nth j f []))%sc :: nth j f [])).
  - f_equal. transitivity (map (fun row => (xi - ssum row)%sc :: row) (map (fun j => nth j f []) (seq 0 (length f)))).
    + rewrite map_map. reflexivity.
    + rewrite map_nth_seq. reflexivity.
  - intros j Hj. apply in_seq in Hj.
    assert (H1 : @index proof_error _ (powers xi (S (length f))) 1 = Ok xi).
    { apply index_Ok. rewrite powers_nth by lia. f_equal. cbn [spow]. ring. }
    rewrite H1. cbn [obind]. rewrite (index_nth f j []) by lia. reflexivity.
Qed.

Lemma full_shape m n f xi : (1 <= n)%nat -> shape m (n - 1) f -> shape m n (complete xi f).
Proof.
  intros Hn [Hm Hf]. unfold complete. split; [rewrite map_length; exact Hm|].
  apply Forall_forall. intros row Hr. apply in_map_iff in Hr. destruct Hr as (r & <- & Hin).
  rewrite Forall_forall in Hf. cbn [length]. rewrite (Hf _ Hin). lia.
Qed.

Lemma full_row_sum f xi j : (j < length f)%nat ->
  ssum (nth j (complete xi f) []) = xi.
Proof.
  intros Hj. unfold complete. rewrite (nth_map _ f j [] []) by exact Hj. rewrite ssum_cons. ring.
Qed.

(** * Zipped addition *)

Lemma zip_add_length : forall a b, length (zip_add a b) = length a.
Proof. induction a as [|x a IH]; intros b; destruct b as [|y b]; cbn [zip_add length]; [reflexivity..|]. rewrite IH. reflexivity. Qed.

Lemma lincomb_zip_add {E : env} (L : env_laws E) : forall a b (ps : list (pt E)), (length b <= length a)%nat ->
  lincomb (zip_add a b) ps = padd E (lincomb a ps) (lincomb b ps).
Proof.
  induction a as [|x a IH]; intros b ps Hl; destruct b as [|y b]; cbn [zip_add].
  - rewrite lincomb_nil_l. module L.
  - simpl in Hl. lia.
  - rewrite lincomb_nil_l. module L.
  - destruct ps as [|p ps]; [rewrite !lincomb_nil_r; module L|].
    rewrite !lincomb_cons, IH by (simpl in Hl; lia). module L.
Qed.

(** * Chunks *)

Lemma chunks_loop_concat {A} n (f : list (list A)) : (0 < n)%nat -> Forall (fun row => length row = n) f ->
  chunks_loop (length f) n (concat f) = f.
Proof.
  intros Hn. induction 1 as [|row f Hr Hf IH]; [reflexivity|].
  cbn [length chunks_loop concat]. rewrite app_length.
  destruct (Nat.leb_spec n (length row + length (concat f))) as [_|H]; [|lia].
  rewrite firstn_app, skipn_app, Hr, Nat.sub_diag, firstn_O, skipn_O, app_nil_r.
  rewrite firstn_all2, skipn_all2 by lia. cbn [app]. rewrite IH. reflexivity.
Qed.

Lemma chunks_exact_concat {A} m n (f : list (list A)) : (0 < n)%nat -> shape m n f ->
  chunks_exact n (concat f) = Ok f.
Proof.
  intros Hn Hs. unfold chunks_exact. destruct n as [|n]; [lia|].
  rewrite (concat_shape_length m (S n) f Hs). rewrite Nat.div_mul by lia.
  destruct Hs as [Hm Hf]. subst m. rewrite chunks_loop_concat by (lia || assumption). reflexivity.
Qed.

(** * The products along the Gray code *)

Lemma contains_zero_false m n f : shape m n f -> contains_zero f = false ->
  forall j i, (j < m)%nat -> (i < n)%nat -> mat f j i <> s0.
Proof.
  intros Hs Hz j i Hj Hi H. unfold contains_zero in Hz.
  assert (Ht : existsb (existsb (fun x => seqb x s0)) f = true); [|congruence].
  apply existsb_exists. exists (nth j f []). split; [apply nth_In; destruct Hs; lia|].
  apply existsb_exists. exists (mat f j i). split; [|apply seqb_eq; exact H].
  unfold mat. apply nth_In. rewrite (shape_row m n f j [] Hs Hj). exact Hi.
Qed.

Lemma contains_zero_spec f : contains_zero f = true <-> exists row, In row f /\ In s0 row.
Proof.
  unfold contains_zero. rewrite existsb_exists. split.
  - intros (row & Hin & Hr). exists row. split; [exact Hin|].
    apply existsb_exists in Hr. destruct Hr as (x & Hx & Hz). apply seqb_eq in Hz. subst. exact Hx.
  - intros (row & Hin & Hr). exists row. split; [exact Hin|]. apply existsb_exists.
    exists s0. split; [exact Hr|apply seqb_refl].
Qed.

Lemma code_product_step n m F i idx : (2 <= n)%N -> (0 < i)%N ->
  (idx < m)%nat -> F idx (N.to_nat (gray_digit n (i - 1) idx)) <> s0 ->
  (forall j, j <> idx -> gray_digit n i j = gray_digit n (i - 1) j) ->
  code_product n m F (N.to_nat i) =
  (code_product n m F (N.to_nat (i - 1)) *
   (sinv (F idx (N.to_nat (gray_digit n (i - 1) idx))) * F idx (N.to_nat (gray_digit n i idx))))%sc.
Proof.
  intros Hn Hi Hidx Hnz Hother. unfold code_product. rewrite !N2Nat.id.
  assert (Hin : In idx (seq 0 m)) by (apply in_seq; lia).
  pose proof (seq_NoDup m 0) as Hnd.
  apply in_split in Hin. destruct Hin as (l1 & l2 & Hs). rewrite Hs in *.
  apply NoDup_remove_2 in Hnd. rewrite !map_app, !sprod_app. cbn [map]. rewrite !sprod_cons.
  rewrite (sprod_ext (fun j => F j (N.to_nat (gray_digit n i j))) (fun j => F j (N.to_nat (gray_digit n (i - 1) j))) l1).
  2:{ intros j Hj. rewrite Hother; [reflexivity|]. intros ->. apply Hnd. apply in_or_app. left; exact Hj. }
  rewrite (sprod_ext (fun j => F j (N.to_nat (gray_digit n i j))) (fun j => F j (N.to_nat (gray_digit n (i - 1) j))) l2).
  2:{ intros j Hj. rewrite Hother; [reflexivity|]. intros ->. apply Hnd. apply in_or_app. right; exact Hj. }
  field. exact Hnz.
Qed.

Lemma f_products_loop n m F : (2 <= n)%N -> m <> 0%N -> (n ^ m < u32_bound)%N ->
  shape (N.to_nat m) (N.to_nat n) F ->
  (forall j i, (j < N.to_nat m)%nat -> (i < N.to_nat n)%nat -> mat F j i <> s0) ->
  forall count i, (0 < i)%N -> (i + N.of_nat count = n ^ m)%N ->
  f_products count F (map (map sinv) F) (gray_at n m i) (code_product n (N.to_nat m) (mat F) (N.to_nat (i - 1))) =
  Ok (map (code_product n (N.to_nat m) (mat F)) (seq (N.to_nat i) count)).
Proof.
  intros Hn Hm Hb Hs Hnz. induction count as [|count IH]; intros i Hi Hc; [reflexivity|].
  cbn [f_products]. destruct (gray_next_step n m i Hn Hm Hb Hi ltac:(lia)) as (idx & Hidx & Hnext & _ & Hother).
  rewrite Hnext.
  assert (Hn0 : n <> 0%N) by lia.
  assert (Hd1 : (N.to_nat (gray_digit n (i - 1) idx) < N.to_nat n)%nat) by (pose proof (gray_digit_lt n (i - 1) idx Hn0); lia).
  assert (Hd2 : (N.to_nat (gray_digit n i idx) < N.to_nat n)%nat) by (pose proof (gray_digit_lt n i idx Hn0); lia).
  assert (Hinv : index2 (map (map sinv) F) idx (N.to_nat (gray_digit n (i - 1) idx))
                 = Ok (sinv (mat F idx (N.to_nat (gray_digit n (i - 1) idx))))).
  { rewrite (index2_mat (N.to_nat m) (N.to_nat n)); [|..|assumption|assumption].
    - f_equal. unfold mat.
      rewrite (nth_map (map sinv) F idx [] []) by (destruct Hs; lia).
      rewrite (nth_map sinv _ _ s0 s0) by (rewrite (shape_row _ _ F idx [] Hs Hidx); exact Hd1). reflexivity.
    - destruct Hs as [Hs1 Hs2]. split; [rewrite map_length; exact Hs1|].
      apply Forall_forall. intros row Hr. apply in_map_iff in Hr. destruct Hr as (r & <- & Hr).
      rewrite map_length. rewrite Forall_forall in Hs2. apply Hs2. exact Hr. }
  rewrite Hinv. cbn [obind].
  rewrite (index2_mat (N.to_nat m) (N.to_nat n) F) by assumption. cbn [obind].
  rewrite <- (code_product_step n (N.to_nat m) (mat F) i idx) by (auto; lia).
  replace (N.to_nat i) with (N.to_nat (i + 1 - 1)) by lia. rewrite IH by lia. cbn [obind seq map].
  replace (N.to_nat (i + 1)) with (S (N.to_nat (i + 1 - 1))) by lia. reflexivity.
Qed.

Lemma all_f_products_spec n m F : (2 <= n)%N -> m <> 0%N -> (n ^ m < u32_bound)%N ->
  shape (N.to_nat m) (N.to_nat n) F -> contains_zero F = false ->
  all_f_products n m (N.to_nat (n ^ m)) F =
  Ok (map (code_product n (N.to_nat m) (mat F)) (seq 0 (N.to_nat (n ^ m)))).
Proof.
  intros Hn Hm Hb Hs Hz. pose proof (contains_zero_false _ _ _ Hs Hz) as Hnz.
  assert (Hn0 : n <> 0%N) by lia.
  unfold all_f_products.
  rewrite (mapM_pure _ (fun row => nth 0 row s0)).
  2:{ intros row Hr. apply index_nth. destruct Hs as [_ Hs2]. rewrite Forall_forall in Hs2. rewrite (Hs2 _ Hr). lia. }
  cbn [obind]. rewrite gray_new_spec by assumption. cbn [ok_or obind].
  unfold batch_invert. rewrite concat_map.
  rewrite (chunks_exact_concat (N.to_nat m) (N.to_nat n)).
  2: lia.
  2:{ destruct Hs as [Hs1 Hs2]. split; [rewrite map_length; exact Hs1|].
      apply Forall_forall. intros row Hr. apply in_map_iff in Hr. destruct Hr as (r & <- & Hr).
      rewrite map_length. rewrite Forall_forall in Hs2. apply Hs2. exact Hr. }
  cbn [obind].
  assert (Hpos : (0 < n ^ m)%N) by (pose proof (npow_pos n m Hn0); lia).
  replace (N.to_nat (n ^ m)) with (S (N.to_nat (n ^ m - 1))) by lia.
  cbn [f_products]. rewrite gray_next_first by exact Hn0.
  assert (H0 : (0 < N.to_nat m)%nat) by lia. assert (H1 : (0 < N.to_nat n)%nat) by lia.
  change (N.to_nat 0) with 0%nat.
  rewrite (index2_mat (N.to_nat m) (N.to_nat n) F 0 0 Hs H0 H1).
  assert (Hinv : index2 (map (map sinv) F) 0 0 = Ok (sinv (mat F 0 0))).
  { unfold index2, mat. destruct F as [|row F]; [destruct Hs as [Hs1 _]; simpl in Hs1; lia|].
    destruct row as [|x row]; [destruct Hs as [_ Hs2]; inversion Hs2; simpl in *; lia|]. reflexivity. }
  rewrite Hinv. cbn [obind].
  assert (Hstart : (sprod (map (fun row => nth 0 row s0) F) * (sinv (mat F 0 0) * mat F 0 0))%sc
                   = code_product n (N.to_nat m) (mat F) (N.to_nat (1 - 1))).
  { rewrite sinv_l by (apply Hnz; assumption).
    change (N.to_nat (1 - 1)) with 0%nat. unfold code_product. destruct Hs as [Hs1 Hs2]. rewrite <- Hs1.
    replace (sprod (map (fun row => nth 0 row s0) F) * s1)%sc with (sprod (map (fun row => nth 0 row s0) F)) by ring.
    rewrite <- (map_nth_seq F []) at 1. rewrite map_map. apply sprod_ext. intros j Hj. apply in_seq in Hj.
    unfold mat. f_equal. change (N.of_nat 0) with 0%N.
    assert (Hg : gray_digit n 0 j = 0%N).
    { pose proof (gray_code_nth n (length F) 0 j ltac:(lia)) as Hg. rewrite gray_zero in Hg by exact Hn0.
      assert (nth_error (repeat 0%N (length F)) j = Some 0%N).
      { rewrite (nth_error_nth' _ 0%N) by (rewrite repeat_length; lia). f_equal.
        clear. revert j. induction (length F) as [|k IH]; intros j; destruct j; cbn [repeat nth]; auto. }
      congruence. }
    rewrite Hg. reflexivity. }
  rewrite Hstart.
  rewrite (f_products_loop n m F) by (auto; lia). cbn [obind].
  change (N.to_nat 1) with 1%nat. cbn [seq map]. reflexivity.
Qed.

(** The products of all ring positions add up to the power of the common row sum. *)
Lemma products_sum n m F xi : (2 <= n)%N -> shape m (N.to_nat n) F ->
  (forall j, (j < m)%nat -> ssum (nth j F []) = xi) ->
  ssum (map (code_product n m (mat F)) (seq 0 (N.to_nat n ^ m))) = spow xi m.
Proof.
  intros Hn Hs Hsum. rewrite gray_sum_prod by exact Hn.
  rewrite (sprod_ext _ (fun _ => xi)).
  - clear. generalize 0%nat. induction m as [|m IH]; intros a; [reflexivity|].
    cbn [seq map spow]. rewrite sprod_cons, IH. reflexivity.
  - intros j Hj. apply in_seq in Hj. rewrite <- (Hsum j) by lia.
    unfold mat. rewrite <- (shape_row m (N.to_nat n) F j [] Hs ltac:(lia)). rewrite map_nth_seq. reflexivity.
Qed.
