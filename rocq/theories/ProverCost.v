(** The work done by the provers, part shared by both protocols: multiplications of scalars, multiplications of a point by a scalar, and
    multiscalar multiplications.  Additions, negations and comparisons, hashing, drawing of random values and the decomposition of the
    index are not counted. *)
From Verif Require Export VerifyCost CoreProver.

(** What a multiplication of scalars, a multiplication of a point by a scalar, and a multiscalar multiplication with [k] terms in
    constant or variable time cost. *)
Record prover_units := mk_prover_units { v_mul : nat; v_point : nat; v_msm : timing -> nat -> nat }.

(** [iter.map(f).collect()] *)
Fixpoint mapM_c {A B} (f : A -> counted B) (l : list A) : counted (list B) :=
  match l with
  | [] => cret []
  | x :: l' => cbind (f x) (fun y => cbind (mapM_c f l') (fun ys => cret (y :: ys)))
  end.

Section ProverCost.
Context {E : env} (v : prover_units).

(** transcript.rs lines 78-92 / parallel/transcript.rs lines 86-100 *)
Definition powers_units : units := mk_units (v_mul v) (fun _ => 0%nat) (fun _ => 0%nat).

(** parameters.rs lines 149-179 / parallel/parameters.rs lines 167-197, with [map_err] of the caller: the multiscalar multiplication
    comes after the checks. *)
Definition commit_c (n m : N) (CG : list (pt E)) (CH : pt E) (matrix : list (list scalar)) (mask : scalar) (tm : timing) (reason : string)
    : counted (pt E) :=
  let result := omap_err (fun _ => InvalidParameter reason) (commit_matrix_with n m CG CH matrix mask tm) in
  match result with
  | Ok _ => tick (v_msm v tm (length (concat matrix ++ [mask]))) (cfree result)
  | _ => cfree result
  end.

(** proof.rs lines 265-273 / parallel/proof.rs lines 276-284: two multiplications for each entry *)
Definition a_sigma_matrix_c (n m : N) (a sigma : list (list scalar)) : counted (list (list scalar)) :=
  mapM_c (fun j => mapM_c (fun i => cbind (cfree (index2 a j i)) (fun aji =>
                                    cbind (cfree (index2 sigma j i)) (fun sji =>
                                    tick (2 * v_mul v) (cret (aji * (s1 - s2 * sji))%sc)))) (range n)) (range m).

(** proof.rs lines 282-288 / parallel/proof.rs lines 293-299 *)
Definition a_square_matrix_c (n m : N) (a : list (list scalar)) : counted (list (list scalar)) :=
  mapM_c (fun j => mapM_c (fun i => cbind (cfree (index2 a j i)) (fun aji => tick (v_mul v) (cret ((- aji) * aji)%sc))) (range n)) (range m).

(** proof.rs lines 326-347 / parallel/proof.rs lines 342-363: a multiplication for each coefficient in each of the two portions *)
Definition convolve_c (a sigma : list (list scalar)) (k_decomposed : list N) (j : nat) (coefficients : list scalar) : counted (list scalar) :=
  cbind (cfree (index k_decomposed j)) (fun kj =>
  cbind (cfree (index2 a j (N.to_nat kj))) (fun a_jk =>
  let degree_0_portion := map (fun c => (a_jk * c)%sc) coefficients in
  tick (length coefficients * v_mul v)
  (cbind (cfree (rotate_right1 coefficients)) (fun shifted_coefficients =>
  cbind (cfree (index2 sigma j (N.to_nat kj))) (fun sigma_jk =>
  let degree_1_portion := map (fun c => (sigma_jk * c)%sc) shifted_coefficients in
  tick (length shifted_coefficients * v_mul v)
  (cret (map (fun xy => (fst xy + snd xy)%sc) (combine degree_0_portion degree_1_portion)))))))).
Fixpoint convolve_all_c (a sigma : list (list scalar)) (k_decomposed : list N) (js : list nat) (coefficients : list scalar)
    : counted (list scalar) :=
  match js with
  | [] => cret coefficients
  | j :: js' => cbind (convolve_c a sigma k_decomposed j coefficients) (fun c => convolve_all_c a sigma k_decomposed js' c)
  end.

(** proof.rs lines 312-347 / parallel/proof.rs lines 328-363 *)
Definition poly_coefficients_c (m : N) (a sigma : list (list scalar)) (k_decomposed : list N) : counted (list scalar) :=
  cbind (cfree (ok_or (checked_add usize_bound m 1) (InvalidParameter "polynomial degree overflowed"))) (fun count =>
  let coefficients := repeat s0 (N.to_nat count) in
  cbind (cfree (index k_decomposed 0)) (fun k0 =>
  cbind (cfree (index2 a 0 (N.to_nat k0))) (fun a0 =>
  cbind (cfree (vec_set coefficients 0 a0)) (fun coefficients =>
  cbind (cfree (index2 sigma 0 (N.to_nat k0))) (fun sigma0 =>
  cbind (cfree (vec_set coefficients 1 sigma0)) (fun coefficients =>
  convolve_all_c a sigma k_decomposed (seq 1 (N.to_nat m - 1)) coefficients)))))).

(** proof.rs lines 302-350 / parallel/proof.rs lines 318-366 *)
Fixpoint p_loop_c (fuel : nat) (m : N) (a sigma : list (list scalar)) (it : gray_iter) (k_decomposed : list N) : counted (list (list scalar)) :=
  match fuel with
  | O => cfree OutOfFuel
  | S fuel' =>
      match gray_next it with
      | (None, _) => cret []
      | (Some (gray_index, _, gray_new), it') =>
          cbind (cfree (vec_set k_decomposed gray_index gray_new)) (fun k_decomposed =>
          cbind (poly_coefficients_c m a sigma k_decomposed) (fun coefficients =>
          cbind (p_loop_c fuel' m a sigma it' k_decomposed) (fun rest => cret (coefficients :: rest))))
      end
  end.
Definition p_vector_c (n m : N) (a sigma : list (list scalar)) : counted (list (list scalar)) :=
  cbind (cfree (ok_or (gray_new n m) (InvalidParameter "coefficient decomposition failed"))) (fun it =>
  p_loop_c (S (N.to_nat (pow_u32 n m))) m a sigma it (repeat 0%N (N.to_nat m))).

(** proof.rs lines 352-365 / parallel/proof.rs lines 368-381: one multiscalar multiplication for each entry *)
Definition X_vector_c (tm : timing) (p : list (list scalar)) (M : list (pt E)) (G : pt E) (rho : list scalar) : counted (list (pt E)) :=
  mapM_c (fun jr => cbind (cfree (p_column p (fst jr))) (fun col =>
                    tick (v_msm v tm (length (col ++ [snd jr]))) (cfree (msm tm (col ++ [snd jr]) (M ++ [G])))))
         (combine (seq 0 (length rho)) rho).

(** proof.rs lines 373-380 / parallel/proof.rs lines 406-413 *)
Definition f_matrix_c (n m : N) (a sigma : list (list scalar)) (xi_powers : list scalar) : counted (list (list scalar)) :=
  mapM_c (fun j => mapM_c (fun i => cbind (cfree (index2 sigma j i)) (fun sji =>
                                    cbind (cfree (index xi_powers 1)) (fun xi =>
                                    cbind (cfree (index2 a j i)) (fun aji =>
                                    tick (v_mul v) (cret (sji * xi + aji)%sc))))) (seq 1 (N.to_nat n - 1))) (range m).

(** proof.rs lines 385-389 / parallel/proof.rs lines 418-427 *)
Definition z_response_c (m : N) (r : scalar) (rho xi_powers : list scalar) : counted scalar :=
  cbind (cfree (index xi_powers (N.to_nat m))) (fun xi_m =>
  tick ((1 + length (combine rho xi_powers)) * v_mul v)
  (cret (r * xi_m - ssum (map (fun rx => fst rx * snd rx) (combine rho xi_powers)))%sc)).

(** * The same results *)
Lemma mapM_c_result {A B} (f : A -> counted B) g l : (forall x, fst (f x) = g x) -> fst (mapM_c f l) = mapM g l.
Proof.
  intros H. induction l as [|x l IH]; [reflexivity|]. cbn [mapM_c mapM]. rewrite fst_cbind, H. destruct (g x) as [y| | |]; cbn [obind]; try reflexivity.
  rewrite fst_cbind, IH. destruct (mapM g l); reflexivity.
Qed.
Lemma commit_c_result n m CG CH matrix mask tm reason :
  fst (commit_c n m CG CH matrix mask tm reason) = omap_err (fun _ => InvalidParameter reason) (commit_matrix_with n m CG CH matrix mask tm).
Proof. unfold commit_c. destruct (omap_err _ _); reflexivity. Qed.
Ltac same x := rewrite fst_cbind; cbn [cfree fst]; destruct x as [?| | |]; cbn [obind]; try reflexivity.
Lemma a_sigma_matrix_c_result n m a sigma : fst (a_sigma_matrix_c n m a sigma) = a_sigma_matrix n m a sigma.
Proof.
  apply mapM_c_result. intros j. apply mapM_c_result. intros i. same (index2 a j i). same (index2 sigma j i).
Qed.
Lemma a_square_matrix_c_result n m a : fst (a_square_matrix_c n m a) = a_square_matrix n m a.
Proof. apply mapM_c_result. intros j. apply mapM_c_result. intros i. same (index2 a j i). Qed.
Lemma convolve_c_result a sigma kd j c : fst (convolve_c a sigma kd j c) = convolve a sigma kd j c.
Proof.
  unfold convolve_c, convolve. rewrite fst_cbind. cbn [cfree fst]. destruct (index kd j) as [kj| | |]; cbn [obind]; try reflexivity.
  same (index2 a j (N.to_nat kj)). rewrite fst_tick. same (rotate_right1 c). same (index2 sigma j (N.to_nat kj)).
Qed.
Lemma convolve_all_c_result a sigma kd js : forall c, fst (convolve_all_c a sigma kd js c) = convolve_all a sigma kd js c.
Proof.
  induction js as [|j js IH]; intros c; [reflexivity|]. cbn [convolve_all_c convolve_all]. rewrite fst_cbind, convolve_c_result.
  destruct (convolve a sigma kd j c); cbn [obind]; try reflexivity. apply IH.
Qed.
Lemma poly_coefficients_c_result m a sigma kd : fst (poly_coefficients_c m a sigma kd) = poly_coefficients m a sigma kd.
Proof.
  unfold poly_coefficients_c, poly_coefficients. rewrite fst_cbind. cbn [cfree fst]. destruct (ok_or _ _) as [count| | |]; cbn [obind]; try reflexivity.
  rewrite fst_cbind. cbn [cfree fst]. destruct (index kd 0) as [k0| | |]; cbn [obind]; try reflexivity.
  rewrite fst_cbind. cbn [cfree fst]. destruct (index2 a 0 (N.to_nat k0)) as [a0| | |]; cbn [obind]; try reflexivity.
  rewrite fst_cbind. cbn [cfree fst]. destruct (vec_set (repeat s0 (N.to_nat count)) 0 a0) as [c0| | |]; cbn [obind]; try reflexivity.
  rewrite fst_cbind. cbn [cfree fst]. destruct (index2 sigma 0 (N.to_nat k0)) as [sg0| | |]; cbn [obind]; try reflexivity.
  rewrite fst_cbind. cbn [cfree fst]. destruct (vec_set c0 1 sg0) as [c1| | |]; cbn [obind]; try reflexivity. apply convolve_all_c_result.
Qed.
Lemma p_loop_c_result fuel : forall m a sigma it kd, fst (p_loop_c fuel m a sigma it kd) = p_loop fuel m a sigma it kd.
Proof.
  induction fuel as [|fuel IH]; intros m a sigma it kd; [reflexivity|]. cbn [p_loop_c p_loop].
  destruct (gray_next it) as [[[[gi go] gn]|] it']; [|reflexivity].
  rewrite fst_cbind. cbn [cfree fst]. destruct (vec_set kd gi gn) as [kd'| | |]; cbn [obind]; try reflexivity.
  rewrite fst_cbind, poly_coefficients_c_result. destruct (poly_coefficients m a sigma kd') as [c| | |]; cbn [obind]; try reflexivity.
  rewrite fst_cbind, IH. destruct (p_loop fuel m a sigma it' kd'); reflexivity.
Qed.
Lemma p_vector_c_result n m a sigma : fst (p_vector_c n m a sigma) = p_vector n m a sigma.
Proof.
  unfold p_vector_c, p_vector. rewrite fst_cbind. cbn [cfree fst]. destruct (ok_or _ _) as [it| | |]; cbn [obind]; try reflexivity. apply p_loop_c_result.
Qed.
Lemma X_vector_c_result tm p M G rho : fst (X_vector_c tm p M G rho) = X_vector tm p M G rho.
Proof. apply mapM_c_result. intros jr. same (p_column p (fst jr)). Qed.
Lemma f_matrix_c_result n m a sigma xs : fst (f_matrix_c n m a sigma xs) = f_matrix n m a sigma xs.
Proof.
  apply mapM_c_result. intros j. apply mapM_c_result. intros i. same (index2 sigma j i). same (@index proof_error _ xs 1). same (index2 a j i).
Qed.
Lemma z_response_c_result m r rho xs : fst (z_response_c m r rho xs) = z_response m r rho xs.
Proof. unfold z_response_c, z_response. same (@index proof_error _ xs (N.to_nat m)). Qed.

(** * Costs *)
Lemma cbind_ok_inv {A B} (x : counted A) (f : A -> counted B) b : fst (cbind x f) = Ok b ->
  exists a, fst x = Ok a /\ fst (f a) = Ok b /\ snd (cbind x f) = (snd x + snd (f a))%nat.
Proof.
  unfold cbind. destruct (fst x) as [a| | |]; cbn [fst snd]; intros H; try discriminate. exists a. auto.
Qed.
Lemma mapM_c_cost {A B} (f : A -> counted B) c l : (forall x y, In x l -> fst (f x) = Ok y -> snd (f x) = c) ->
  forall ys, fst (mapM_c f l) = Ok ys -> snd (mapM_c f l) = (length l * c)%nat.
Proof.
  induction l as [|x l IH]; intros Hf ys H; [reflexivity|]. cbn [mapM_c] in *. destruct (cbind_ok_inv _ _ _ H) as (y & H1 & H2 & ->).
  destruct (cbind_ok_inv _ _ _ H2) as (ys' & H3 & _ & ->). rewrite (Hf x y (or_introl eq_refl) H1), (IH (fun x y Hx => Hf x y (or_intror Hx)) _ H3).
  cbn [cret snd length]. lia.
Qed.
Lemma range_length k : length (range k) = N.to_nat k.
Proof. apply seq_length. Qed.
Ltac peel h := let k := fresh "K" in destruct (cbind_ok_inv _ _ _ h) as (? & _ & k & ->); cbn [cfree snd] in *; clear h; rename k into h.
Lemma a_sigma_matrix_cost n m a sigma r : fst (a_sigma_matrix_c n m a sigma) = Ok r ->
  snd (a_sigma_matrix_c n m a sigma) = (N.to_nat m * (N.to_nat n * (2 * v_mul v)))%nat.
Proof.
  rewrite <- (range_length m), <- (range_length n). apply mapM_c_cost. intros j row _. apply mapM_c_cost. intros i x _ H.
  peel H. peel H. cbn [tick cret snd]. lia.
Qed.
Lemma a_square_matrix_cost n m a r : fst (a_square_matrix_c n m a) = Ok r ->
  snd (a_square_matrix_c n m a) = (N.to_nat m * (N.to_nat n * v_mul v))%nat.
Proof.
  rewrite <- (range_length m), <- (range_length n). apply mapM_c_cost. intros j row _. apply mapM_c_cost. intros i x _ H.
  peel H. cbn [tick cret snd]. lia.
Qed.
Lemma f_matrix_cost n m a sigma xs r : fst (f_matrix_c n m a sigma xs) = Ok r ->
  snd (f_matrix_c n m a sigma xs) = (N.to_nat m * ((N.to_nat n - 1) * v_mul v))%nat.
Proof.
  rewrite <- (range_length m). rewrite <- (seq_length (N.to_nat n - 1) 1). apply mapM_c_cost. intros j row _. apply mapM_c_cost. intros i x _ H.
  peel H. peel H. peel H. cbn [tick cret snd]. lia.
Qed.
Lemma z_response_cost m r rho xs z : fst (z_response_c m r rho xs) = Ok z ->
  snd (z_response_c m r rho xs) = ((1 + Nat.min (length rho) (length xs)) * v_mul v)%nat.
Proof. unfold z_response_c. intros H. peel H. cbn [tick cret snd]. rewrite combine_length. lia. Qed.
Lemma rotate_length c c' : rotate_right1 c = Ok c' -> length c' = length c.
Proof.
  unfold rotate_right1. rewrite <- (rev_length c). destruct (rev c) as [|x r]; [discriminate|]. intros H. injection H as <-. cbn [length].
  rewrite rev_length. reflexivity.
Qed.
Lemma snd_tick {A} k (x : counted A) : snd (tick k x) = (k + snd x)%nat.
Proof. reflexivity. Qed.
Lemma convolve_cost a sigma kd j c r : fst (convolve_c a sigma kd j c) = Ok r ->
  snd (convolve_c a sigma kd j c) = (2 * length c * v_mul v)%nat /\ length r = length c.
Proof.
  unfold convolve_c. intros H. destruct (cbind_ok_inv _ _ _ H) as (kj & _ & H1 & ->). destruct (cbind_ok_inv _ _ _ H1) as (ajk & _ & H2 & ->).
  rewrite fst_tick in H2. destruct (cbind_ok_inv _ _ _ H2) as (sc & Hs & H3 & Hc). cbn [cfree fst] in Hs. pose proof (rotate_length _ _ Hs) as Hl.
  destruct (cbind_ok_inv _ _ _ H3) as (sjk & _ & H4 & Hc'). rewrite snd_tick, Hc, Hc', snd_tick. rewrite fst_tick in H4. injection H4 as <-.
  cbn [tick cret cfree snd]. rewrite map_length, combine_length, !map_length, Hl. split; lia.
Qed.
Lemma convolve_all_cost a sigma kd js : forall c r, fst (convolve_all_c a sigma kd js c) = Ok r ->
  snd (convolve_all_c a sigma kd js c) = (length js * (2 * length c * v_mul v))%nat.
Proof.
  induction js as [|j js IH]; intros c r H; [reflexivity|]. cbn [convolve_all_c] in *. destruct (cbind_ok_inv _ _ _ H) as (c' & H1 & H2 & ->).
  destruct (convolve_cost _ _ _ _ _ _ H1) as [-> Hl]. rewrite (IH _ _ H2), Hl. cbn [length]. lia.
Qed.
Lemma vec_set_length {Er A} (l : list A) i x l' : vec_set (E := Er) l i x = Ok l' -> length l' = length l.
Proof.
  unfold vec_set. intros H. assert (Hs : set_nth l i x = Some l') by (destruct (set_nth l i x); [congruence|discriminate]). clear H.
  revert i l' Hs. induction l as [|y l IH]; intros i l' Hs; [destruct i; discriminate|]. destruct i as [|i]; cbn [set_nth] in Hs.
  - injection Hs as <-. reflexivity.
  - destruct (set_nth l i x) as [r|] eqn:Hr; [|discriminate]. injection Hs as <-. cbn [length]. f_equal. exact (IH _ _ Hr).
Qed.
Lemma poly_coefficients_cost m a sigma kd r : fst (poly_coefficients_c m a sigma kd) = Ok r ->
  snd (poly_coefficients_c m a sigma kd) = ((N.to_nat m - 1) * (2 * (N.to_nat m + 1) * v_mul v))%nat.
Proof.
  unfold poly_coefficients_c. intros H. destruct (cbind_ok_inv _ _ _ H) as (count & Hc & H1 & ->). peel H1. peel H1.
  destruct (cbind_ok_inv _ _ _ H1) as (c0 & Hs0 & H2 & ->). peel H2. destruct (cbind_ok_inv _ _ _ H2) as (c1 & Hs1 & H3 & ->).
  cbn [cfree fst snd] in *. rewrite (convolve_all_cost _ _ _ _ _ _ H3), seq_length, (vec_set_length _ _ _ _ Hs1), (vec_set_length _ _ _ _ Hs0), repeat_length.
  unfold checked_add, checked in Hc. destruct (_ <? _)%N; [|discriminate]. injection Hc as <-. replace (N.to_nat (m + 1)) with (N.to_nat m + 1)%nat by lia. lia.
Qed.
Lemma p_loop_cost fuel : forall m a sigma it kd r, fst (p_loop_c fuel m a sigma it kd) = Ok r ->
  snd (p_loop_c fuel m a sigma it kd) = (length r * ((N.to_nat m - 1) * (2 * (N.to_nat m + 1) * v_mul v)))%nat.
Proof.
  induction fuel as [|fuel IH]; intros m a sigma it kd r H; [discriminate|]. cbn [p_loop_c] in *.
  destruct (gray_next it) as [[[[gi go] gn]|] it']; [|injection H as <-; reflexivity].
  destruct (cbind_ok_inv _ _ _ H) as (kd' & _ & H1 & ->). destruct (cbind_ok_inv _ _ _ H1) as (c & Hc & H2 & ->).
  destruct (cbind_ok_inv _ _ _ H2) as (rest & Hr & H3 & ->). injection H3 as <-.
  rewrite (poly_coefficients_cost _ _ _ _ _ Hc), (IH _ _ _ _ _ _ Hr). cbn [cfree cret snd length]. lia.
Qed.
Lemma p_vector_cost n m a sigma r : fst (p_vector_c n m a sigma) = Ok r ->
  snd (p_vector_c n m a sigma) = (length r * ((N.to_nat m - 1) * (2 * (N.to_nat m + 1) * v_mul v)))%nat.
Proof. unfold p_vector_c. intros H. destruct (cbind_ok_inv _ _ _ H) as (it & _ & H1 & ->). rewrite (p_loop_cost _ _ _ _ _ _ _ H1). reflexivity. Qed.
Lemma X_vector_cost tm p M G rho r : fst (X_vector_c tm p M G rho) = Ok r ->
  snd (X_vector_c tm p M G rho) = (length rho * v_msm v tm (length p + 1))%nat.
Proof.
  assert (Hl : length (combine (seq 0 (length rho)) rho) = length rho) by (rewrite combine_length, seq_length; apply Nat.min_id).
  rewrite <- Hl at 1. apply mapM_c_cost. intros jr y _ H. destruct (cbind_ok_inv _ _ _ H) as (col & Hc & _ & ->). cbn [cfree fst] in Hc.
  apply mapM_length in Hc. cbn [tick cfree snd]. rewrite app_length, Hc. cbn [length]. lia.
Qed.
Lemma commit_cost n m CG CH matrix mask tm reason r : fst (commit_c n m CG CH matrix mask tm reason) = Ok r ->
  snd (commit_c n m CG CH matrix mask tm reason) = v_msm v tm (length (concat matrix) + 1).
Proof.
  unfold commit_c. destruct (omap_err _ _); try discriminate. intros _. cbn [tick cfree snd]. rewrite app_length. cbn [length]. lia.
Qed.

End ProverCost.
