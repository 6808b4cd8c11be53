(** The work done by the verifiers, part shared by both protocols: multiplications of scalars, batch inversions and multiscalar
    multiplications.  Additions and comparisons of scalars, hashing and the drawing of weights are not counted. *)
From Verif Require Export DecodeCost CoreFacts.

(** What a multiplication of scalars, a batch inversion of [k] scalars and a multiscalar multiplication with [k] terms cost. *)
Record units := mk_units { u_mul : nat; u_inv : nat -> nat; u_msm : nat -> nat }.

Section VerifyCost.
Context {E : env} (u : units).

(** transcript.rs lines 78-92 / parallel/transcript.rs lines 86-100: one multiplication after each check. *)
Fixpoint powers_loop_c (k : nat) (xi xi_power : scalar) : counted (list scalar) :=
  match k with
  | O => cret []
  | S k' =>
      if seqb xi_power s0 then cerr InvalidChallenge
      else tick (u_mul u) (cbind (powers_loop_c k' xi (xi_power * xi)%sc) (fun rest => cret (xi_power :: rest)))
  end.
Definition challenge_powers_c (m : N) (xi : scalar) : counted (list scalar) :=
  cbind (cfree (ok_or (checked_add usize_bound m 1) (InvalidParameter "challenge power count overflowed `usize`"))) (fun count =>
  powers_loop_c (N.to_nat count) xi s1).

(** proof.rs lines 784-791 / parallel/proof.rs lines 850-861: each iteration makes two multiplications for the product (those by weights
    are counted by the caller). *)
Fixpoint f_products_c (count : nat) (f f_inverse : list (list scalar)) (it : gray_iter) (f_product : scalar) : counted (list scalar) :=
  match count with
  | O => cret []
  | S count' =>
      match gray_next it with
      | (None, _) => cret []
      | (Some (gray_index, gray_old, gray_new), it') =>
          cbind (cfree (index2 f_inverse gray_index (N.to_nat gray_old))) (fun inv =>
          cbind (cfree (index2 f gray_index (N.to_nat gray_new))) (fun new =>
          let f_product := (f_product * (inv * new))%sc in
          tick (2 * u_mul u) (cbind (f_products_c count' f f_inverse it' f_product) (fun rest => cret (f_product :: rest)))))
      end
  end.
(** proof.rs lines 769-792 / parallel/proof.rs lines 835-861: the initial product multiplies the first column, starting with one. *)
Definition all_f_products_c (n m : N) (count : nat) (f : list (list scalar)) : counted (list scalar) :=
  cbind (cfree (mapM (fun row => index row 0) f)) (fun firsts =>
  tick (length firsts * u_mul u)
  (cbind (cfree (ok_or (gray_new n m) (InvalidParameter "coefficient decomposition failed"))) (fun it =>
  tick (u_inv u (length (concat f)))
  (cbind (cfree (chunks_exact (N.to_nat n) (batch_invert (concat f)))) (fun f_inverse =>
  f_products_c count f f_inverse it (sprod firsts)))))).

(** * The same results *)
Lemma powers_loop_c_result k : forall xi c, fst (powers_loop_c k xi c) = powers_loop k xi c.
Proof.
  induction k as [|k IH]; intros xi c; [reflexivity|]. cbn [powers_loop_c powers_loop]. destruct (seqb c s0); [reflexivity|].
  rewrite fst_tick, fst_cbind, IH. destruct (powers_loop k xi (c * xi)%sc); reflexivity.
Qed.
Lemma challenge_powers_c_result m xi : fst (challenge_powers_c m xi) = challenge_powers m xi.
Proof.
  unfold challenge_powers_c, challenge_powers. rewrite fst_cbind. cbn [cfree fst]. destruct (ok_or _ _); cbn [obind]; try reflexivity. apply powers_loop_c_result.
Qed.
Lemma f_products_c_result count : forall f fi it x, fst (f_products_c count f fi it x) = f_products count f fi it x.
Proof.
  induction count as [|count IH]; intros f fi it x; [reflexivity|]. cbn [f_products_c f_products].
  destruct (gray_next it) as [[[[gi go] gn]|] it']; [|reflexivity]. rewrite fst_cbind. cbn [cfree fst].
  destruct (index2 fi gi (N.to_nat go)) as [inv| | |]; cbn [obind]; try reflexivity. rewrite fst_cbind. cbn [cfree fst].
  destruct (index2 f gi (N.to_nat gn)) as [new| | |]; cbn [obind]; try reflexivity. rewrite fst_tick, fst_cbind, IH.
  destruct (f_products count f fi it' (x * (inv * new))%sc); reflexivity.
Qed.
Lemma all_f_products_c_result n m count f : fst (all_f_products_c n m count f) = all_f_products n m count f.
Proof.
  unfold all_f_products_c, all_f_products. rewrite fst_cbind. cbn [cfree fst]. destruct (mapM _ f) as [firsts| | |]; cbn [obind]; try reflexivity.
  rewrite fst_tick, fst_cbind. cbn [cfree fst]. destruct (ok_or (gray_new n m) _) as [it| | |]; cbn [obind]; try reflexivity.
  rewrite fst_tick, fst_cbind. cbn [cfree fst]. destruct (chunks_exact _ _) as [fi| | |]; cbn [obind]; try reflexivity. apply f_products_c_result.
Qed.

(** * Costs *)
Lemma cbind_ok {A B} (a : A) c (f : A -> counted B) : cbind (Ok a, c) f = (fst (f a), (c + snd (f a))%nat).
Proof. reflexivity. Qed.
Lemma cbind_free {A B} (x : outcome proof_error A) (f : A -> counted B) :
  cbind (cfree x) f = match x with Ok a => f a | Err e => (Err e, 0%nat) | Panic => (Panic, 0%nat) | OutOfFuel => (OutOfFuel, 0%nat) end.
Proof. unfold cbind, cfree. cbn [fst snd]. destruct x as [a| | |]; try reflexivity. destruct (f a); reflexivity. Qed.
Lemma snd_cbind_ok {A B} (x : counted A) (f : A -> counted B) a : fst x = Ok a -> snd (cbind x f) = (snd x + snd (f a))%nat.
Proof. unfold cbind. intros ->. reflexivity. Qed.
Lemma powers_loop_cost k : forall xi c, match fst (powers_loop_c k xi c) with
  | Ok _ => steps (powers_loop_c k xi c) = (k * u_mul u)%nat
  | _ => (steps (powers_loop_c k xi c) <= k * u_mul u)%nat end.
Proof.
  unfold steps. induction k as [|k IH]; intros xi c; [reflexivity|]. cbn [powers_loop_c]. destruct (seqb c s0); [cbn; lia|].
  rewrite fst_tick, fst_cbind. specialize (IH xi (c * xi)%sc). unfold tick, cbind. cbn [snd].
  destruct (fst (powers_loop_c k xi (c * xi)%sc)); cbn [obind cret fst snd] in *; lia.
Qed.
Lemma challenge_powers_cost m xi : (m < u32_bound)%N -> match fst (challenge_powers_c m xi) with
  | Ok _ => steps (challenge_powers_c m xi) = ((N.to_nat m + 1) * u_mul u)%nat
  | _ => (steps (challenge_powers_c m xi) <= (N.to_nat m + 1) * u_mul u)%nat end.
Proof.
  intros Hm. unfold challenge_powers_c, checked_add, checked. assert (Hb : (u32_bound + 1 < usize_bound)%N) by reflexivity.
  rewrite (proj2 (N.ltb_lt (m + 1) usize_bound)) by lia. cbn [ok_or]. rewrite fst_cbind. cbn [cfree fst obind].
  unfold steps, cbind. cbn [cfree fst snd]. replace (N.to_nat m + 1)%nat with (N.to_nat (m + 1)) by lia. apply powers_loop_cost.
Qed.
Lemma f_products_cost count : forall f fi it x ps, f_products count f fi it x = Ok ps ->
  steps (f_products_c count f fi it x) = (length ps * (2 * u_mul u))%nat.
Proof.
  unfold steps. induction count as [|count IH]; intros f fi it x ps; cbn [f_products_c f_products]; [intros H; injection H as <-; reflexivity|].
  destruct (gray_next it) as [[[[gi go] gn]|] it']; [|intros H; injection H as <-; reflexivity].
  destruct (index2 fi gi (N.to_nat go)) as [inv| | |]; cbn [obind]; try discriminate.
  destruct (index2 f gi (N.to_nat gn)) as [new| | |]; cbn [obind]; try discriminate.
  destruct (f_products count f fi it' (x * (inv * new))%sc) as [rest| | |] eqn:Hr; cbn [obind]; try discriminate. intros H. injection H as <-.
  specialize (IH _ _ _ _ _ Hr). rewrite <- f_products_c_result in Hr. unfold cbind at 1 2. cbn [cfree fst snd]. unfold tick. cbn [snd].
  rewrite (snd_cbind_ok _ _ _ Hr), IH. cbn [cret snd length]. lia.
Qed.
Lemma mapM_length {Er A B} (g : A -> outcome Er B) l : forall l', mapM g l = Ok l' -> length l' = length l.
Proof.
  induction l as [|x l IH]; intros l' H; cbn [mapM] in H; [injection H as <-; reflexivity|].
  destruct (g x) as [y| | |]; cbn [obind] in H; try discriminate. destruct (mapM g l) as [ys| | |]; cbn [obind] in H; try discriminate.
  injection H as <-. cbn [length]. f_equal. apply IH. reflexivity.
Qed.
Lemma all_f_products_cost n m count f ps : all_f_products n m count f = Ok ps ->
  steps (all_f_products_c n m count f) = (length f * u_mul u + u_inv u (length (concat f)) + length ps * (2 * u_mul u))%nat.
Proof.
  unfold all_f_products, all_f_products_c, steps. destruct (mapM (fun row => index row 0) f) as [firsts| | |] eqn:Hf; cbn [obind]; try discriminate.
  assert (Hl : length firsts = length f) by exact (mapM_length _ _ _ Hf).
  destruct (ok_or (gray_new n m) _) as [it| | |]; cbn [obind]; try discriminate.
  destruct (chunks_exact _ _) as [fi| | |]; cbn [obind]; try discriminate. intros H. pose proof (f_products_cost _ _ _ _ _ _ H) as Hc. unfold steps in Hc.
  unfold cbind, tick. cbn [cfree fst snd]. rewrite Hc, Hl. lia.
Qed.

End VerifyCost.
