(** Sums over the ring positions, Lagrange weights, and products of linear polynomials. *)
From Verif Require Export Algebra GrayFacts.

(** * Sum over all Gray codes = product of sums *)

Lemma map_seq_shift {A} (g : nat -> A) a k : map g (seq a k) = map (fun i => g (a + i)%nat) (seq 0 k).
Proof.
  revert g a; induction k as [|k IH]; intros g a; [reflexivity|]. cbn [seq map]. rewrite Nat.add_0_r. f_equal.
  rewrite (IH g (S a)). rewrite (IH (fun i => g (a + i)%nat) 1%nat). apply map_ext. intros i. f_equal. lia.
Qed.

Lemma ssum_blocks (h : nat -> scalar) n Q :
  ssum (map h (seq 0 (n * Q))) = ssum (map (fun q => ssum (map (fun b => h (n * q + b)%nat) (seq 0 n))) (seq 0 Q)).
Proof.
  induction Q as [|Q IH].
  - rewrite Nat.mul_0_r. reflexivity.
  - replace (n * S Q)%nat with (n * Q + n)%nat by lia.
    rewrite seq_app, map_app, ssum_app, IH.
    rewrite seq_S, map_app, ssum_app. f_equal. cbn [map plus]. rewrite ssum_cons, ssum_nil.
    rewrite (map_seq_shift h (n * Q) n). ring.
Qed.

Lemma ssum_rotate (F : nat -> scalar) (n c : N) : (c < n)%N ->
  ssum (map (fun b => F (N.to_nat ((N.of_nat b + (n - c)) mod n))) (seq 0 (N.to_nat n))) =
  ssum (map F (seq 0 (N.to_nat n))).
Proof.
  intros Hc. set (k := N.to_nat n). set (d := N.to_nat c).
  replace k with (d + (k - d))%nat by lia.
  replace (seq 0 (d + (k - d))) with (seq 0 d ++ seq d (k - d)) by (rewrite seq_app; reflexivity).
  rewrite map_app, ssum_app.
  replace (ssum (map F (seq 0 d ++ seq d (k - d)))) with (ssum (map F (seq 0 (k - d) ++ seq (k - d) d))).
  - rewrite map_app, ssum_app.
    rewrite (map_seq_shift _ d (k - d)). rewrite (map_seq_shift F (k - d) d).
    replace (map (fun b => F (N.to_nat ((N.of_nat b + (n - c)) mod n))) (seq 0 d))
      with (map (fun i => F (k - d + i)%nat) (seq 0 d)).
    + replace (map (fun i => F (N.to_nat ((N.of_nat (d + i) + (n - c)) mod n))) (seq 0 (k - d)))
        with (map F (seq 0 (k - d))); [ring|].
      apply map_ext_in. intros i Hi. apply in_seq in Hi. f_equal.
      replace (N.of_nat (d + i) + (n - c))%N with (N.of_nat i + 1 * n)%N by lia.
      rewrite N.mod_add by lia. rewrite N.mod_small by lia. lia.
    + apply map_ext_in. intros i Hi. apply in_seq in Hi. f_equal.
      rewrite N.mod_small by lia. lia.
  - replace (seq 0 (k - d) ++ seq (k - d) d) with (seq 0 (k - d + d)) by (rewrite seq_app; reflexivity).
    replace (seq 0 d ++ seq d (k - d)) with (seq 0 (d + (k - d))) by (rewrite seq_app; reflexivity).
    do 3 f_equal. lia.
Qed.

Lemma code_product_low n m F q b : n <> 0%N -> (b < N.to_nat n)%nat ->
  code_product n (S m) F (N.to_nat n * q + b) =
  (F 0%nat (N.to_nat ((N.of_nat b + (n - N.of_nat q mod n)) mod n)) * code_product n m (fun j => F (S j)) q)%sc.
Proof.
  intros Hn Hb. unfold code_product. cbn [seq map]. rewrite sprod_cons.
  replace (N.of_nat (N.to_nat n * q + b)) with (n * N.of_nat q + N.of_nat b)%N by lia.
  rewrite gray_digit_low0 by lia. f_equal.
  rewrite <- seq_shift, map_map. f_equal. apply map_ext. intros j.
  rewrite gray_digit_low by lia. reflexivity.
Qed.

Lemma gray_sum_prod n : (2 <= n)%N -> forall m F,
  ssum (map (code_product n m F) (seq 0 (N.to_nat n ^ m))) =
  sprod (map (fun j => ssum (map (F j) (seq 0 (N.to_nat n)))) (seq 0 m)).
Proof.
  intros Hn. induction m as [|m IH]; intros F.
  - change (N.to_nat n ^ 0)%nat with 1%nat. unfold code_product. cbn [seq map]. rewrite ssum_cons, ssum_nil, sprod_nil. ring.
  - rewrite Nat.pow_succ_r'. rewrite ssum_blocks.
    rewrite (ssum_ext _ (fun q => ssum (map (F 0%nat) (seq 0 (N.to_nat n))) * code_product n m (fun j => F (S j)) q)%sc).
    + rewrite ssum_scale_f, IH. cbn [seq map]. rewrite sprod_cons. f_equal.
      rewrite <- seq_shift, map_map. reflexivity.
    + intros q _.
      rewrite (ssum_ext _ (fun b => F 0%nat (N.to_nat ((N.of_nat b + (n - N.of_nat q mod n)) mod n))
                                     * code_product n m (fun j => F (S j)) q)%sc).
      * rewrite ssum_scale_f_r. f_equal. apply ssum_rotate. apply N.mod_lt. lia.
      * intros b Hb. apply in_seq in Hb. apply code_product_low; lia.
Qed.

Lemma pow_nat_N n m : N.to_nat (n ^ N.of_nat m) = (N.to_nat n ^ m)%nat.
Proof.
  induction m as [|m IH]; [reflexivity|]. rewrite npow_S, N2Nat.inj_mul, IH, Nat.pow_succ_r'. reflexivity.
Qed.

(** With 0/1 rows marking the digits of [l], the product is 1 at [l] and 0 elsewhere. *)
Lemma code_product_delta n m F l k : (2 <= n)%N -> (l < n ^ N.of_nat m)%N -> (k < N.to_nat n ^ m)%nat ->
  (forall j i, (j < m)%nat -> (i < N.to_nat n)%nat -> F j i = if Nat.eqb i (N.to_nat (gray_digit n l j)) then s1 else s0) ->
  code_product n m F k = if Nat.eqb k (N.to_nat l) then s1 else s0.
Proof.
  intros Hn Hl Hk HF. assert (Hn0 : n <> 0%N) by lia.
  assert (Hk' : (N.of_nat k < n ^ N.of_nat m)%N) by (rewrite <- pow_nat_N in Hk; lia).
  destruct (Nat.eqb_spec k (N.to_nat l)) as [->|Hne].
  - unfold code_product. rewrite N2Nat.id.
    rewrite (sprod_ext _ (fun _ => s1)).
    + clear. induction (seq 0 m) as [|x l IH]; [reflexivity|]. cbn [map]. rewrite sprod_cons, IH. ring.
    + intros j Hj. apply in_seq in Hj. rewrite HF; [rewrite Nat.eqb_refl; reflexivity|lia|].
      pose proof (gray_digit_lt n l j Hn0). lia.
  - assert (Hdiff : exists j, (j < m)%nat /\ gray_digit n (N.of_nat k) j <> gray_digit n l j).
    { assert (Hc : gray_code n m (N.of_nat k) <> gray_code n m l).
      { intros Hc. apply Hne. apply (gray_code_inj n Hn m) in Hc; [lia|exact Hk'|exact Hl]. }
      clear - Hc. unfold gray_code in Hc. induction m as [|m IH]; [contradiction Hc; reflexivity|].
      rewrite seq_S, !map_app in Hc. cbn [map plus] in Hc.
      destruct (N.eq_dec (gray_digit n (N.of_nat k) m) (gray_digit n l m)) as [He|He].
      - destruct IH as (j & Hj & Hd); [intros Heq; apply Hc; rewrite Heq, He; reflexivity|].
        exists j. split; [lia|exact Hd].
      - exists m. split; [lia|exact He]. }
    destruct Hdiff as (j & Hj & Hd). unfold code_product.
    assert (Hin : In j (seq 0 m)) by (apply in_seq; lia).
    apply in_split in Hin. destruct Hin as (l1 & l2 & Hs). rewrite Hs, map_app, sprod_app.
    cbn [map]. rewrite sprod_cons.
    rewrite HF; [|exact Hj|pose proof (gray_digit_lt n (N.of_nat k) j Hn0); lia].
    rewrite (proj2 (Nat.eqb_neq _ _)) by lia. ring.
Qed.

(** * Lagrange weights for the leading coefficient *)

Fixpoint lag (xs : list scalar) : list scalar :=
  match xs with
  | [] => []
  | x :: r =>
      match r with
      | [] => [s1]
      | _ => let nu := map (fun ly => sdiv (fst ly) (snd ly - x)%sc) (combine (lag r) r) in
             (- ssum nu)%sc :: nu
      end
  end.

Lemma lag_length xs : length (lag xs) = length xs.
Proof.
  induction xs as [|x r IH]; [reflexivity|]. cbn [lag]. destruct r as [|y r]; [reflexivity|].
  cbn [length]. rewrite map_length, combine_length, IH. cbn [length]. lia.
Qed.

Definition lag_moment (xs : list scalar) (j : nat) : scalar := sdot (lag xs) (map (fun x => spow x j) xs).

Lemma sdot_map_combine (f g : scalar -> scalar -> scalar) (h : scalar -> scalar) : forall la l,
  (forall a x, In x l -> (f a x * h x)%sc = g a x) -> length la = length l ->
  sdot (map (fun ly => f (fst ly) (snd ly)) (combine la l)) (map h l) = ssum (map (fun ly => g (fst ly) (snd ly)) (combine la l)).
Proof.
  induction la as [|a la IH]; intros l H Hl; destruct l as [|x l]; try discriminate; [reflexivity|].
  cbn [combine map fst snd]. rewrite sdot_cons, ssum_cons. rewrite IH.
  - rewrite H by (left; reflexivity). reflexivity.
  - intros b y Hy. apply H. right; exact Hy.
  - simpl in Hl. lia.
Qed.

Lemma lag_moment_S x y r j : ~ In x (y :: r) ->
  lag_moment (x :: y :: r) (S j) = (lag_moment (y :: r) j + x * lag_moment (x :: y :: r) j)%sc.
Proof.
  intros Hni. unfold lag_moment.
  assert (Hlag : lag (x :: y :: r) =
    (- ssum (map (fun ly => sdiv (fst ly) (snd ly - x)%sc) (combine (lag (y :: r)) (y :: r))))%sc
      :: map (fun ly => sdiv (fst ly) (snd ly - x)%sc) (combine (lag (y :: r)) (y :: r))) by reflexivity.
  rewrite Hlag. generalize (lag_length (y :: r)). generalize (lag (y :: r)) as la. intros la Hl.
  generalize dependent (y :: r). intros l Hni _ Hl.
  cbn [map]. rewrite !sdot_cons. cbn [spow].
  assert (Key : forall la l, ~ In x l -> length la = length l ->
    sdot (map (fun ly => sdiv (fst ly) (snd ly - x)%sc) (combine la l)) (map (fun y => y * spow y j)%sc l) =
    (sdot la (map (fun y => spow y j) l)
     + x * sdot (map (fun ly => sdiv (fst ly) (snd ly - x)%sc) (combine la l)) (map (fun y => spow y j) l))%sc).
  { clear. induction la as [|a la IH]; intros l Hni Hl; destruct l as [|z l]; try discriminate.
    - unfold sdot. cbn [combine map]. rewrite ssum_nil. ring.
    - cbn [combine map fst snd]. rewrite !sdot_cons.
      rewrite IH; [|intros H; apply Hni; right; exact H|simpl in Hl; lia].
      assert (Hz : (z - x)%sc <> s0).
      { intros H. apply (proj1 (ssub_eq_0 _ _)) in H. subst. apply Hni. left; reflexivity. }
      field. exact Hz. }
  rewrite Key by assumption. ring.
Qed.

Lemma lag_moment_0 x y r : lag_moment (x :: y :: r) 0 = s0.
Proof.
  unfold lag_moment.
  assert (Hlag : lag (x :: y :: r) =
    (- ssum (map (fun ly => sdiv (fst ly) (snd ly - x)%sc) (combine (lag (y :: r)) (y :: r))))%sc
      :: map (fun ly => sdiv (fst ly) (snd ly - x)%sc) (combine (lag (y :: r)) (y :: r))) by reflexivity.
  rewrite Hlag. cbn [map]. rewrite sdot_cons.
  assert (Hone : forall nu l, length nu = length l -> sdot nu (map (fun z => spow z 0) l) = ssum nu).
  { clear. induction nu as [|a nu IH]; intros l Hl; destruct l as [|z l]; try discriminate; [reflexivity|].
    cbn [map]. rewrite sdot_cons, ssum_cons, IH by (simpl in Hl; lia). cbn [spow]. ring. }
  cbn [spow].
  match goal with |- context [sdot ?nu (?a :: map ?f r)] => change (a :: map f r) with (map (fun z => spow z 0) (y :: r)) end.
  rewrite Hone; [ring|].
  rewrite map_length, combine_length, lag_length. apply Nat.min_id.
Qed.

(** The weights annihilate all lower powers and send the top power to 1. *)
Lemma lag_spec xs : forall x, NoDup (x :: xs) -> forall j, (j <= length xs)%nat ->
  lag_moment (x :: xs) j = if Nat.eqb j (length xs) then s1 else s0.
Proof.
  induction xs as [|y r IH]; intros x Hnd.
  - intros j Hj. simpl in Hj. assert (j = 0%nat) by lia. subst j. cbn [length Nat.eqb].
    unfold lag_moment. cbn [lag map]. rewrite sdot_cons. unfold sdot. cbn [combine map]. rewrite ssum_nil. cbn [spow]. ring.
  - inversion Hnd as [|x' l Hni Hnd' Heq]; subst.
    induction j as [|j IHj]; intros Hj.
    + rewrite lag_moment_0. reflexivity.
    + rewrite lag_moment_S by exact Hni. rewrite IHj by lia. rewrite (IH y Hnd') by (simpl in Hj; lia).
      cbn [length] in *. rewrite (proj2 (Nat.eqb_neq j (S (length r)))) by lia.
      change (Nat.eqb (S j) (S (length r))) with (Nat.eqb j (length r)).
      destruct (Nat.eqb j (length r)); ring.
Qed.

Section Interp.
Context {E : env} (L : env_laws E).

Lemma lincomb_moments (xs : list scalar) : forall (Qs : list (pt E)) a,
  lincomb (lag xs) (map (fun x => lincomb (map (spow x) (seq a (length Qs))) Qs) xs) =
  lincomb (map (lag_moment xs) (seq a (length Qs))) Qs.
Proof.
  induction Qs as [|Q Qs IH]; intros a.
  - cbn [length seq map]. rewrite lincomb_nil_l.
    assert (H : forall la l, @lincomb E la (map (fun _ : scalar => pid E) l) = pid E).
    { clear - L. induction la as [|s la IH]; intros l; [reflexivity|]. destruct l as [|x l]; [reflexivity|].
      cbn [map]. rewrite lincomb_cons, IH. module L. }
    apply H.
  - cbn [length seq map]. rewrite lincomb_cons, <- (IH (S a)).
    unfold lag_moment.
    assert (H : forall la l (f : scalar -> scalar) (g : scalar -> pt E),
      lincomb la (map (fun x => padd E (pmul E (f x) Q) (g x)) l) =
      padd E (pmul E (sdot la (map f l)) Q) (lincomb la (map g l))).
    { clear - L. induction la as [|s la IH]; intros l f g.
      - rewrite !lincomb_nil_l. unfold sdot. cbn [combine map]. rewrite ssum_nil. module L.
      - destruct l as [|x l].
        + cbn [map]. rewrite !lincomb_nil_r. unfold sdot. cbn [combine map]. rewrite ssum_nil. module L.
        + cbn [map]. rewrite !lincomb_cons, sdot_cons, IH. module L. }
    rewrite <- H. reflexivity.
Qed.

Lemma lincomb_mults (G : pt E) : forall la (Ps : list (pt E)) zs,
  Forall2 (fun P z => P = pmul E z G) Ps zs -> lincomb la Ps = pmul E (sdot la zs) G.
Proof.
  induction la as [|a la IH]; intros Ps zs H.
  - rewrite lincomb_nil_l. unfold sdot. cbn [combine map]. rewrite ssum_nil. module L.
  - inversion H as [|P z Ps' zs' HP Hr]; subst.
    + rewrite lincomb_nil_r. unfold sdot. cbn [combine map]. rewrite ssum_nil. module L.
    + rewrite lincomb_cons, sdot_cons, (IH Ps' zs' Hr). module L.
Qed.

(** If the combinations of [Qs] with the powers of [m+1] distinct points are multiples [z_i] of [G], then
    the last of [Qs] is the corresponding multiple of [G]. *)
Lemma interpolate (xs zs : list scalar) (G P : pt E) (Qs : list (pt E)) :
  NoDup xs -> length xs = S (length Qs) -> length zs = length xs ->
  Forall2 (fun x z => lincomb (powers x (S (length Qs))) (Qs ++ [P]) = pmul E z G) xs zs ->
  P = pmul E (sdot (lag xs) zs) G.
Proof.
  intros Hnd Hlen Hz Hall.
  pose proof (lincomb_moments xs (Qs ++ [P]) 0) as Hm.
  rewrite app_length in Hm. cbn [length] in Hm. rewrite Nat.add_1_r in Hm.
  assert (Hl : lincomb (lag xs) (map (fun x => lincomb (map (spow x) (seq 0 (S (length Qs)))) (Qs ++ [P])) xs) =
               pmul E (sdot (lag xs) zs) G).
  { apply lincomb_mults. clear - Hall. induction Hall as [|x z xs zs Hx Hall IH]; cbn [map]; constructor; [exact Hx|exact IH]. }
  rewrite Hl in Hm. rewrite Hm. clear Hm Hl.
  destruct xs as [|x xs]; [discriminate|]. simpl in Hlen.
  rewrite seq_S, map_app. cbn [map plus].
  rewrite (lincomb_app L) by (rewrite map_length, seq_length; reflexivity).
  rewrite (map_ext_in _ (fun _ => s0)).
  - rewrite (lag_spec xs x Hnd) by lia. replace (length xs) with (length Qs) by lia. rewrite Nat.eqb_refl.
    assert (Hz0 : map (fun _ : nat => s0) (seq 0 (length Qs)) = repeat s0 (length Qs)).
    { clear. generalize 0%nat. induction (length Qs) as [|k IH]; intros a; [reflexivity|]. cbn [seq map repeat]. rewrite IH. reflexivity. }
    rewrite Hz0, (lincomb_zeros L), (lincomb_single L). module L.
  - intros j Hj. apply in_seq in Hj. rewrite (lag_spec xs x Hnd) by lia.
    rewrite (proj2 (Nat.eqb_neq j (length xs))) by lia. reflexivity.
Qed.

End Interp.

(** * Products of linear polynomials *)

Lemma lin_mul_length a s c : length (lin_mul a s c) = S (length c).
Proof.
  unfold lin_mul. rewrite map_length, combine_length, app_length. cbn [length]. rewrite !map_length. cbn. lia.
Qed.

Lemma peval_zip_add x : forall c d, length c = length d ->
  peval (map (fun xy => fst xy + snd xy)%sc (combine c d)) x = (peval c x + peval d x)%sc.
Proof.
  induction c as [|a c IH]; intros d Hl; destruct d as [|b d]; try discriminate.
  - cbn [combine map peval]. ring.
  - cbn [combine map peval fst snd]. rewrite IH by (simpl in Hl; lia). ring.
Qed.

Lemma lin_mul_peval a s c x : peval (lin_mul a s c) x = ((a + s * x) * peval c x)%sc.
Proof.
  unfold lin_mul. rewrite peval_zip_add.
  - rewrite peval_app. cbn [peval]. rewrite !peval_scale. ring.
  - rewrite app_length. cbn [length]. rewrite !map_length. lia.
Qed.

Lemma lin_mul_last a s c d : c <> [] -> last (lin_mul a s c) d = (s * last c d)%sc.
Proof.
  intros Hc. destruct (exists_last Hc) as (c' & y & ->).
  unfold lin_mul. rewrite !map_app. cbn [map].
  rewrite app_comm_cons.
  assert (Hcomb : forall (A B : Type) (l1 l2 : list A) (k1 k2 : list B), length l1 = length k1 ->
            combine (l1 ++ l2) (k1 ++ k2) = combine l1 k1 ++ combine l2 k2).
  { clear. induction l1 as [|x l1 IH]; intros l2 k1 k2 Hl; destruct k1 as [|z k1]; try discriminate; [reflexivity|].
    cbn [app combine]. rewrite IH by (simpl in Hl; lia). reflexivity. }
  rewrite Hcomb.
  - rewrite map_app. cbn [combine map fst snd]. rewrite !last_last. ring.
  - rewrite app_length. cbn [length]. rewrite !map_length. lia.
Qed.
