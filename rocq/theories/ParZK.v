(** Simulation and hiding for parallel Triptych. *)
From Verif Require Export ParSpecZK ParSoundness.

Section ZK.
Context {E : env} (L : env_laws E).

Lemma psub_move (a b c : pt E) : padd E a b = c <-> a = psub c b.
Proof.
  split; intros H.
  - rewrite <- H. module L.
  - rewrite H. module L.
Qed.

Lemma powers_head x m : (1 <= m)%nat -> powers x m = s1 :: map (spow x) (seq 1 (m - 1)).
Proof. intros Hm. unfold powers. destruct m as [|m]; [lia|]. cbn [seq map]. rewrite Nat.sub_succ, Nat.sub_0_r. reflexivity. Qed.

Lemma simulate_iff (p : params E) M M1 offset J xi pf : (1 <= get_m p)%N ->
  length (pf_X pf) = N.to_nat (get_m p) -> length (pf_X1 pf) = N.to_nat (get_m p) -> length (pf_Y pf) = N.to_nat (get_m p) ->
  equations p M M1 offset J pf xi <-> pf = simulate p M M1 offset J xi (view_of pf).
Proof.
  intros Hm HX HX1 HY. unfold simulate, view_of. cbn [v_B v_C v_X v_X1 v_Y v_f v_z_A v_z_C v_z v_z1].
  destruct pf as [A B C D X X1 Y f zA zC z z1]. cbn [pf_A pf_B pf_C pf_D pf_X pf_X1 pf_Y pf_f pf_z_A pf_z_C pf_z pf_z1] in *.
  destruct X as [|X0 X]; [cbn in HX; lia|]. destruct X1 as [|X10 X1]; [cbn in HX1; lia|]. destruct Y as [|Y0 Y]; [cbn in HY; lia|]. cbn [tl].
  split.
  - intros [EA EC EM EU EM1]. cbn [pf_A pf_B pf_C pf_D pf_X pf_X1 pf_Y pf_f pf_z_A pf_z_C pf_z pf_z1] in *.
    rewrite powers_head in EM, EU, EM1 by lia. rewrite lincomb_cons in EM, EU, EM1. f_equal.
    + rewrite EA. module L.
    + rewrite EC. module L.
    + f_equal. rewrite EM. module L.
    + f_equal. rewrite EM1. module L.
    + f_equal. rewrite EU. module L.
  - intros H. injection H as H1 H2 H3 H5 H4.
    constructor; cbn [pf_A pf_B pf_C pf_D pf_X pf_X1 pf_Y pf_f pf_z_A pf_z_C pf_z pf_z1]; rewrite ?powers_head by lia; rewrite ?lincomb_cons.
    + rewrite H1 at 1. module L.
    + rewrite H2 at 1. module L.
    + rewrite H3 at 1. module L.
    + rewrite H4 at 1. module L.
    + rewrite H5 at 1. module L.
Qed.

(** * Hiding *)

Lemma balance_assemble h row : balance (h :: row) = (- ssum row)%sc :: row.
Proof. reflexivity. Qed.

Lemma assemble_tail m n col a' j i : length col = m -> shape m n a' -> (j < m)%nat -> (i < n)%nat ->
  mat (map balance (map (fun x => fst x :: snd x) (combine col a'))) j (S i) = mat a' j i.
Proof.
  intros Hc Hs Hj Hi. unfold mat. rewrite map_map. cbn [balance].
  rewrite (nth_map (fun x : scalar * list scalar => (- ssum (snd x))%sc :: snd x) _ j [] (s0, []))
    by (rewrite combine_length; destruct Hs; lia).
  rewrite combine_nth by (destruct Hs; lia). cbn [fst snd nth]. reflexivity.
Qed.

Lemma sdot_head x a y b : sdot (x :: a) (y :: b) = (x * y + sdot a b)%sc.
Proof. apply sdot_cons. Qed.

Lemma matrix_unique m n F F' : shape m n F -> shape m n F' ->
  (forall j i, (j < m)%nat -> (i < n)%nat -> mat F j i = mat F' j i) -> F = F'.
Proof. intros H H' Hm. rewrite <- (mkmat_mat m n F H), <- (mkmat_mat m n F' H'). apply mkmat_ext. exact Hm. Qed.

Lemma honest_parts (st : statement E) l r r1 c xi :
  let p := st_get_params st in
  let m := N.to_nat (get_m p) in
  let n := N.to_nat (get_n p) in
  let a := mat (map balance (c_a c)) in
  let pf := honest_proof st l r r1 c xi in
  pf_B pf = com (get_CommitmentG p) (get_CommitmentH p) (mkmat m n (sigma_at (get_n p) l)) (c_r_B c) /\
  pf_C pf = com (get_CommitmentG p) (get_CommitmentH p)
              (mkmat m n (fun j i => a j i * (s1 - (s1 + s1) * sigma_at (get_n p) l j i))%sc) (c_r_C c) /\
  pf_f pf = mkmat m (n - 1) (fun j i => sigma_at (get_n p) l j (S i) * xi + a j (S i))%sc /\
  pf_z_A pf = (c_r_A c + xi * c_r_B c)%sc /\ pf_z_C pf = (xi * c_r_C c + c_r_D c)%sc /\
  pf_z pf = (r * spow xi m - sdot (c_rho c) (powers xi m))%sc /\
  pf_z1 pf = (r1 * spow xi m - sdot (c_rho1 c) (powers xi m))%sc.
Proof. cbv zeta. repeat split. Qed.

Lemma hiding (st : statement E) l r r1 xi col rho' rho1' B C f zA zC z z1 :
  let p := st_get_params st in
  let m := N.to_nat (get_m p) in
  let n := N.to_nat (get_n p) in
  good_statement st -> prime_order E -> get_CommitmentH p <> pid E ->
  length col = m -> length rho' = (m - 1)%nat -> length rho1' = (m - 1)%nat -> shape m (n - 1) f ->
  exists! q : list (list scalar) * (scalar * scalar * scalar * scalar) * (scalar * scalar),
    let '(a', (rA, rB, rC, rD), (rho0, rho10)) := q in
    shape m (n - 1) a' /\
    let pf := honest_proof st l r r1 (assemble col a' rA rB rC rD rho0 rho' rho10 rho1') xi in
    pf_B pf = B /\ pf_C pf = C /\ pf_f pf = f /\ pf_z_A pf = zA /\ pf_z_C pf = zC /\ pf_z pf = z /\ pf_z1 pf = z1.
Proof.
  intros p m n Hg Hprime HCH Hcol Hrho Hrho1 Hf.
  pose proof (gs_params st Hg) as Hp. pose proof (gp_n _ Hp) as Hn. pose proof (gp_m _ Hp) as Hm.
  assert (Hn1 : (2 <= n)%nat) by (unfold n, p, get_n, st_get_params; lia).
  assert (Hm1 : (2 <= m)%nat) by (unfold m, p, get_m, st_get_params; lia).
  set (sg := sigma_at (get_n p) l).
  set (a' := mkmat m (n - 1) (fun j i => mat f j i - sg j (S i) * xi)%sc).
  assert (Ha' : shape m (n - 1) a') by apply mkmat_shape.
  set (a := mat (map balance (map (fun x => fst x :: snd x) (combine col a')))).
  set (CB := lincomb (concat (mkmat m n sg)) (get_CommitmentG p)).
  set (CC := lincomb (concat (mkmat m n (fun j i => a j i * (s1 - (s1 + s1) * sg j i))%sc)) (get_CommitmentG p)).
  destruct (Hprime (get_CommitmentH p) (psub B CB) HCH) as [rB HrB].
  destruct (Hprime (get_CommitmentH p) (psub C CC) HCH) as [rC HrC].
  set (tail := sdot rho' (map (spow xi) (seq 1 (m - 1)))).
  set (tail1 := sdot rho1' (map (spow xi) (seq 1 (m - 1)))).
  exists (a', ((zA - xi * rB)%sc, rB, rC, (zC - xi * rC)%sc), ((r * spow xi m - tail - z)%sc, (r1 * spow xi m - tail1 - z1)%sc)).
  assert (Hz : forall rho0, sdot (rho0 :: rho') (powers xi m) = (rho0 + tail)%sc).
  { intros rho0. rewrite powers_head by lia. rewrite sdot_head. unfold tail. ring. }
  assert (Hz1 : forall rho0, sdot (rho0 :: rho1') (powers xi m) = (rho0 + tail1)%sc).
  { intros rho0. rewrite powers_head by lia. rewrite sdot_head. unfold tail1. ring. }
  split.
  - split; [exact Ha'|]. cbv zeta.
    destruct (honest_parts st l r r1 (assemble col a' (zA - xi * rB) rB rC (zC - xi * rC) (r * spow xi m - tail - z) rho' (r1 * spow xi m - tail1 - z1) rho1') xi)
      as (P1 & P2 & P3 & P4 & P5 & P6 & P7).
    rewrite P1, P2, P3, P4, P5, P6, P7. fold p m n sg. unfold assemble. cbn [c_a c_r_A c_r_B c_r_C c_r_D c_rho c_rho1]. fold a.
    split; [|split; [|split; [|split; [|split; [|split]]]]].
    + unfold com. rewrite <- HrB. fold CB. module L.
    + unfold com. rewrite <- HrC. fold CC. module L.
    + apply (matrix_unique m (n - 1)); [apply mkmat_shape|exact Hf|]. intros j i Hj Hi. rewrite mat_mkmat by assumption.
      unfold a. rewrite (assemble_tail m (n - 1)) by assumption. unfold a'. rewrite mat_mkmat by assumption. ring.
    + ring.
    + ring.
    + rewrite Hz. ring.
    + rewrite Hz1. ring.
  - intros [[b' [[[qA qB] qC] qD]] [rho0 rho10]] (Hb & HB & HC & Hf2 & HzA & HzC & Hz2 & Hz3). cbv zeta in *.
    destruct (honest_parts st l r r1 (assemble col b' qA qB qC qD rho0 rho' rho10 rho1') xi) as (P1 & P2 & P3 & P4 & P5 & P6 & P7).
    rewrite P1 in HB. rewrite P2 in HC. rewrite P3 in Hf2. rewrite P4 in HzA. rewrite P5 in HzC. rewrite P6 in Hz2. rewrite P7 in Hz3.
    fold p m n sg in HB, HC, Hf2, Hz2, Hz3. unfold assemble in *. cbn [c_a c_r_A c_r_B c_r_C c_r_D c_rho c_rho1] in *.
    assert (Hab : b' = a').
    { apply (matrix_unique m (n - 1)); try assumption. intros j i Hj Hi. unfold a'. rewrite mat_mkmat by assumption.
      rewrite <- Hf2. rewrite mat_mkmat by assumption. rewrite (assemble_tail m (n - 1)) by assumption. ring. }
    subst b'. fold a in HC.
    assert (HqB : qB = rB).
    { apply (pmul_inj_l L _ _ _ HCH). rewrite <- HrB, <- HB. unfold com. fold CB. module L. }
    assert (HqC : qC = rC).
    { apply (pmul_inj_l L _ _ _ HCH). rewrite <- HrC, <- HC. unfold com. fold CC. module L. }
    subst qB qC. rewrite Hz in Hz2. rewrite Hz1 in Hz3.
    assert (Hr0 : rho0 = (r * spow xi m - tail - z)%sc) by (rewrite <- Hz2; ring).
    assert (Hr1 : rho10 = (r1 * spow xi m - tail1 - z1)%sc) by (rewrite <- Hz3; ring).
    assert (HqA : qA = (zA - xi * rB)%sc) by (rewrite <- HzA; ring).
    assert (HqD : qD = (zC - xi * rC)%sc) by (rewrite <- HzC; ring).
    congruence.
Qed.

End ZK.
