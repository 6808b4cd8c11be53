(** Honest parallel proofs satisfy the verification equations, whatever the coins and the challenge. *)
From Verif Require Export ParProverFacts ParVerifierFacts.

Section Completeness.
Context {E : env} (L : env_laws E).

Lemma lincomb_concat_mkmat (CG : list (pt E)) m n (F G : nat -> nat -> scalar) x :
  lincomb (concat (mkmat m n (fun j i => F j i * x + G j i)%sc)) CG
  = padd E (pmul E x (lincomb (concat (mkmat m n F)) CG)) (lincomb (concat (mkmat m n G)) CG).
Proof.
  assert (H : forall m F G, concat (mkmat m n (fun j i => F j i * x + G j i)%sc)
            = map (fun xy => x * fst xy + snd xy)%sc (combine (concat (mkmat m n F)) (concat (mkmat m n G)))).
  { clear. induction m as [|m IH]; intros F G; [reflexivity|]. rewrite !mkmat_S. cbn [concat]. rewrite (IH (fun j => F (S j)) (fun j => G (S j))).
    rewrite combine_app by (rewrite !map_length; reflexivity). rewrite map_app. f_equal.
    generalize (seq 0 n) as l. induction l as [|i l IHl]; [reflexivity|]. cbn [map combine fst snd]. rewrite IHl. f_equal. ring. }
  rewrite H, (lincomb_add L (fun xy => x * fst xy)%sc snd), (lincomb_scale_r L fst).
  assert (Hc : length (concat (mkmat m n F)) = length (concat (mkmat m n G))).
  { rewrite !(concat_shape_length m n) by apply mkmat_shape. reflexivity. }
  assert (Hf : forall (a b : list scalar), length a = length b -> map fst (combine a b) = a /\ map snd (combine a b) = b).
  { clear. induction a as [|x a IH]; intros [|y b] Hl; try discriminate; [split; reflexivity|].
    destruct (IH b ltac:(simpl in Hl; lia)) as [H1 H2]. cbn [combine map fst snd]. rewrite H1, H2. split; reflexivity. }
  destruct (Hf _ _ Hc) as [-> ->]. reflexivity.
Qed.

Lemma com_mkmat (CG : list (pt E)) CH m n (F G : nat -> nat -> scalar) x u v :
  com CG CH (mkmat m n (fun j i => F j i * x + G j i)%sc) (u * x + v)%sc
  = padd E (pmul E x (com CG CH (mkmat m n F) u)) (com CG CH (mkmat m n G) v).
Proof. unfold com. rewrite lincomb_concat_mkmat. module L. Qed.

Lemma mkmat_map m n h (g : scalar -> scalar) : map (map g) (mkmat m n h) = mkmat m n (fun j i => g (h j i)).
Proof. unfold mkmat. rewrite map_map. apply map_ext. intros j. rewrite map_map. reflexivity. Qed.

Lemma honest_well_shaped (st : statement E) l r r1 c xi : well_shaped (st_params st) (honest_proof st l r r1 c xi).
Proof.
  unfold well_shaped, honest_proof. cbn [pf_X pf_X1 pf_Y pf_f]. rewrite !map_length, !seq_length.
  split; [reflexivity|]. split; [reflexivity|]. split; [reflexivity|]. apply mkmat_shape.
Qed.

Definition good_coins (st : statement E) (c : coins) : Prop :=
  shape (N.to_nat (p_m (st_params st))) (N.to_nat (p_n (st_params st))) (c_a c) /\
  length (c_rho c) = N.to_nat (p_m (st_params st)) /\ length (c_rho1 c) = N.to_nat (p_m (st_params st)).

Definition response_entry (st : statement E) (l : N) (c : coins) (xi : scalar) (j i : nat) : scalar :=
  (sigma_at (p_n (st_params st)) l j i * xi + mat (map balance (c_a c)) j i)%sc.

Lemma honest_complete (st : statement E) l r r1 c xi : good_statement st -> good_coins st c ->
  complete xi (pf_f (honest_proof st l r r1 c xi)) =
  mkmat (N.to_nat (p_m (st_params st))) (N.to_nat (p_n (st_params st))) (response_entry st l c xi).
Proof.
  intros Hg (Ha & Hrho & _). pose proof (gp_n _ (gs_params st Hg)) as Hn.
  unfold honest_proof. cbn [pf_f]. unfold st_get_params, get_m, get_n.
  apply complete_prover; [lia| |].
  - intros j Hj. eapply balance_row_sum; eassumption.
  - intros j Hj. apply sigma_row_sum. lia.
Qed.

Lemma honest_equations (st : statement E) l r r1 c xi : good_statement st -> relation st l r r1 -> good_coins st c ->
  equations (st_params st) (is_M (st_input_set st)) (is_M1 (st_input_set st)) (st_offset st) (st_J st) (honest_proof st l r r1 c xi) xi.
Proof.
  intros Hg (HM & (M1_l & HM1 & Hr1) & HJ) Hc. pose proof (gs_params st Hg) as Hp. pose proof (gp_n _ Hp) as Hn. pose proof (gp_m _ Hp) as Hm.
  pose proof (honest_complete st l r r1 c xi Hg Hc) as Hf. destruct Hc as (Ha & Hrho & Hrho1).
  unfold relation, get_keys, get_auxiliary_keys, st_get_input_set, st_get_params, st_get_J, st_get_offset, get_G, get_G1, get_U in *.
  assert (Hl : (N.to_nat l < length (is_M (st_input_set st)))%nat) by (apply nth_error_Some; congruence).
  assert (HlN : (l < p_n (st_params st) ^ p_m (st_params st))%N).
  { pose proof (gs_len _ Hg) as Hlen. rewrite (good_N _ Hp) in Hlen. lia. }
  set (n := N.to_nat (p_n (st_params st))) in *. set (m := N.to_nat (p_m (st_params st))) in *.
  constructor; unfold get_G, get_G1, get_U, get_n, get_m, get_CommitmentG, get_CommitmentH; rewrite ?Hf; fold n m; clear Hf.
  - unfold response_entry. unfold honest_proof. cbn [pf_z_A pf_A pf_B]. unfold st_get_params, get_n, get_m, get_CommitmentG, get_CommitmentH. fold n m.
    replace (c_r_A c + xi * c_r_B c)%sc with (c_r_B c * xi + c_r_A c)%sc by ring.
    rewrite com_mkmat. apply (padd_comm E L).
  - unfold honest_proof. cbn [pf_z_C pf_C pf_D]. unfold st_get_params, get_n, get_m, get_CommitmentG, get_CommitmentH. fold n m.
    rewrite mkmat_map. replace (xi * c_r_C c + c_r_D c)%sc with (c_r_C c * xi + c_r_D c)%sc by ring.
    rewrite <- com_mkmat. f_equal. apply mkmat_ext. intros j i Hj Hi. unfold response_entry.
    unfold sigma_at. destruct (Nat.eqb i _); ring.
  - set (A := mat (map balance (c_a c))). set (S_ := sigma_at (p_n (st_params st)) l).
    set (pv := map (fun k => poly_prod (position_factors (p_n (st_params st)) m A S_ k)) (seq 0 (length (is_M (st_input_set st))))).
    assert (HX : pf_X (honest_proof st l r r1 c xi) =
                 map (fun j => padd E (lincomb (map (fun row => nth j row s0) pv) (is_M (st_input_set st))) (pmul E (nth j (c_rho c) s0) (p_G (st_params st)))) (seq 0 m)).
    { unfold honest_proof. cbn [pf_X]. unfold pv. apply map_ext. intros j. rewrite map_map. reflexivity. }
    rewrite HX. rewrite (X_combination L) by exact Hrho. unfold pv. rewrite map_map.
    unfold honest_proof. cbn [pf_z]. unfold st_get_params, get_m. fold m.
    set (M := is_M (st_input_set st)) in *.
    rewrite (lincomb_ext (fun k => sdot _ _)
              (fun k => code_product (p_n (st_params st)) m (mat (mkmat m n (response_entry st l c xi))) k
                        + (- spow xi m) * (if Nat.eqb k (N.to_nat l) then s1 else s0))%sc).
    + rewrite (lincomb_add L), (lincomb_scale_r L).
      assert (Hd : lincomb (map (fun k => if Nat.eqb k (N.to_nat l) then s1 else s0) (seq 0 (length M))) M = nth (N.to_nat l) M (pid E)).
      { apply (lincomb_delta L). exact Hl. }
      rewrite Hd, (nth_error_nth _ _ _ HM). module L.
    + intros k Hk. apply in_seq in Hk.
      destruct (poly_position (p_n (st_params st)) m A S_ k) as (P1 & P2 & P3).
      rewrite poly_low by exact P1. rewrite P2, P3.
      rewrite (code_product_delta (p_n (st_params st)) m S_ l k).
      * assert (Hcp : code_product (p_n (st_params st)) m (fun j i => S_ j i * xi + A j i)%sc k
                      = code_product (p_n (st_params st)) m (mat (mkmat m n (response_entry st l c xi))) k).
        { unfold code_product. apply sprod_ext. intros j Hj. apply in_seq in Hj. rewrite mat_mkmat; [reflexivity|lia|].
          pose proof (gray_digit_lt (p_n (st_params st)) (N.of_nat k) j ltac:(lia)). unfold n. lia. }
        rewrite Hcp. ring.
      * exact Hn.
      * unfold m. rewrite N2Nat.id. exact HlN.
      * pose proof (good_len_nat _ Hg) as Hlen. change (length M = (N.to_nat (p_n (st_params st)) ^ m)%nat) in Hlen. lia.
      * intros j i Hj Hi. reflexivity.
  - unfold honest_proof. cbn [pf_z pf_Y]. unfold st_get_params, st_get_J, get_m. fold m.
    rewrite <- Hrho, <- (map_seq_nth (fun rh => pmul E rh (st_J st)) (c_rho c)), Hrho.
    unfold powers at 1. rewrite <- Hrho at 2. rewrite (Y_combination L), Hrho, <- HJ. unfold powers. module L.
  - pose proof (gs_len1 _ Hg) as Hlen1.
    assert (HsM : length (shifted (is_M1 (st_input_set st)) (st_offset st)) = length (is_M (st_input_set st)))
      by (unfold shifted; rewrite map_length; exact Hlen1).
    set (A := mat (map balance (c_a c))). set (S_ := sigma_at (p_n (st_params st)) l).
    set (pv := map (fun k => poly_prod (position_factors (p_n (st_params st)) m A S_ k)) (seq 0 (length (is_M (st_input_set st))))).
    assert (HX : pf_X1 (honest_proof st l r r1 c xi) =
                 map (fun j => padd E (lincomb (map (fun row => nth j row s0) pv) (shifted (is_M1 (st_input_set st)) (st_offset st))) (pmul E (nth j (c_rho1 c) s0) (p_G1 (st_params st)))) (seq 0 m)).
    { unfold honest_proof. cbn [pf_X1]. unfold pv. apply map_ext. intros j. rewrite map_map. reflexivity. }
    rewrite HX. rewrite (X_combination L) by exact Hrho1. unfold pv. rewrite map_map.
    unfold honest_proof. cbn [pf_z1]. unfold st_get_params, get_m. fold m.
    set (M := is_M (st_input_set st)) in *. set (M1 := shifted (is_M1 (st_input_set st)) (st_offset st)) in *.
    rewrite (lincomb_ext (fun k => sdot _ _)
              (fun k => code_product (p_n (st_params st)) m (mat (mkmat m n (response_entry st l c xi))) k
                        + (- spow xi m) * (if Nat.eqb k (N.to_nat l) then s1 else s0))%sc).
    + rewrite (lincomb_add L), (lincomb_scale_r L).
      assert (Hd : lincomb (map (fun k => if Nat.eqb k (N.to_nat l) then s1 else s0) (seq 0 (length M))) M1 = nth (N.to_nat l) M1 (pid E)).
      { rewrite <- HsM. apply (lincomb_delta L). rewrite HsM. exact Hl. }
      rewrite Hd, (nth_error_nth _ _ _ (map_nth_error (fun P => psub P (st_offset st)) _ _ HM1)), Hr1. module L.
    + intros k Hk. apply in_seq in Hk.
      destruct (poly_position (p_n (st_params st)) m A S_ k) as (P1 & P2 & P3).
      rewrite poly_low by exact P1. rewrite P2, P3.
      rewrite (code_product_delta (p_n (st_params st)) m S_ l k).
      * assert (Hcp : code_product (p_n (st_params st)) m (fun j i => S_ j i * xi + A j i)%sc k
                      = code_product (p_n (st_params st)) m (mat (mkmat m n (response_entry st l c xi))) k).
        { unfold code_product. apply sprod_ext. intros j Hj. apply in_seq in Hj. rewrite mat_mkmat; [reflexivity|lia|].
          pose proof (gray_digit_lt (p_n (st_params st)) (N.of_nat k) j ltac:(lia)). unfold n. lia. }
        rewrite Hcp. ring.
      * exact Hn.
      * unfold m. rewrite N2Nat.id. exact HlN.
      * pose proof (good_len_nat _ Hg) as Hlen. change (length M = (N.to_nat (p_n (st_params st)) ^ m)%nat) in Hlen. lia.
      * intros j i Hj Hi. reflexivity.
Qed.

End Completeness.
