(** Facts about the Gray code model: closed form, bijectivity, the iterator. *)
From Verif Require Import Gray.
From Verif Require Export Spec.
Local Open Scope N_scope.

Lemma npow_pos n k : n <> 0 -> n ^ k <> 0.
Proof. intros H. apply N.pow_nonzero. exact H. Qed.

Lemma npow_S n j : n ^ N.of_nat (S j) = n * n ^ N.of_nat j.
Proof. rewrite Nat2N.inj_succ, N.pow_succ_r'. reflexivity. Qed.

Lemma base_digit_lt n v j : n <> 0 -> base_digit n v j < n.
Proof. intros H. apply N.mod_lt. exact H. Qed.

Lemma gray_digit_lt n v j : n <> 0 -> gray_digit n v j < n.
Proof. intros H. apply N.mod_lt. exact H. Qed.

Lemma gray_code_length n m v : length (gray_code n m v) = m.
Proof. unfold gray_code. rewrite map_length, seq_length. reflexivity. Qed.

Lemma gray_code_nth n m v j : (j < m)%nat -> nth_error (gray_code n m v) j = Some (gray_digit n v j).
Proof.
  intros H. unfold gray_code. apply map_nth_error.
  rewrite (nth_error_nth' _ 0%nat) by (rewrite seq_length; exact H).
  rewrite seq_nth by exact H. reflexivity.
Qed.

(** Removing the least significant digit. *)
Lemma base_digit_low n q b j : n <> 0 -> b < n -> base_digit n (n * q + b) (S j) = base_digit n q j.
Proof.
  intros Hn Hb. unfold base_digit. rewrite npow_S.
  rewrite <- N.div_div by (auto using npow_pos).
  f_equal. f_equal. rewrite (N.mul_comm n q), N.div_add_l by exact Hn.
  rewrite (N.div_small b n Hb). lia.
Qed.

Lemma base_digit_0 n v : base_digit n v 0 = v mod n.
Proof. unfold base_digit. simpl. rewrite N.div_1_r. reflexivity. Qed.

Lemma gray_digit_low n q b j : n <> 0 -> b < n -> gray_digit n (n * q + b) (S j) = gray_digit n q j.
Proof. intros Hn Hb. unfold gray_digit. rewrite !base_digit_low by assumption. reflexivity. Qed.

Lemma gray_digit_low0 n q b : n <> 0 -> b < n -> gray_digit n (n * q + b) 0 = (b + (n - q mod n)) mod n.
Proof.
  intros Hn Hb. unfold gray_digit. rewrite base_digit_low by assumption. rewrite !base_digit_0.
  replace ((n * q + b) mod n) with b; [reflexivity|].
  rewrite N.add_comm, N.mul_comm, N.mod_add by exact Hn. rewrite N.mod_small by exact Hb. reflexivity.
Qed.

Lemma base_digit_high n v j : n <> 0 -> v < n ^ N.of_nat j -> base_digit n v j = 0.
Proof.
  intros Hn H. unfold base_digit. rewrite N.div_small by exact H. apply N.mod_0_l. exact Hn.
Qed.

(** * The decompositions compute the closed form *)

Definition base_digits (n : N) (k : nat) (v : N) : list N := map (base_digit n v) (seq 0 k).

Lemma base_digits_S n k v : n <> 0 -> base_digits n (S k) v = (v mod n) :: base_digits n k (v / n).
Proof.
  intros Hn. unfold base_digits. cbn [seq map]. rewrite base_digit_0. f_equal.
  rewrite <- seq_shift, map_map. apply map_ext. intros j.
  pose proof (N.div_mod v n Hn) as Hv. rewrite Hv at 1.
  apply base_digit_low; [exact Hn|]. apply N.mod_lt. exact Hn.
Qed.

Lemma base_loop_spec n : n <> 0 -> forall k v, base_loop n k v = Some (base_digits n k v).
Proof.
  intros Hn. induction k as [|k IH]; intros v; [reflexivity|].
  cbn [base_loop]. unfold checked_rem, checked_div.
  rewrite (proj2 (N.eqb_neq n 0) Hn). rewrite IH. rewrite base_digits_S by exact Hn. reflexivity.
Qed.

Lemma base_loop_ct_spec n : n <> 0 -> forall k v, base_loop_ct n k v = base_digits n k v.
Proof.
  intros Hn. induction k as [|k IH]; intros v; [reflexivity|].
  cbn [base_loop_ct]. rewrite IH, base_digits_S by exact Hn. reflexivity.
Qed.

Fixpoint gray_diffs (n prev : N) (rb : list N) : list N :=
  match rb with
  | [] => []
  | b :: r => ((b + (n - prev)) mod n) :: gray_diffs n b r
  end.

Lemma shift_digit n prev shift b : n <> 0 -> prev < n -> b < n ->
  (shift + prev) mod n = 0 -> (b + shift) mod n = (b + (n - prev)) mod n.
Proof.
  intros Hn Hp Hb Hs.
  apply N.mod_divide in Hs; [|exact Hn]. destruct Hs as [q Hq].
  destruct (N.eq_dec prev 0) as [->|Hp0].
  - replace (b + (n - 0)) with (b + 1 * n) by lia. rewrite N.mod_add by exact Hn.
    replace (b + shift) with (b + q * n) by lia. rewrite N.mod_add by exact Hn. reflexivity.
  - destruct (N.eq_dec q 0) as [->|Hq0]; [lia|].
    replace (b + shift) with (b + (n - prev) + (q - 1) * n).
    + rewrite N.mod_add by exact Hn. reflexivity.
    + assert (shift = q * n - prev) by lia.
      assert ((q - 1) * n + n = q * n) by nia. lia.
Qed.

Lemma shift_next n prev shift b : n <> 0 -> prev < n -> b < n ->
  (shift + prev) mod n = 0 ->
  (b + shift) mod n <= shift + n /\ (shift + n - (b + shift) mod n + b) mod n = 0.
Proof.
  intros Hn Hp Hb Hs. pose proof (N.mod_lt (b + shift) n Hn) as Hd. split; [lia|].
  pose proof (N.div_mod (b + shift) n Hn) as Hdm.
  set (d := (b + shift) mod n) in *. set (k := (b + shift) / n) in *.
  replace (shift + n - d + b) with ((k + 1) * n) by nia.
  apply N.mod_mul. exact Hn.
Qed.

Lemma gray_loop_spec n : 2 <= n -> forall rb prev shift acc,
  prev < n -> Forall (fun b => b < n) rb -> (shift + prev) mod n = 0 ->
  shift + n * N.of_nat (length rb) < u32_bound ->
  gray_loop n shift rb acc = Some (rev (gray_diffs n prev rb) ++ acc).
Proof.
  intros Hn. induction rb as [|b rb IH]; intros prev shift acc Hp Hall Hs Hbound; [reflexivity|].
  assert (Hn0 : n <> 0) by lia.
  inversion Hall as [|b' rb' Hb Hall' Heq]; subst b' rb'.
  cbn [length] in Hbound. rewrite Nat2N.inj_succ in Hbound.
  destruct (shift_next n prev shift b Hn0 Hp Hb Hs) as [Hle Hs'].
  cbn [gray_loop]. unfold checked_add, checked.
  assert (Hb1 : b + shift < u32_bound) by nia.
  assert (Hb2 : shift + n < u32_bound) by nia.
  rewrite (proj2 (N.ltb_lt _ _) Hb1). unfold checked_rem.
  rewrite (proj2 (N.eqb_neq n 0) Hn0).
  rewrite (proj2 (N.ltb_lt _ _) Hb2). unfold checked_sub.
  rewrite (proj2 (N.leb_le _ _) Hle).
  rewrite (IH b); [| exact Hb | exact Hall' | exact Hs' | nia].
  cbn [gray_diffs rev]. rewrite <- app_assoc. cbn [app].
  rewrite (shift_digit n prev shift b Hn0 Hp Hb Hs). reflexivity.
Qed.

Lemma gray_loop_ct_spec n : 2 <= n -> forall rb prev shift acc,
  prev < n -> Forall (fun b => b < n) rb -> (shift + prev) mod n = 0 ->
  shift + n * N.of_nat (length rb) < u64_bound ->
  gray_loop_ct n shift rb acc = rev (gray_diffs n prev rb) ++ acc.
Proof.
  intros Hn. induction rb as [|b rb IH]; intros prev shift acc Hp Hall Hs Hbound; [reflexivity|].
  assert (Hn0 : n <> 0) by lia.
  inversion Hall as [|b' rb' Hb Hall' Heq]; subst b' rb'.
  cbn [length] in Hbound. rewrite Nat2N.inj_succ in Hbound.
  destruct (shift_next n prev shift b Hn0 Hp Hb Hs) as [Hle Hs'].
  cbn [gray_loop_ct]. unfold saturating_add, saturating_sub.
  assert (Hb1 : b + shift < u64_bound) by nia.
  assert (Hb2 : shift + n < u64_bound) by nia.
  rewrite (proj2 (N.ltb_lt _ _) Hb1). rewrite (proj2 (N.ltb_lt _ _) Hb2).
  rewrite (IH b); [| exact Hb | exact Hall' | exact Hs' | nia].
  cbn [gray_diffs rev]. rewrite <- app_assoc. cbn [app].
  rewrite (shift_digit n prev shift b Hn0 Hp Hb Hs). reflexivity.
Qed.

Lemma gray_diffs_code n v : forall k,
  rev (gray_diffs n (base_digit n v k) (rev (base_digits n k v))) = gray_code n k v.
Proof.
  induction k as [|k IH]; [reflexivity|].
  unfold base_digits, gray_code in *. rewrite !seq_S, !map_app. cbn [map plus].
  rewrite rev_app_distr. cbn [rev app gray_diffs]. rewrite IH. reflexivity.
Qed.

Lemma base_digits_lt n k v : n <> 0 -> Forall (fun b => b < n) (base_digits n k v).
Proof.
  intros Hn. apply Forall_forall. intros x Hx. unfold base_digits in Hx.
  apply in_map_iff in Hx. destruct Hx as (j & <- & _). apply base_digit_lt. exact Hn.
Qed.

Lemma Forall_rev_ {A} (P : A -> Prop) l : Forall P l -> Forall P (rev l).
Proof. intros H. apply Forall_forall. intros x Hx. apply in_rev in Hx. rewrite Forall_forall in H. auto. Qed.

Lemma mul_le_pow n : 2 <= n -> forall m : nat, n * N.of_nat (S m) <= n ^ N.of_nat (S m).
Proof.
  intros Hn. induction m as [|m IH].
  - change (N.of_nat 1) with 1. rewrite N.pow_1_r. lia.
  - rewrite npow_S. rewrite (Nat2N.inj_succ (S m)).
    apply N.mul_le_mono_l.
    assert (2 * N.of_nat (S m) <= n * N.of_nat (S m)) by (apply N.mul_le_mono_r; exact Hn). lia.
Qed.

Lemma mul_lt_of_pow n m b : 2 <= n -> n ^ m < b -> m <> 0 -> n * m < b.
Proof.
  intros Hn Hp Hm. pose proof (mul_le_pow n Hn (pred (N.to_nat m))) as H.
  replace (N.of_nat (S (pred (N.to_nat m)))) with m in H by lia. lia.
Qed.

Lemma decompose_vartime_spec n m v :
  2 <= n -> m <> 0 -> n ^ m < u32_bound -> v < n ^ m ->
  decompose_vartime n m v = Some (gray_code n (N.to_nat m) v).
Proof.
  intros Hn Hm Hb Hv. unfold decompose_vartime.
  rewrite (proj2 (N.leb_gt n 1)) by lia. rewrite (proj2 (N.eqb_neq m 0) Hm). cbn [orb].
  assert (Hn0 : n <> 0) by lia. rewrite (base_loop_spec n Hn0).
  rewrite (gray_loop_spec n Hn _ 0 0).
  - rewrite app_nil_r. f_equal.
    rewrite <- (gray_diffs_code n v (N.to_nat m)). rewrite base_digit_high; [reflexivity|exact Hn0|].
    rewrite N2Nat.id. exact Hv.
  - lia.
  - apply Forall_rev_. apply base_digits_lt. exact Hn0.
  - apply N.mod_0_l. exact Hn0.
  - rewrite rev_length. unfold base_digits. rewrite map_length, seq_length, N2Nat.id.
    pose proof (mul_lt_of_pow n m u32_bound Hn Hb Hm). lia.
Qed.

Lemma all_u32_id l : Forall (fun b => b < u32_bound) l -> all_u32 l = Some l.
Proof.
  induction 1 as [|x l Hx Hl IH]; [reflexivity|].
  cbn [all_u32]. unfold checked. rewrite (proj2 (N.ltb_lt _ _) Hx), IH. reflexivity.
Qed.

Lemma gray_code_lt n m v : n <> 0 -> Forall (fun d => d < n) (gray_code n m v).
Proof.
  intros Hn. apply Forall_forall. intros x Hx. unfold gray_code in Hx.
  apply in_map_iff in Hx. destruct Hx as (j & <- & _). apply gray_digit_lt. exact Hn.
Qed.

Lemma n_le_pow n m : 2 <= n -> m <> 0 -> n <= n ^ m.
Proof.
  intros Hn Hm. rewrite <- (N.pow_1_r n) at 1. apply N.pow_le_mono_r; lia.
Qed.

Lemma decompose_spec n m v :
  2 <= n -> m <> 0 -> n ^ m < u32_bound -> v < n ^ m ->
  decompose n m v = Some (gray_code n (N.to_nat m) v).
Proof.
  intros Hn Hm Hb Hv. unfold decompose.
  rewrite (proj2 (N.leb_gt n 1)) by lia. rewrite (proj2 (N.eqb_neq m 0) Hm). cbn [orb].
  assert (Hn0 : n <> 0) by lia. rewrite (base_loop_ct_spec n Hn0).
  rewrite (gray_loop_ct_spec n Hn _ 0 0).
  - rewrite app_nil_r.
    replace (rev (gray_diffs n 0 (rev (base_digits n (N.to_nat m) v)))) with (gray_code n (N.to_nat m) v).
    + apply all_u32_id. pose proof (n_le_pow n m Hn Hm).
      eapply Forall_impl; [|apply gray_code_lt; exact Hn0]. cbn beta. intros; lia.
    + rewrite <- (gray_diffs_code n v (N.to_nat m)). rewrite base_digit_high; [reflexivity|exact Hn0|].
      rewrite N2Nat.id. exact Hv.
  - lia.
  - apply Forall_rev_. apply base_digits_lt. exact Hn0.
  - apply N.mod_0_l. exact Hn0.
  - rewrite rev_length. unfold base_digits. rewrite map_length, seq_length, N2Nat.id.
    pose proof (mul_lt_of_pow n m u32_bound Hn Hb Hm). unfold u32_bound, u64_bound in *. lia.
Qed.

(** * Bijectivity *)

Lemma sub_mod_cancel n b b' c : n <> 0 -> b < n -> b' < n -> c < n ->
  (b + (n - c)) mod n = (b' + (n - c)) mod n -> b = b'.
Proof.
  intros Hn Hb Hb' Hc H.
  assert (Hd : forall x, x < n -> (x + (n - c)) mod n = if c <=? x then x - c else x + (n - c)).
  { intros x Hx. destruct (N.leb_spec c x) as [Hle|Hgt].
    - replace (x + (n - c)) with ((x - c) + 1 * n) by lia. rewrite N.mod_add by exact Hn.
      apply N.mod_small. lia.
    - apply N.mod_small. lia. }
  rewrite !Hd in H by assumption.
  destruct (N.leb_spec c b); destruct (N.leb_spec c b'); lia.
Qed.

Lemma gray_code_inj n : 2 <= n -> forall m v v',
  v < n ^ N.of_nat m -> v' < n ^ N.of_nat m -> gray_code n m v = gray_code n m v' -> v = v'.
Proof.
  intros Hn. assert (Hn0 : n <> 0) by lia. induction m as [|m IH]; intros v v' Hv Hv' H.
  - simpl in *. lia.
  - rewrite npow_S in Hv, Hv'.
    pose proof (N.div_mod v n Hn0) as E1. pose proof (N.div_mod v' n Hn0) as E2.
    pose proof (N.mod_lt v n Hn0) as L1. pose proof (N.mod_lt v' n Hn0) as L2.
    set (q := v / n) in *. set (b := v mod n) in *. set (q' := v' / n) in *. set (b' := v' mod n) in *.
    clearbody q b q' b'. subst v v'.
    unfold gray_code in H. cbn [seq map] in H.
    rewrite !gray_digit_low0 in H by assumption.
    injection H as H0 H1.
    assert (Hq : q = q').
    { apply IH; [nia|nia|]. unfold gray_code. rewrite <- !seq_shift, !map_map in H1.
      erewrite map_ext; [|intros j; symmetry; apply (gray_digit_low n q b j); assumption].
      rewrite H1. apply map_ext. intros j. apply gray_digit_low; assumption. }
    subst q'. f_equal. apply (sub_mod_cancel n b b' (q mod n)); try assumption. apply N.mod_lt. exact Hn0.
Qed.

Lemma gray_code_surj n : 2 <= n -> forall m ds,
  length ds = m -> Forall (fun d => d < n) ds -> exists v, v < n ^ N.of_nat m /\ gray_code n m v = ds.
Proof.
  intros Hn. assert (Hn0 : n <> 0) by lia. induction m as [|m IH]; intros ds Hl Hd.
  - destruct ds; [|discriminate]. exists 0. split; [simpl; lia|reflexivity].
  - destruct ds as [|d ds]; [discriminate|]. inversion Hd as [|d' ds' Hd0 Hds Heq]; subst d' ds'.
    destruct (IH ds) as (q & Hq & Hcode); [simpl in Hl; lia|exact Hds|].
    set (b := (d + q mod n) mod n).
    assert (Hb : b < n) by (apply N.mod_lt; exact Hn0).
    exists (n * q + b). split; [rewrite npow_S; nia|].
    unfold gray_code. cbn [seq map]. rewrite gray_digit_low0 by assumption. f_equal.
    + unfold b. pose proof (N.mod_lt q n Hn0) as Hm.
      rewrite N.add_mod_idemp_l by exact Hn0.
      replace (d + q mod n + (n - q mod n)) with (d + 1 * n) by lia.
      rewrite N.mod_add by exact Hn0. apply N.mod_small. exact Hd0.
    + rewrite <- seq_shift, map_map. rewrite <- Hcode. unfold gray_code.
      apply map_ext. intros j. apply gray_digit_low; assumption.
Qed.

(** * One digit changes at a time *)

Lemma gray_step n : 2 <= n -> forall m v, 0 < v -> v < n ^ N.of_nat m ->
  exists idx, (idx < m)%nat /\
    gray_digit n v idx = (gray_digit n (v - 1) idx + 1) mod n /\
    (forall j, j <> idx -> gray_digit n v j = gray_digit n (v - 1) j).
Proof.
  intros Hn. assert (Hn0 : n <> 0) by lia. induction m as [|m IH]; intros v Hv0 Hv.
  - simpl in Hv. lia.
  - rewrite npow_S in Hv.
    pose proof (N.div_mod v n Hn0) as E1. pose proof (N.mod_lt v n Hn0) as L1.
    set (q := v / n) in *. set (b := v mod n) in *. clearbody q b. subst v.
    destruct (N.eq_dec b 0) as [->|Hb0].
    + assert (Hq : 0 < q) by nia.
      destruct (IH q Hq ltac:(nia)) as (idx & Hi & Hd & Hj).
      exists (S idx).
      replace (n * q + 0 - 1) with (n * (q - 1) + (n - 1)) by nia.
      rewrite !gray_digit_low by lia. split; [lia|]. split; [exact Hd|].
      intros j Hjne. destruct j as [|j].
      * rewrite !gray_digit_low0 by lia.
        pose proof (N.div_mod (q - 1) n Hn0) as E2. pose proof (N.mod_lt (q - 1) n Hn0) as L2.
        set (k := (q - 1) / n) in *. set (c := (q - 1) mod n) in *. clearbody k c.
        assert (Hqm : q mod n = (c + 1) mod n).
        { replace q with ((c + 1) + k * n) by nia. apply N.mod_add. exact Hn0. }
        rewrite Hqm. destruct (N.eq_dec (c + 1) n) as [Hc|Hc].
        -- rewrite Hc, N.mod_same by exact Hn0. replace c with (n - 1) by lia.
           replace (n - 1 + (n - (n - 1))) with (0 + 1 * n) by lia.
           replace (0 + (n - 0)) with (0 + 1 * n) by lia. reflexivity.
        -- rewrite (N.mod_small (c + 1) n) by lia.
           replace (n - 1 + (n - c)) with ((0 + (n - (c + 1))) + 1 * n) by lia.
           rewrite N.mod_add by exact Hn0. reflexivity.
      * rewrite !gray_digit_low by lia. apply Hj. lia.
    + exists 0%nat. replace (n * q + b - 1) with (n * q + (b - 1)) by lia.
      split; [lia|]. split.
      * rewrite !gray_digit_low0 by lia. rewrite N.add_mod_idemp_l by exact Hn0.
        f_equal. lia.
      * intros j Hjne. destruct j as [|j]; [congruence|]. rewrite !gray_digit_low by lia. reflexivity.
Qed.

Lemma first_diff_at : forall idx (a b : list N),
  length a = length b -> (idx < length a)%nat ->
  (forall j, (j < idx)%nat -> nth_error a j = nth_error b j) -> nth_error a idx <> nth_error b idx ->
  first_diff a b = Some idx.
Proof.
  induction idx as [|idx IH]; intros a b Hl Hi Hj Hne.
  - destruct a as [|x a]; [simpl in Hi; lia|]. destruct b as [|y b]; [discriminate|].
    cbn [first_diff]. simpl in Hne. destruct (N.eqb_spec x y) as [->|]; [congruence|reflexivity].
  - destruct a as [|x a]; [simpl in Hi; lia|]. destruct b as [|y b]; [discriminate|].
    cbn [first_diff]. pose proof (Hj 0%nat ltac:(lia)) as H0. simpl in H0. injection H0 as ->.
    rewrite N.eqb_refl. rewrite (IH a b); [reflexivity|simpl in *; lia|simpl in *; lia| |exact Hne].
    intros j Hjl. apply (Hj (S j)). lia.
Qed.

Lemma gray_zero n m : n <> 0 -> gray_code n m 0 = repeat 0 m.
Proof.
  intros Hn. unfold gray_code.
  rewrite (map_ext _ (fun _ => 0)).
  - induction m as [|m IH]; [reflexivity|]. rewrite seq_S, map_app, IH. cbn [map].
    change [0] with (repeat 0 1). rewrite <- repeat_app. f_equal. lia.
  - intros j. unfold gray_digit, base_digit.
    rewrite !N.div_0_l by (apply npow_pos; exact Hn). rewrite !N.mod_0_l by exact Hn.
    replace (0 + (n - 0)) with (1 * n) by lia. apply N.mod_mul. exact Hn.
Qed.

(** * The iterator *)

(** The state after [i >= 1] items. *)
Definition gray_at (n m i : N) : gray_iter := mk_gray n m i (gray_code n (N.to_nat m) (i - 1)).

Lemma gray_new_spec n m : 2 <= n -> m <> 0 -> n ^ m < u32_bound ->
  gray_new n m = Some (mk_gray n m 0 (repeat 0 (N.to_nat m))).
Proof.
  intros Hn Hm Hb. unfold gray_new.
  rewrite (proj2 (N.leb_gt n 1)) by lia. rewrite (proj2 (N.eqb_neq m 0) Hm). cbn [orb].
  unfold checked_pow, checked. rewrite (proj2 (N.ltb_lt _ _) Hb). reflexivity.
Qed.

Lemma gray_next_first n m : n <> 0 ->
  gray_next (mk_gray n m 0 (repeat 0 (N.to_nat m))) = (Some (0%nat, 0, 0), gray_at n m 1).
Proof.
  intros Hn. unfold gray_next. cbn [g_i g_N g_M g_last]. rewrite N.eqb_refl. unfold gray_at.
  rewrite gray_zero by exact Hn. reflexivity.
Qed.

Lemma gray_next_done n m : 2 <= n -> m <> 0 -> n ^ m < u32_bound ->
  gray_next (gray_at n m (n ^ m)) = (None, gray_at n m (n ^ m)).
Proof.
  intros Hn Hm Hb. unfold gray_next, gray_at. cbn [g_i g_N g_M g_last].
  rewrite (proj2 (N.eqb_neq (n ^ m) 0)) by (apply npow_pos; lia).
  unfold checked_pow, checked. rewrite (proj2 (N.ltb_lt _ _) Hb). rewrite N.eqb_refl. reflexivity.
Qed.

Lemma gray_next_step n m i : 2 <= n -> m <> 0 -> n ^ m < u32_bound -> 0 < i -> i < n ^ m ->
  exists idx, (idx < N.to_nat m)%nat /\
    gray_next (gray_at n m i) =
      (Some (idx, gray_digit n (i - 1) idx, gray_digit n i idx), gray_at n m (i + 1)) /\
    gray_digit n i idx = (gray_digit n (i - 1) idx + 1) mod n /\
    (forall j, j <> idx -> gray_digit n i j = gray_digit n (i - 1) j).
Proof.
  intros Hn Hm Hb Hi0 Hi. assert (Hn0 : n <> 0) by lia.
  destruct (gray_step n Hn (N.to_nat m) i Hi0) as (idx & Hidx & Hd & Hj); [rewrite N2Nat.id; exact Hi|].
  exists idx. split; [exact Hidx|]. split; [|split; assumption].
  unfold gray_next, gray_at. cbn [g_i g_N g_M g_last].
  rewrite (proj2 (N.eqb_neq i 0)) by lia.
  unfold checked_pow, checked. rewrite (proj2 (N.ltb_lt _ _) Hb).
  rewrite (proj2 (N.eqb_neq i (n ^ m))) by lia.
  rewrite decompose_vartime_spec by assumption.
  rewrite (first_diff_at idx).
  - rewrite !gray_code_nth by exact Hidx.
    unfold checked_add, checked. rewrite (proj2 (N.ltb_lt (i + 1) _)) by lia.
    replace (i + 1 - 1) with i by lia. reflexivity.
  - rewrite !gray_code_length. reflexivity.
  - rewrite gray_code_length. exact Hidx.
  - intros j Hjl. rewrite !gray_code_nth by lia. rewrite Hj by lia. reflexivity.
  - rewrite !gray_code_nth by exact Hidx. intros Heq. injection Heq as Heq. rewrite Hd in Heq.
    pose proof (gray_digit_lt n (i - 1) idx Hn0) as Hlt. set (d := gray_digit n (i - 1) idx) in *.
    destruct (N.eq_dec (d + 1) n) as [Hdn|Hdn].
    + rewrite Hdn, N.mod_same in Heq by exact Hn0. lia.
    + rewrite N.mod_small in Heq by lia. lia.
Qed.
