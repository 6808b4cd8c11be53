(** Running the Gray iterator to the end. *)
From Verif Require Export SpecGray.
From Verif Require Import GrayFacts.
Local Open Scope N_scope.

Lemma put_length : forall ds i d, length (put ds i d) = length ds.
Proof. induction ds as [|x ds IH]; intros [|i] d; simpl; try reflexivity. f_equal; apply IH. Qed.

Lemma put_nth : forall ds i d j, (i < length ds)%nat ->
  nth_error (put ds i d) j = if Nat.eqb j i then Some d else nth_error ds j.
Proof.
  induction ds as [|x ds IH]; intros [|i] d [|j] H; simpl in *; try lia; try reflexivity.
  apply IH. lia.
Qed.

Lemma nth_error_ext {A} (a b : list A) : (forall j, nth_error a j = nth_error b j) -> a = b.
Proof.
  revert b; induction a as [|x a IH]; intros [|y b] H; try reflexivity.
  - specialize (H 0%nat); discriminate.
  - specialize (H 0%nat); discriminate.
  - pose proof (H 0%nat) as H0. injection H0 as <-. f_equal. apply IH. intros j. exact (H (S j)).
Qed.

Lemma gray_code_put n m v v' idx : (idx < m)%nat ->
  (forall j, j <> idx -> gray_digit n v j = gray_digit n v' j) ->
  put (gray_code n m v') idx (gray_digit n v idx) = gray_code n m v.
Proof.
  intros Hi Hj. apply nth_error_ext. intros j.
  rewrite put_nth by (rewrite gray_code_length; exact Hi).
  destruct (Nat.eqb_spec j idx) as [->|Hne].
  - rewrite gray_code_nth by exact Hi. reflexivity.
  - destruct (Nat.lt_ge_cases j m) as [Hlt|Hge].
    + rewrite !gray_code_nth by exact Hlt. rewrite Hj by exact Hne. reflexivity.
    + transitivity (@None N); [|symmetry]; apply nth_error_None; rewrite gray_code_length; exact Hge.
Qed.

Lemma run_from n m : 2 <= n -> m <> 0 -> n ^ m < u32_bound -> forall k i, (0 < i)%N -> i + N.of_nat k = n ^ m ->
  exists items, yields (gray_at n m i) items (gray_at n m (n ^ m)) /\ length items = k /\
    forall q x, nth_error items q = Some x ->
      item_spec n m (i + N.of_nat q) x /\
      apply_items (gray_code n (N.to_nat m) (i - 1)) (firstn (S q) items) = gray_code n (N.to_nat m) (i + N.of_nat q).
Proof.
  intros Hn Hm Hb. induction k as [|k IH]; intros i Hi Hk.
  - exists []. replace (n ^ m) with i by lia. split; [constructor|]. split; [reflexivity|].
    intros [|q] x H; discriminate.
  - destruct (gray_next_step n m i Hn Hm Hb Hi ltac:(lia)) as (idx & H1 & H2 & H3 & H4).
    destruct (IH (i + 1) ltac:(lia) ltac:(lia)) as (items & Hy & Hl & Hs).
    eexists (_ :: items). split; [econstructor; [exact H2|exact Hy]|]. split; [simpl; rewrite Hl; reflexivity|].
    assert (Hput : put (gray_code n (N.to_nat m) (i - 1)) idx (gray_digit n i idx) = gray_code n (N.to_nat m) i)
      by (apply gray_code_put; assumption).
    intros [|q] x Hx.
    + injection Hx as <-. replace (i + N.of_nat 0) with i by lia. split.
      * repeat split; assumption.
      * exact Hput.
    + cbn [nth_error] in Hx. destruct (Hs q x Hx) as [Ha Hb']. replace (i + N.of_nat (S q)) with (i + 1 + N.of_nat q) by lia.
      split; [exact Ha|]. rewrite firstn_cons. unfold apply_items in *. cbn [fold_left fst snd].
      rewrite Hput. replace (i + 1 - 1) with i in Hb' by lia. exact Hb'.
Qed.

Lemma run_all n m : 2 <= n -> m <> 0 -> n ^ m < u32_bound ->
  exists it0 items it1, gray_new n m = Some it0 /\ yields it0 items it1 /\ gray_next it1 = (None, it1) /\
    N.of_nat (length items) = n ^ m /\
    nth_error items 0 = Some (0%nat, 0, 0) /\
    (forall k x, nth_error items k = Some x -> (0 < k)%nat -> item_spec n m (N.of_nat k) x) /\
    (forall k, (k < length items)%nat ->
       apply_items (repeat 0 (N.to_nat m)) (firstn (S k) items) = gray_code n (N.to_nat m) (N.of_nat k)).
Proof.
  intros Hn Hm Hb. assert (Hn0 : n <> 0) by lia. pose proof (npow_pos n m Hn0) as Hp.
  destruct (run_from n m Hn Hm Hb (N.to_nat (n ^ m - 1)) 1 ltac:(lia) ltac:(lia)) as (items & Hy & Hl & Hs).
  exists (mk_gray n m 0 (repeat 0 (N.to_nat m))), ((0%nat, 0, 0) :: items), (gray_at n m (n ^ m)).
  split; [apply gray_new_spec; assumption|].
  split; [econstructor; [apply gray_next_first; exact Hn0|exact Hy]|].
  split; [apply gray_next_done; assumption|].
  split; [simpl; lia|]. split; [reflexivity|].
  assert (Hz : put (repeat 0 (N.to_nat m)) 0 0 = repeat 0 (N.to_nat m)) by (destruct (N.to_nat m); reflexivity).
  assert (H0 : gray_code n (N.to_nat m) (1 - 1) = repeat 0 (N.to_nat m)) by (apply gray_zero; exact Hn0).
  split.
  - intros [|k] x Hx Hk; [lia|]. cbn [nth_error] in Hx. destruct (Hs k x Hx) as [Ha _].
    replace (N.of_nat (S k)) with (1 + N.of_nat k) by lia. exact Ha.
  - intros [|k] Hk.
    + unfold apply_items. cbn [firstn fold_left fst snd]. rewrite Hz. symmetry. exact H0.
    + cbn [length] in Hk. destruct (nth_error items k) as [x|] eqn:Ex.
      2:{ apply nth_error_None in Ex. lia. }
      destruct (Hs k x Ex) as [_ Hb']. rewrite firstn_cons. unfold apply_items in *. cbn [fold_left fst snd].
      rewrite Hz, <- H0. replace (N.of_nat (S k)) with (1 + N.of_nat k) by lia. exact Hb'.
Qed.
