(** Lemmas about positions in rings and batches. *)
From Verif Require Import Base Spec SpecPositions.
From Coq Require Import Lia.

Lemma nth_padded {A} (M : list A) (last : A) (N l : nat) (x : A) : (1 <= length M <= N)%nat -> (l < N)%nat ->
  nth_error M (length M - 1) = Some last ->
  nth_error (M ++ repeat last (N - length M)) l = nth_error M (signing_position M l).
Proof.
  intros HM Hl Hlast. unfold signing_position. destruct (Nat.lt_ge_cases l (length M)) as [H|H].
  - rewrite nth_error_app1 by exact H. f_equal. lia.
  - rewrite nth_error_app2 by exact H. replace (Nat.min l (length M - 1)) with (length M - 1)%nat by lia. rewrite Hlast.
    apply nth_error_repeat. lia.
Qed.
Lemma in_other_positions l n k : In k (other_positions l n) <-> (k < n)%nat /\ ~ In k l.
Proof.
  unfold other_positions. rewrite filter_In, in_seq, Bool.negb_true_iff. split.
  - intros [H1 H2]. split; [lia|]. intros Hin. assert (Hx : existsb (Nat.eqb k) l = true).
    { apply existsb_exists. exists k. split; [exact Hin|apply Nat.eqb_refl]. }
    congruence.
  - intros [H1 H2]. split; [lia|]. destruct (existsb (Nat.eqb k) l) eqn:Ex; [|reflexivity].
    apply existsb_exists in Ex. destruct Ex as (x & Hx & He). apply Nat.eqb_eq in He. subst x. contradiction.
Qed.
Lemma pick_length {A} ks (xs : list A) : (forall k, In k ks -> (k < length xs)%nat) -> length (pick ks xs) = length ks.
Proof.
  induction ks as [|k ks IH]; intros H; [reflexivity|]. unfold pick. cbn [flat_map]. rewrite app_length. fold (pick ks xs).
  rewrite IH by (intros k' Hk; apply H; right; exact Hk).
  destruct (nth_error xs k) eqn:E1; [reflexivity|]. apply nth_error_None in E1. specialize (H k (or_introl eq_refl)). lia.
Qed.
Lemma pick_nth {A} ks (xs : list A) i : (forall k, In k ks -> (k < length xs)%nat) ->
  nth_error (pick ks xs) i = match nth_error ks i with Some k => nth_error xs k | None => None end.
Proof.
  revert i. induction ks as [|k ks IH]; intros i H; [destruct i; reflexivity|]. unfold pick. cbn [flat_map]. fold (pick ks xs).
  destruct (nth_error xs k) as [x|] eqn:E1.
  2: { apply nth_error_None in E1. specialize (H k (or_introl eq_refl)). lia. }
  destruct i as [|i]; cbn [nth_error app]; [symmetry; exact E1|]. apply IH. intros k' Hk. apply H. right. exact Hk.
Qed.
Lemma pick_in {A} ks (xs : list A) x : In x (pick ks xs) -> In x xs.
Proof. unfold pick. intros H. apply in_flat_map in H. destruct H as (k & _ & H). destruct (nth_error xs k) eqn:E1; [|destruct H]. destruct H as [<-|[]]. exact (nth_error_In _ _ E1). Qed.
Lemma remove_at_length {A} i (xs : list A) : (i < length xs)%nat -> length (remove_at i xs) = (length xs - 1)%nat.
Proof. intros H. unfold remove_at. rewrite app_length, firstn_length, skipn_length. lia. Qed.
Lemma pick_app {A} a b (xs : list A) : pick (a ++ b) xs = pick a xs ++ pick b xs.
Proof. apply flat_map_app. Qed.
Lemma pick_remove {A} i ks (xs : list A) : (forall k, In k ks -> (k < length xs)%nat) -> (i < length ks)%nat ->
  remove_at i (pick ks xs) = pick (remove_at i ks) xs.
Proof.
  intros Hk Hi. rewrite <- (firstn_skipn i ks) at 1. assert (H0 : length (firstn i ks) = i) by (rewrite firstn_length; lia).
  assert (Hl : length (pick (firstn i ks) xs) = i).
  { rewrite pick_length; [exact H0|]. intros k Hin. apply Hk. rewrite <- (firstn_skipn i ks). apply in_or_app. left. exact Hin. }
  destruct (skipn i ks) as [|k rest] eqn:Es; [apply (f_equal (@length nat)) in Es; rewrite skipn_length in Es; cbn [length] in Es; lia|].
  assert (Hk1 : In k ks) by (rewrite <- (firstn_skipn i ks), Es; apply in_or_app; right; left; reflexivity).
  assert (Hrest : skipn (S i) ks = rest).
  { rewrite <- (firstn_skipn i ks), Es, skipn_app, H0. rewrite skipn_all2 by lia. replace (S i - i)%nat with 1%nat by lia. reflexivity. }
  unfold remove_at. rewrite Hrest, !pick_app. f_equal.
  - rewrite firstn_app, Hl, firstn_all2 by lia. replace (i - i)%nat with 0%nat by lia. apply app_nil_r.
  - rewrite skipn_app, Hl, skipn_all2 by lia. replace (S i - i)%nat with 1%nat by lia. unfold pick at 1. cbn [flat_map].
    destruct (nth_error xs k) eqn:E1; [reflexivity|]. apply nth_error_None in E1. specialize (Hk k Hk1). lia.
Qed.
Lemma pick_seq {A} (xs : list A) : pick (seq 0 (length xs)) xs = xs.
Proof.
  unfold pick.
  assert (H : forall k (ys : list A), (forall i, nth_error ys i = nth_error xs (k + i)) ->
    flat_map (fun k => match nth_error xs k with Some x => [x] | None => [] end) (seq k (length ys)) = ys).
  { intros k ys. revert k. induction ys as [|y ys IH]; intros k H; [reflexivity|]. cbn [length seq flat_map].
    pose proof (H 0%nat) as H0. cbn [nth_error] in H0. rewrite Nat.add_0_r in H0. rewrite <- H0. cbn [app]. f_equal. apply IH.
    intros i. specialize (H (S i)). cbn [nth_error] in H. rewrite H. f_equal. lia. }
  apply H. intros i. reflexivity.
Qed.
Lemma pick_sub {A} a b ks (xs : list A) : (forall k, In k ks -> (k < length xs)%nat) -> (a <= b <= length ks)%nat ->
  sub (pick ks xs) a b = pick (sub ks a b) xs.
Proof.
  intros Hk Hab. unfold sub. rewrite <- (firstn_skipn a ks) at 1. rewrite pick_app.
  assert (H0 : length (firstn a ks) = a) by (rewrite firstn_length; lia).
  assert (Hl : length (pick (firstn a ks) xs) = a).
  { rewrite pick_length; [exact H0|]. intros k Hin. apply Hk. rewrite <- (firstn_skipn a ks). apply in_or_app. left. exact Hin. }
  rewrite skipn_app, Hl, skipn_all2 by lia. replace (a - a)%nat with 0%nat by lia. cbn [app skipn].
  assert (Hks : forall k, In k (skipn a ks) -> (k < length xs)%nat).
  { intros k Hin. apply Hk. rewrite <- (firstn_skipn a ks). apply in_or_app. right. exact Hin. }
  revert Hks. generalize (skipn a ks). generalize (b - a)%nat. clear. intros n ks. revert n. induction ks as [|k ks IH]; intros [|n] H; try reflexivity.
  unfold pick. cbn [flat_map firstn]. pose proof (H k (or_introl eq_refl)) as Hx. apply nth_error_Some in Hx.
  destruct (nth_error xs k); [|congruence]. cbn [app firstn flat_map]. f_equal. apply IH. intros k' Hin. apply H. right. exact Hin.
Qed.
Lemma sorted_app {A} (R : A -> A -> Prop) l1 l2 : StronglySorted R (l1 ++ l2) <->
  StronglySorted R l1 /\ StronglySorted R l2 /\ (forall x y, In x l1 -> In y l2 -> R x y).
Proof.
  induction l1 as [|a l1 IH]; cbn [app].
  - split; [intros H; repeat split; [constructor|exact H|intros x y []]|intros (_ & H & _); exact H].
  - split.
    + intros H. apply StronglySorted_inv in H. destruct H as [H Ha]. apply IH in H. destruct H as (H1 & H2 & H3).
      rewrite Forall_forall in Ha. split; [|split; [exact H2|]].
      * constructor; [exact H1|]. apply Forall_forall. intros x Hx. apply Ha. apply in_or_app. left. exact Hx.
      * intros x y [<-|Hx] Hy; [apply Ha; apply in_or_app; right; exact Hy|exact (H3 x y Hx Hy)].
    + intros (H1 & H2 & H3). apply StronglySorted_inv in H1. destruct H1 as [H1 Ha]. constructor.
      * apply IH. split; [exact H1|]. split; [exact H2|]. intros x y Hx Hy. apply H3; [right; exact Hx|exact Hy].
      * rewrite Forall_forall in *. intros x Hx. apply in_app_or in Hx. destruct Hx as [Hx|Hx]; [exact (Ha x Hx)|apply H3; [left; reflexivity|exact Hx]].
Qed.
Lemma split_at {A} i (ks : list A) k : nth_error ks i = Some k -> ks = firstn i ks ++ k :: skipn (S i) ks /\ length (firstn i ks) = i.
Proof.
  intros H. assert (Hi : (i < length ks)%nat) by (apply nth_error_Some; congruence). split; [|rewrite firstn_length; lia].
  rewrite <- (firstn_skipn i ks) at 1. f_equal. revert ks H Hi. induction i as [|i IH]; intros [|a ks] H Hi; try discriminate H.
  - injection H as ->. reflexivity.
  - apply IH; [exact H|cbn [length] in Hi; lia].
Qed.
Lemma remove_at_in i (ks : list nat) k : StronglySorted lt ks -> nth_error ks i = Some k ->
  StronglySorted lt (remove_at i ks) /\ forall x, In x (remove_at i ks) <-> In x ks /\ x <> k.
Proof.
  intros Hs Hi. destruct (split_at i ks k Hi) as [He _]. pose proof Hs as Hs'. rewrite He in Hs'. apply sorted_app in Hs'. destruct Hs' as (H1 & H2 & H3).
  apply StronglySorted_inv in H2. destruct H2 as [H2 Hk]. rewrite Forall_forall in Hk. unfold remove_at. split.
  - apply sorted_app. split; [exact H1|]. split; [exact H2|]. intros x y Hx Hy. apply H3; [exact Hx|right; exact Hy].
  - intros x. rewrite He at 3. rewrite !in_app_iff. cbn [In]. split.
    + intros [Hx|Hx]; [split; [left; exact Hx|]|split; [right; right; exact Hx|]].
      * specialize (H3 x k Hx (or_introl eq_refl)). lia.
      * specialize (Hk x Hx). lia.
    + intros [[Hx|[Hx|Hx]] Hne]; [left; exact Hx|congruence|right; exact Hx].
Qed.
Lemma sorted_seq a n : StronglySorted lt (seq a n).
Proof.
  revert a. induction n as [|n IH]; intros a; [constructor|]. cbn [seq]. constructor; [apply IH|].
  apply Forall_forall. intros x Hx. apply in_seq in Hx. lia.
Qed.
Lemma sorted_length (ks : list nat) n : StronglySorted lt ks -> (forall k, In k ks -> (k < n)%nat) -> (length ks <= n)%nat.
Proof.
  intros Hs Hk. rewrite <- (seq_length n 0). apply NoDup_incl_length.
  - clear Hk. induction Hs as [|k ks Hs IH Hf]; constructor; [|exact IH]. intros Hin. rewrite Forall_forall in Hf. specialize (Hf k Hin). lia.
  - intros k Hin. apply in_seq. specialize (Hk k Hin). lia.
Qed.
Lemma sub_sorted (ks : list nat) a b : StronglySorted lt ks -> StronglySorted lt (sub ks a b).
Proof.
  intros Hs. unfold sub. rewrite <- (firstn_skipn a ks) in Hs. apply sorted_app in Hs. destruct Hs as (_ & Hs & _).
  rewrite <- (firstn_skipn (b - a) (skipn a ks)) in Hs. apply sorted_app in Hs. exact (proj1 Hs).
Qed.
