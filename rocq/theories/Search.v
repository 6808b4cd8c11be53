(** The binary search of the single-blame verifiers, on an abstract check of sub-batches. *)
From Verif Require Export Spec Core.

Fixpoint search (search_fuel : nat) (check : nat -> nat -> outcome proof_error unit) (left right : nat) : outcome proof_error unit :=
  if (left <? right)%nat then
    match search_fuel with
    | O => OutOfFuel
    | S search_fuel' =>
        let average := (left + (right - left) / 2)%nat in
        let mid := if ((right - left) mod 2 =? 0)%nat then average else (average + 1)%nat in
        match check left mid with
        | Panic => Panic
        | OutOfFuel => OutOfFuel
        | Err _ =>
            match mid with
            | O => Err (FailedBatchVerificationWithSingleBlame None)
            | S left_check =>
                if (left =? left_check)%nat then Err (FailedBatchVerificationWithSingleBlame (Some left))
                else search search_fuel' check left mid
            end
        | Ok _ =>
            if (right =? mid + 1)%nat then
              match right with
              | O => Err (FailedBatchVerificationWithSingleBlame None)
              | S right_result => Err (FailedBatchVerificationWithSingleBlame (Some right_result))
              end
            else search search_fuel' check mid right
        end
    end
  else Err (FailedBatchVerificationWithSingleBlame None).

Lemma half_up d : (1 <= d)%nat ->
  (if (d mod 2 =? 0)%nat then d / 2 else d / 2 + 1)%nat = ((d + 1) / 2)%nat.
Proof.
  intros Hd. pose proof (Nat.div_mod d 2 ltac:(lia)) as H. pose proof (Nat.mod_upper_bound d 2 ltac:(lia)).
  pose proof (Nat.div_mod (d + 1) 2 ltac:(lia)) as H'. pose proof (Nat.mod_upper_bound (d + 1) 2 ltac:(lia)).
  destruct (Nat.eqb_spec (d mod 2) 0) as [He|He]; lia.
Qed.

Lemma search_mid left right : (left < right)%nat ->
  (if ((right - left) mod 2 =? 0)%nat then left + (right - left) / 2 else left + (right - left) / 2 + 1)%nat
  = (left + (right - left + 1) / 2)%nat.
Proof.
  intros H. rewrite <- (half_up (right - left)) by lia. destruct (_ =? _)%nat; lia.
Qed.

Definition half (d : nat) : nat := ((d + 1) / 2)%nat.

Lemma half_bounds d : (2 <= d)%nat -> (1 <= half d < d)%nat /\ (3 <= d -> 2 <= half d)%nat /\ (d <= 2 * half d)%nat /\ (2 * half d <= d + 1)%nat.
Proof.
  intros Hd. unfold half. pose proof (Nat.div_mod (d + 1) 2 ltac:(lia)) as H. pose proof (Nat.mod_upper_bound (d + 1) 2 ltac:(lia)).
  repeat split; lia.
Qed.

Lemma search_S fuel check left right : (left < right)%nat ->
  search (S fuel) check left right =
  let mid := (left + half (right - left))%nat in
  match check left mid with
  | Panic => Panic
  | OutOfFuel => OutOfFuel
  | Err _ =>
      match mid with
      | O => Err (FailedBatchVerificationWithSingleBlame None)
      | S left_check =>
          if (left =? left_check)%nat then Err (FailedBatchVerificationWithSingleBlame (Some left))
          else search fuel check left mid
      end
  | Ok _ =>
      if (right =? mid + 1)%nat then
        match right with
        | O => Err (FailedBatchVerificationWithSingleBlame None)
        | S right_result => Err (FailedBatchVerificationWithSingleBlame (Some right_result))
        end
      else search fuel check mid right
  end.
Proof.
  intros H. cbn [search]. rewrite (proj2 (Nat.ltb_lt _ _) H). rewrite (search_mid left right H). reflexivity.
Qed.

Lemma half_1 : half 1 = 1%nat. Proof. reflexivity. Qed.
Lemma half_2 : half 2 = 1%nat. Proof. reflexivity. Qed.

(** At most [log2_up] of the size many iterations: more fuel does not change the result. *)
Lemma search_fuel_enough check : forall k left right, (2 <= right - left)%nat -> (Nat.log2_up (right - left) <= k)%nat ->
  forall k', (k <= k')%nat -> search k' check left right = search k check left right.
Proof.
  induction k as [|k IH]; intros left right Hd Hk k' Hk'.
  - pose proof (Nat.log2_up_pos (right - left) ltac:(lia)). lia.
  - destruct k' as [|k']; [lia|]. rewrite !search_S by lia. cbv zeta.
    pose proof (half_bounds (right - left) Hd) as (Hh & Hh3 & Hlo & Hhi).
    assert (Hlog : forall x, (2 <= x)%nat -> (2 * x <= right - left + 1)%nat -> (Nat.log2_up x <= k)%nat).
    { intros x Hx Hle. assert (H1 : (Nat.log2_up (2 * x) <= Nat.log2_up (right - left + 1))%nat) by (apply Nat.log2_up_le_mono; exact Hle).
      rewrite Nat.log2_up_double in H1 by lia.
      destruct (Nat.eq_dec (2 * x) (right - left + 1)) as [He|Hne].
      - (* an odd size *)
        assert (Hs : (Nat.log2_up (right - left + 1) <= Nat.log2_up (right - left))%nat).
        { (* r - l >= 3 is odd, so it is above the same power of two *)
          set (d := (right - left)%nat) in *. pose proof (Nat.log2_up_spec d ltac:(lia)) as [Ha Hb].
          apply Nat.log2_up_le_pow2; [lia|]. apply Nat.lt_eq_cases in Hb. destruct Hb as [Hb|Hb]; [lia|].
          exfalso. pose proof (Nat.log2_up_pos d ltac:(lia)) as Hp. destruct (Nat.log2_up d) as [|q]; [lia|].
          rewrite Nat.pow_succ_r' in Hb. lia. }
        lia.
      - assert (H2 : (Nat.log2_up (2 * x) <= Nat.log2_up (right - left))%nat) by (apply Nat.log2_up_le_mono; lia).
        rewrite Nat.log2_up_double in H2 by lia. lia. }
    destruct (check left (left + half (right - left))) as [u|e| |]; try reflexivity.
    + destruct (Nat.eqb_spec right (left + half (right - left) + 1)) as [|Hne]; [reflexivity|].
      apply IH; [lia|apply Hlog; lia|lia].
    + destruct (left + half (right - left))%nat as [|lc] eqn:Hm; [reflexivity|].
      destruct (Nat.eqb_spec left lc) as [|Hne]; [reflexivity|]. rewrite <- Hm. apply IH; [lia|apply Hlog; lia|lia].
Qed.

(** What a result means. *)
Section Meaning.
Context (check : nat -> nat -> outcome proof_error unit).

Definition acc_part (a b : nat) : Prop := check a b = Ok tt.
Definition rej_part (a b : nat) : Prop := exists e, check a b = Err e.

Lemma parts_app R a b c : parts R a b -> parts R b c -> parts R a c.
Proof.
  intros H1 H2. revert H1. induction H2 as [b|b c d H2 IH Hlt HR]; intros H1; [exact H1|].
  eapply parts_snoc; [apply IH; exact H1|exact Hlt|exact HR].
Qed.

(** The interval [l, r) is suspicious: a rejected interval that ends at [r] and of which everything before [l] has been
    accepted in parts. *)
Definition suspicious (l r : nat) : Prop := exists a, (a <= l)%nat /\ rej_part a r /\ parts acc_part a l.

Lemma search_meaning k0 : forall fuel left right, (left < right)%nat -> (2 <= right - left \/ right - left = 1 /\ rej_part left right)%nat ->
  suspicious left right -> parts acc_part k0 left -> (right - left <= fuel)%nat ->
  let r := search fuel check left right in
  (exists i, r = Err (FailedBatchVerificationWithSingleBlame (Some i)) /\ (left <= i < right)%nat /\
             suspicious i (S i) /\ parts acc_part k0 i) \/
  (exists a b, (left <= a < b)%nat /\ (b <= right)%nat /\ ((r = Panic /\ check a b = Panic) \/ (r = OutOfFuel /\ check a b = OutOfFuel))).
Proof.
  induction fuel as [|fuel IH]; intros left right Hlt Hsz Hsus Hpre Hf; [lia|].
  cbv zeta. rewrite search_S by lia. cbv zeta.
  destruct (Nat.eq_dec (right - left) 1) as [H1|H1].
  - rewrite H1, half_1. destruct Hsz as [|[_ (e & He)]]; [lia|]. replace (left + 1)%nat with right by lia. rewrite He.
    destruct right as [|r']; [lia|]. assert (left = r') by lia. subst r'. rewrite Nat.eqb_refl. left.
    exists left. split; [reflexivity|]. split; [lia|]. split; [|exact Hpre]. exact Hsus.
  - assert (Hd : (2 <= right - left)%nat) by lia. pose proof (half_bounds _ Hd) as (Hh & Hh3 & Hlo & Hhi).
    destruct (check left (left + half (right - left))) as [u|e| |] eqn:Hc.
    + assert (Hacc : acc_part left (left + half (right - left))) by (unfold acc_part; destruct u; exact Hc).
      destruct Hsus as (a & Ha & Hr & Hp).
      assert (Hsus' : suspicious (left + half (right - left)) right).
      { exists a. split; [lia|]. split; [exact Hr|]. eapply parts_snoc; [exact Hp|lia|exact Hacc]. }
      assert (Hpre' : parts acc_part k0 (left + half (right - left))) by (eapply parts_snoc; [exact Hpre|lia|exact Hacc]).
      destruct (Nat.eqb_spec right (left + half (right - left) + 1)) as [He|Hne].
      * destruct right as [|i]; [lia|]. left. exists i. split; [reflexivity|]. split; [lia|].
        replace (left + half (S i - left))%nat with i in * by lia. split; assumption.
      * destruct (IH (left + half (right - left))%nat right) as [(i & Hi & Hr1 & H2)|(x & y & Hx & Hy & H2)]; try assumption; try lia.
        -- left. exists i. split; [exact Hi|]. split; [lia|exact H2].
        -- right. exists x, y. split; [lia|]. split; [lia|exact H2].
    + assert (Hrej : rej_part left (left + half (right - left))) by (exists e; exact Hc).
      assert (Hsus' : suspicious left (left + half (right - left))).
      { exists left. split; [lia|]. split; [exact Hrej|constructor]. }
      destruct (left + half (right - left))%nat as [|lc] eqn:Hm; [lia|].
      destruct (Nat.eqb_spec left lc) as [He|Hne].
      * subst lc. left. exists left. split; [reflexivity|]. split; [lia|]. split; [exact Hsus'|exact Hpre].
      * destruct (IH left (S lc)) as [(i & Hi & Hr1 & H2)|(x & y & Hx & Hy & H2)]; try assumption; try lia.
        -- left. exists i. split; [exact Hi|]. split; [lia|exact H2].
        -- right. exists x, y. split; [lia|]. split; [lia|exact H2].
    + right. exists left, (left + half (right - left))%nat. split; [lia|]. split; [lia|]. left. auto.
    + right. exists left, (left + half (right - left))%nat. split; [lia|]. split; [lia|]. right. auto.
Qed.

End Meaning.
