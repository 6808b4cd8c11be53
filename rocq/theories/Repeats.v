(** Sequences of answers one of the first of which comes again. *)
From Verif Require Export LazyOracle.
From Verif Require Import CountWeights Algebra.
Local Open Scope N_scope.

(** One of the first [m] answers comes again. *)
Fixpoint early_repeat (m : nat) (answers : list bytes) : Prop :=
  match m, answers with
  | S m', a :: rest => In a rest \/ early_repeat m' rest
  | _, _ => False
  end.

Lemma at_most_early m k n : at_most (fun as_ => answers_of_size k n as_ /\ early_repeat m as_)
  (match n with 0%nat => 0 | S n' => N.of_nat m * N.of_nat n' * (256 ^ N.of_nat k) ^ N.of_nat n' end).
Proof.
  revert n. induction m as [|m IH]; intros n.
  - intros l _ Hf. destruct l as [|x l]; [apply N.le_0_l|]. inversion Hf as [|? ? (_ & H) _]; subst. destruct H.
  - destruct n as [|n].
    { intros l _ Hf. destruct l as [|x l]; [apply N.le_0_l|]. inversion Hf as [|? ? ((H1 & _) & H2) _]; subst. destruct x; [destruct H2|discriminate]. }
    apply (at_most_le _ ((256 ^ N.of_nat k) ^ N.of_nat n * N.of_nat n +
      256 ^ N.of_nat k * (match n with 0%nat => 0 | S n' => N.of_nat m * N.of_nat n' * (256 ^ N.of_nat k) ^ N.of_nat n' end))).
    { generalize (256 ^ N.of_nat k). intros t. destruct n as [|n]; [change (N.of_nat 0) with 0; rewrite !N.mul_0_r; apply N.le_0_l|].
      assert (Hp : t ^ N.of_nat (S n) = t * t ^ N.of_nat n) by (rewrite (Nat2N.inj_succ n), N.pow_succ_r by lia; reflexivity).
      rewrite Hp, (Nat2N.inj_succ m), (Nat2N.inj_succ n), <- !N.add_1_l. cbv iota beta. generalize (t ^ N.of_nat n). intros a. generalize (N.of_nat m) (N.of_nat n). intros b c.
      apply N.le_trans with (((1 + c) + b * c) * (t * a)); [apply N.eq_le_incl; ring|].
      apply N.le_trans with (((1 + c) + b * c + b) * (t * a)); [apply N.mul_le_mono_r; lia|apply N.eq_le_incl; ring]. }
    apply (at_most_or _ (fun as_ => answers_of_size k (S n) as_ /\ match as_ with [] => False | a :: rest => In a rest end)
      (fun as_ => answers_of_size k (S n) as_ /\ match as_ with [] => False | a :: rest => early_repeat m rest end)).
    + intros [|a rest] (Ha & Hw); [destruct Hw|]. destruct Hw as [Hw|Hw]; [left|right]; split; assumption.
    + apply at_most_again.
    + apply (at_most_cons bytes_eq_dec _ (fun a => length a = k)).
      * intros [_ []].
      * intros a r ((_ & H) & _). inversion H; assumption.
      * apply card_at_most. apply card_answer_of_size.
      * intros a. apply (at_most_sub _ (fun as_ => answers_of_size k n as_ /\ early_repeat m as_)); [|exact (IH n)].
        intros r ((Hl & Hf) & Hw). inversion Hf; subst. cbn [length] in Hl. split; [split; [lia|assumption]|exact Hw].
Qed.

(** Events that need one of the first [m] of [n] answers to come again are rare. *)
Theorem early_bound (P : list bytes -> Prop) m k n : (forall as_, P as_ \/ ~ P as_) -> (forall as_, P as_ -> early_repeat m as_) ->
  exists c, has_card (fun as_ => answers_of_size k n as_ /\ P as_) c /\
    c * 256 ^ N.of_nat k <= N.of_nat m * (N.of_nat n - 1) * (256 ^ N.of_nat k) ^ N.of_nat n.
Proof.
  intros Hd HP. destruct (card_sub_or [] (answers_of_size k n) P _ Hd (card_answers_of_size k n)) as (c & Hc). exists c. split; [exact Hc|].
  pose proof (at_most_card _ _ c Hc (at_most_sub _ _ _ (fun as_ H => conj (proj1 H) (HP as_ (proj2 H))) (at_most_early m k n))) as Hle.
  destruct n as [|n]; [assert (c = 0) as -> by lia; rewrite N.mul_0_l; apply N.le_0_l|].
  rewrite (Nat2N.inj_succ n). rewrite N.pow_succ_r by lia. replace (N.succ (N.of_nat n) - 1) with (N.of_nat n) by lia.
  revert Hle. generalize (256 ^ N.of_nat k). intros t.
  generalize (t ^ N.of_nat n). intros x. generalize (N.of_nat n) (N.of_nat m). intros y z Hle. apply (N.mul_le_mono_r _ _ t) in Hle.
  etransitivity; [exact Hle|]. apply N.eq_le_incl. ring.
Qed.

Lemma early_repeat_app m : forall b f rest : list bytes, (length b <= m)%nat -> (exists a, In a b /\ In a f) \/ ~ NoDup b -> early_repeat m (b ++ f ++ rest).
Proof.
  induction m as [|m IH]; intros b f rest Hl H.
  - destruct b; [|cbn in Hl; lia]. destruct H as [(a & [] & _)|H]. destruct H. constructor.
  - destruct b as [|x b]; [destruct H as [(a & [] & _)|H]; destruct H; constructor|]. cbn [app early_repeat length] in *.
    destruct (in_dec bytes_eq_dec x (b ++ f ++ rest)) as [Hi|Hi]; [left; exact Hi|right]. apply IH; [lia|]. destruct H as [(a & [->|Ha] & Hf)|H].
    + exfalso. apply Hi. apply in_or_app. right. apply in_or_app. left. exact Hf.
    + left. exists a. split; assumption.
    + right. intros Hnd. apply H. constructor; [|exact Hnd]. intros Hx. apply Hi. apply in_or_app. left. exact Hx.
Qed.

Section Second.
Context {Q O : Type} (eqd : forall q q' : Q, {q = q'} + {q <> q'}).
(** A question asked early and another question have the same answer only if an early answer comes again. *)
Lemma run_early (g : game Q O) base answers0 answers o table q q' a m :
  map snd base = rev answers0 -> (length answers0 <= m)%nat ->
  run eqd base g answers = Some (o, table) -> lookup eqd base q = Some a -> lookup eqd table q' = Some a -> q <> q' -> early_repeat m (answers0 ++ answers).
Proof.
  intros Hb Hl H Hq Hq' Hne. destruct (run_extends eqd g _ _ _ _ H) as (_ & fresh & used & rest & E1 & E2 & E3). subst table answers.
  apply early_repeat_app; [exact Hl|]. apply lookup_in in Hq as Hin. apply lookup_in in Hq' as Hin'. apply in_app_or in Hin'. destruct Hin' as [Hin'|Hin'].
  - left. exists a. apply (in_map snd) in Hin. apply (in_map snd) in Hin'. cbn [snd] in Hin, Hin'. rewrite Hb in Hin. rewrite E3 in Hin'.
    split; apply in_rev; assumption.
  - right. intros Hnd. apply NoDup_rev in Hnd. rewrite <- Hb in Hnd. clear - Hnd Hin Hin' Hne.
    induction base as [|[p b] base IH]; [destruct Hin|]. cbn [map snd] in Hnd. inversion Hnd as [|? ? Hn Hnd']; subst.
    destruct Hin as [H|H], Hin' as [H'|H'].
    + congruence.
    + injection H as -> ->. apply Hn. apply (in_map snd) in H'. exact H'.
    + injection H' as -> ->. apply Hn. apply (in_map snd) in H. exact H.
    + first [exact (IH Hnd' H H')|exact (IH H H' Hnd')].
Qed.
End Second.
