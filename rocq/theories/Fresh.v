(** Counting: how many sequences of random scalars lead an injective function into a given finite set.  Shared by both protocols. *)
From Verif Require Export Oracle.
From Verif Require Import Uniform CountWeights Algebra.
Local Open Scope N_scope.

Section Fresh.
Local Opaque per_scalar.
Lemma at_most_none {A} (P : A -> Prop) n : (forall x, ~ P x) -> at_most P n.
Proof. intros H [|x l] _ Hf; [cbn; lia|]. inversion Hf as [|? ? H1 H2]; subst. destruct (H x H1). Qed.
Lemma at_most_one {A} (P : A -> Prop) : (forall x y, P x -> P y -> x = y) -> at_most P 1.
Proof.
  intros H [|x [|y l]] Hl Hf; [cbn; lia|cbn; lia|]. inversion Hf as [|? ? H1 H2]; subst. inversion H2 as [|? ? H3 H4]; subst.
  inversion Hl as [|? ? H5 H6]; subst. destruct H5. left. symmetry. apply H; assumption.
Qed.

(** Byte strings that are made into a given list of scalars. *)
Lemma at_most_masks (ss : list scalar) : at_most (fun bss : list bytes => answers_of (length ss) bss /\ map scalar_from_wide bss = ss) (per_scalar ^ N.of_nat (length ss)).
Proof.
  induction ss as [|s ss IH].
  - cbn [length]. rewrite N.pow_0_r. apply at_most_one. intros x y [[H1 _] _] [[H2 _] _]. destruct x, y; try discriminate. reflexivity.
  - cbn [length]. rewrite Nat2N.inj_succ, N.pow_succ_r'.
    apply (at_most_cons bytes_eq_dec _ (fun a => length a = 64%nat /\ scalar_from_wide a = s)).
    + intros [[H _] _]. discriminate.
    + intros x r [[_ Hf] He]. inversion Hf as [|? ? F1 F2]; subst. cbn [map] in He. injection He as H1 H2. split; assumption.
    + apply at_most_per_scalar.
    + intros x. revert IH. apply at_most_sub. intros r [[Hl Hf] He]. inversion Hf as [|? ? F1 F2]; subst. cbn [map] in He. injection He as _ H2.
      split; [split; [cbn [length] in Hl; lia|assumption]|exact H2].
Qed.

(** If [f] is injective on lists of [m] scalars, few of the [m]-tuples of 64-byte strings lead it into a given list. *)
Lemma at_most_hits {Q} (m : nat) (f : list scalar -> Q) (asked : list Q) :
  (forall ss ss', length ss = m -> length ss' = m -> f ss = f ss' -> ss = ss') ->
  at_most (fun bss => answers_of m bss /\ In (f (map scalar_from_wide bss)) asked) (N.of_nat (length asked) * per_scalar ^ N.of_nat m).
Proof.
  intros Hf. induction asked as [|q asked IH].
  - apply at_most_none. intros x [_ []].
  - replace (N.of_nat (length (q :: asked)) * per_scalar ^ N.of_nat m) with (per_scalar ^ N.of_nat m + N.of_nat (length asked) * per_scalar ^ N.of_nat m)
      by (cbn [length]; rewrite Nat2N.inj_succ, <- N.add_1_l; ring).
    apply (at_most_or _ (fun bss => answers_of m bss /\ f (map scalar_from_wide bss) = q) (fun bss => answers_of m bss /\ In (f (map scalar_from_wide bss)) asked)); [|clear IH|exact IH].
    + intros x [H1 [H2|H2]]; [left; split; [exact H1|symmetry; exact H2]|right; split; assumption].
    + intros [|x l] Hl Hall; [apply N.le_0_l|]. pose proof (Forall_inv Hall) as [[Hx1 Hx2] Hxq].
      assert (Hlx : length (map scalar_from_wide x) = m) by (rewrite map_length; exact Hx1).
      pose proof (at_most_masks (map scalar_from_wide x)) as Hm. rewrite Hlx in Hm. apply Hm; [exact Hl|].
      eapply Forall_impl; [|exact Hall]. intros y [[Hy1 Hy2] Hyq]. split; [split; assumption|]. apply Hf; [rewrite map_length; exact Hy1|exact Hlx|].
      congruence.
Qed.

(** An injective function hits a list at most as often as the list is long. *)
Lemma at_most_injective {A Q} (S : A -> Prop) (f : A -> Q) (asked : list Q) : (forall x y, S x -> S y -> f x = f y -> x = y) ->
  at_most (fun x => S x /\ In (f x) asked) (N.of_nat (length asked)).
Proof.
  intros Hf l Hl Hall. cut (length l <= length asked)%nat; [lia|]. rewrite <- (map_length f l). apply NoDup_incl_length.
  - induction Hl as [|x l Hx Hl IH]; [constructor|]. inversion Hall as [|? ? H1 H2]; subst. cbn [map]. constructor; [|apply IH; exact H2].
    intros H. apply in_map_iff in H. destruct H as (y & He & Hy). apply Hx. rewrite Forall_forall in H2.
    rewrite <- (Hf y x); [exact Hy|exact (proj1 (H2 y Hy))|exact (proj1 H1)|exact He].
  - intros q Hq. apply in_map_iff in Hq. destruct Hq as (x & <- & Hx). rewrite Forall_forall in Hall. exact (proj2 (Hall x Hx)).
Qed.

Lemma few_hits (m q : N) : q * per_scalar ^ m * 2 ^ (252 * m) <= q * (2 ^ 512) ^ m.
Proof.
  rewrite (N.pow_mul_r 2 252 m). pose proof per_scalar_le as H. revert H. generalize per_scalar, (2 ^ 252), (2 ^ 512). intros a b c H.
  rewrite <- N.mul_assoc, <- N.pow_mul_l. apply N.mul_le_mono_l. apply N.pow_le_mono_l. exact H.
Qed.
End Fresh.
