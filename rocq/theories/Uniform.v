(** Counting facts about reduction modulo a number. *)
From Verif Require Import SpecUniform Prime.
Local Open Scope N_scope.

Lemma share_lt total classes v k : classes <> 0 -> v < classes -> (k < share total classes v <-> v + classes * k < total).
Proof.
  intros Hc Hv. unfold share. pose proof (N.div_mod total classes Hc) as Hd. pose proof (N.mod_lt total classes Hc) as Hm.
  set (q := total / classes) in *. set (r := total mod classes) in *. clearbody q r. destruct (N.ltb_spec v r) as [H|H]; split; intros Hk; subst total; nia.
Qed.

Lemma card_mod total classes v : classes <> 0 -> v < classes -> has_card (fun x => x < total /\ x mod classes = v) (share total classes v).
Proof.
  intros Hc Hv. exists (fun k => v + classes * k). split.
  - intros k Hk. split; [apply share_lt; assumption|]. rewrite N.mul_comm, N.mod_add by exact Hc. apply N.mod_small. exact Hv.
  - intros x [Hx Hm]. pose proof (N.div_mod x classes Hc) as Hd. exists (x / classes). split.
    + split; [apply share_lt; try assumption; lia|lia].
    + intros k [_ Hk]. apply (N.mul_cancel_l _ _ classes Hc). lia.
Qed.

(** Bijections and products carry counts over. *)
Lemma card_image {A B} (S : A -> Prop) (S' : B -> Prop) (f : A -> B) (g : B -> A) c : has_card S c ->
  (forall x, S x -> S' (f x) /\ g (f x) = x) -> (forall y, S' y -> S (g y) /\ f (g y) = y) -> has_card S' c.
Proof.
  intros (h & H1 & H2) Hf Hg. exists (fun k => f (h k)). split; [intros k Hk; exact (proj1 (Hf _ (H1 k Hk)))|].
  intros y Hy. destruct (Hg y Hy) as [Hs He]. destruct (H2 _ Hs) as (k & [Hk1 Hk2] & Hu). exists k. split.
  - split; [exact Hk1|]. rewrite Hk2. exact He.
  - intros k' [Hk' He']. apply Hu. split; [exact Hk'|]. rewrite <- He'. symmetry. exact (proj2 (Hf _ (H1 k' Hk'))).
Qed.
Lemma card_iff {A} (S S' : A -> Prop) c : (forall x, S x <-> S' x) -> has_card S c -> has_card S' c.
Proof. intros Hi H. apply (card_image S S' (fun x => x) (fun x => x) c H); intros x Hx; split; try reflexivity; apply Hi; exact Hx. Qed.
Lemma card_prod {A B} (S : A -> Prop) (S' : B -> Prop) c c' : has_card S c -> has_card S' c' -> has_card (fun x => S (fst x) /\ S' (snd x)) (c * c').
Proof.
  intros (f & F1 & F2) (g & G1 & G2). exists (fun k => (f (k / c'), g (k mod c'))). split.
  - intros k Hk. assert (Hc' : c' <> 0) by lia. cbn [fst snd]. split; [apply F1; apply N.div_lt_upper_bound; lia|apply G1; apply N.mod_lt; exact Hc'].
  - intros [x y] [Hx Hy]. cbn [fst snd] in *. destruct (F2 x Hx) as (i & [Hi Hfi] & Hui). destruct (G2 y Hy) as (j & [Hj Hgj] & Huj).
    assert (Hc' : c' <> 0) by lia. exists (c' * i + j). split.
    + split; [nia|]. rewrite N.mul_comm, N.div_add_l by exact Hc'. rewrite (N.div_small j c') by exact Hj. rewrite N.add_0_r.
      rewrite N.add_comm, N.mod_add by exact Hc'. rewrite N.mod_small by exact Hj. congruence.
    + intros k [Hk He]. injection He as He1 He2. assert (Hi' : i = k / c') by (apply Hui; split; [apply N.div_lt_upper_bound; lia|exact He1]).
      assert (Hj' : j = k mod c') by (apply Huj; split; [apply N.mod_lt; exact Hc'|exact He2]).
      rewrite Hi', Hj'. symmetry. apply N.div_mod. exact Hc'.
Qed.

Lemma order_pos : order <> 0.
Proof. discriminate. Qed.
Lemma order_Z : Z.of_N order = ell.
Proof. reflexivity. Qed.

Lemma wide_value (s : scalar) (x : N) : smk (Z.of_N x) = s <-> x mod order = Z.to_N (sval s).
Proof.
  pose proof (sval_range s) as Hs. pose proof order_Z as Ho. pose proof order_pos as Hp. generalize dependent order. intros o Ho Hp. split.
  - intros <-. rewrite sval_smk, <- Ho, <- N2Z.inj_mod. rewrite N2Z.id. reflexivity.
  - intros H. apply scalar_ext. rewrite sval_smk, <- Ho, <- N2Z.inj_mod, H. apply Z2N.id. lia.
Qed.
Lemma byte_count : 256 ^ N.of_nat 64 = 2 ^ 512.
Proof. reflexivity. Qed.
Lemma card_wide (s : scalar) : has_card (fun bs => length bs = 64%nat /\ scalar_from_wide bs = s) (share (2 ^ 512) order (Z.to_N (sval s))).
Proof.
  assert (Hv : Z.to_N (sval s) < order).
  { pose proof (sval_range s) as Hs. pose proof order_Z as Ho. generalize dependent order. intros o Ho. lia. }
  pose proof byte_count as Hb. generalize dependent (2 ^ 512). intros total Hb.
  apply (card_image (fun x => x < total /\ x mod order = Z.to_N (sval s)) _ (le_bytes 64) le_val).
  - apply card_mod; [exact order_pos|exact Hv].
  - intros x [Hx Hm]. rewrite <- Hb in Hx. split; [split|].
    + apply le_bytes_length.
    + unfold scalar_from_wide. rewrite le_val_le_bytes_small by exact Hx. apply wide_value. exact Hm.
    + apply le_val_le_bytes_small. exact Hx.
  - intros bs [Hl Hs]. split; [split|].
    + rewrite <- Hb, <- Hl. apply le_val_bound.
    + apply wide_value. exact Hs.
    + rewrite <- Hl. apply le_bytes_le_val.
Qed.

(** No class is favoured much: the shares of two classes are at most a factor [1 + 1/b] apart if there are [b] times as many values as
    classes. *)
Lemma share_bias total classes b v v' : classes <> 0 -> b * classes <= total -> b * share total classes v <= (b + 1) * share total classes v'.
Proof.
  intros Hc Hb. unfold share. assert (Hq : b <= total / classes) by (apply N.div_le_lower_bound; lia).
  set (q := total / classes) in *. clearbody q. destruct (v <? _), (v' <? _); nia.
Qed.
Lemma share_exact total classes v : classes <> 0 -> total mod classes = 0 -> share total classes v = total / classes.
Proof. intros Hc Hm. unfold share. rewrite Hm. destruct (N.ltb_spec v 0); lia. Qed.
