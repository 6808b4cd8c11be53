(** The scalar field: the integers modulo the prime [ell].

    This models [curve25519_dalek::Scalar] (Cargo.toml line 17), which /repo uses as an opaque
    field: [Scalar::ZERO/ONE], [+ - *], [invert], [batch_invert], [from_canonical_bytes],
    [from_bytes_mod_order_wide], [as_bytes], [==].  A scalar is an integer in [0, ell); the
    crate keeps its scalars reduced. *)
From Coq Require Import Field Eqdep_dec Zpow_facts.
From Verif Require Export Base.
From Verif Require Import Prime.

Definition in_field (z : Z) : bool := ((0 <=? z) && (z <? ell))%Z%bool.

Definition scalar : Type := {z : Z | in_field z = true}.
Definition sval (s : scalar) : Z := proj1_sig s.

Lemma in_field_mod z : in_field (z mod ell) = true.
Proof.
  unfold in_field. assert (0 < ell)%Z by reflexivity.
  pose proof (Z.mod_pos_bound z ell H). apply andb_true_iff. split.
  - apply Z.leb_le; lia.
  - apply Z.ltb_lt; lia.
Qed.

(** Reduction of an integer modulo [ell]. *)
Definition smk (z : Z) : scalar := exist _ (z mod ell)%Z (in_field_mod z).

Definition s0 : scalar := smk 0.
Definition s1 : scalar := smk 1.
Definition sadd (a b : scalar) : scalar := smk (sval a + sval b).
Definition smul (a b : scalar) : scalar := smk (sval a * sval b).
Definition sopp (a : scalar) : scalar := smk (- sval a).
Definition ssub (a b : scalar) : scalar := smk (sval a - sval b).
(** [Scalar::invert]: the power [ell - 2], so that zero is sent to zero. *)
Definition sinv (a : scalar) : scalar := smk (Zpow_mod (sval a) (ell - 2) ell).
Definition sdiv (a b : scalar) : scalar := smul a (sinv b).
Definition seqb (a b : scalar) : bool := (sval a =? sval b)%Z.

(** [Scalar::as_bytes]: 32 bytes, little-endian. *)
Definition scalar_to_bytes (s : scalar) : bytes := le_bytes 32 (Z.to_N (sval s)).
(** [Scalar::from_canonical_bytes] on a 32-byte array: rejects values that are not reduced. *)
Definition scalar_from_canonical (bs : bytes) : option scalar :=
  if (Z.of_N (le_val bs) <? ell)%Z then Some (smk (Z.of_N (le_val bs))) else None.
(** [Scalar::from_bytes_mod_order_wide] *)
Definition scalar_from_wide (bs : bytes) : scalar := smk (Z.of_N (le_val bs)).

(** * The field laws *)

Lemma sval_range s : (0 <= sval s < ell)%Z.
Proof.
  destruct s as [z H]. unfold sval; simpl. unfold in_field in H.
  apply andb_true_iff in H. destruct H as [H1 H2].
  apply Z.leb_le in H1. apply Z.ltb_lt in H2. lia.
Qed.

Lemma scalar_ext a b : sval a = sval b -> a = b.
Proof.
  destruct a as [x Hx], b as [y Hy]. unfold sval; simpl. intros <-.
  f_equal. apply UIP_dec. apply bool_dec.
Qed.

Lemma ell_pos : (0 < ell)%Z. Proof. reflexivity. Qed.
Lemma ell_big : (2 ^ 252 < ell)%Z. Proof. reflexivity. Qed.
Lemma ell_lt_256_32 : (ell < 2 ^ 256)%Z. Proof. reflexivity. Qed.

Lemma sval_smk z : sval (smk z) = (z mod ell)%Z.
Proof. reflexivity. Qed.

Lemma smk_sval s : smk (sval s) = s.
Proof. apply scalar_ext. rewrite sval_smk. apply Z.mod_small. apply sval_range. Qed.

Lemma smk_eq a b : (a mod ell = b mod ell)%Z -> smk a = smk b.
Proof. intros H. apply scalar_ext. rewrite !sval_smk. exact H. Qed.

Lemma seqb_eq a b : seqb a b = true <-> a = b.
Proof.
  unfold seqb. rewrite Z.eqb_eq. split; [apply scalar_ext|intros ->; reflexivity].
Qed.
Lemma seqb_refl a : seqb a a = true.
Proof. apply seqb_eq; reflexivity. Qed.
Lemma seqb_neq a b : seqb a b = false <-> a <> b.
Proof. rewrite <- (seqb_eq a b). destruct (seqb a b); split; intros H; congruence. Qed.
Lemma scalar_eq_dec (a b : scalar) : {a = b} + {a <> b}.
Proof. destruct (seqb a b) eqn:E; [left; apply seqb_eq|right; apply seqb_neq]; exact E. Qed.

Local Ltac smod := intros; unfold sadd, smul, sopp, ssub, s0, s1; apply scalar_ext; rewrite ?sval_smk;
  repeat (rewrite ?Zplus_mod_idemp_l, ?Zplus_mod_idemp_r, ?Zmult_mod_idemp_l, ?Zmult_mod_idemp_r,
          ?Zminus_mod_idemp_l, ?Zminus_mod_idemp_r).

Lemma scalar_ring_theory : ring_theory s0 s1 sadd smul ssub sopp (@eq scalar).
Proof.
  constructor.
  - smod. rewrite Z.add_0_l. apply Z.mod_small. apply sval_range.
  - smod. f_equal; ring.
  - smod. f_equal; ring.
  - smod. rewrite Z.mul_1_l. apply Z.mod_small. apply sval_range.
  - smod. f_equal; ring.
  - smod. f_equal; ring.
  - smod. f_equal; ring.
  - smod. f_equal; ring.
  - smod. replace (sval x + - sval x)%Z with 0%Z by ring. reflexivity.
Qed.

Lemma sinv_l a : a <> s0 -> smul (sinv a) a = s1.
Proof.
  intros Ha. apply scalar_ext. unfold smul, sinv, s1. rewrite !sval_smk.
  rewrite Zpow_mod_correct by (pose proof ell_pos; lia).
  rewrite Z.mod_mod by (pose proof ell_pos; lia).
  rewrite Zmult_mod_idemp_l.
  replace (sval a ^ (ell - 2) * sval a)%Z with (sval a ^ (ell - 1))%Z.
  - rewrite fermat_Z1.
    + reflexivity.
    + exact ell_prime.
    + apply sval_range.
    + intros Hd. apply Ha. apply scalar_ext. unfold s0. rewrite sval_smk.
      apply Z.mod_divide in Hd; [|pose proof ell_pos; lia].
      rewrite Z.mod_small in Hd by apply sval_range. rewrite Hd. reflexivity.
  - replace (ell - 1)%Z with (Z.succ (ell - 2)) by ring.
    rewrite Z.pow_succ_r; [ring|]. discriminate.
Qed.

Lemma s1_neq_s0 : s1 <> s0.
Proof. intros H. apply (f_equal sval) in H. discriminate H. Qed.

Lemma scalar_field_theory : field_theory s0 s1 sadd smul ssub sopp sdiv sinv (@eq scalar).
Proof.
  constructor.
  - apply scalar_ring_theory.
  - apply s1_neq_s0.
  - reflexivity.
  - intros p Hp. apply sinv_l. exact Hp.
Qed.

Lemma sinv_0 : sinv s0 = s0.
Proof. apply scalar_ext. vm_compute. reflexivity. Qed.

Declare Scope scalar_scope.
Delimit Scope scalar_scope with sc.
Bind Scope scalar_scope with scalar.
Notation "0" := s0 : scalar_scope.
Notation "1" := s1 : scalar_scope.
Infix "+" := sadd : scalar_scope.
Infix "*" := smul : scalar_scope.
Infix "-" := ssub : scalar_scope.
Notation "- x" := (sopp x) : scalar_scope.
Infix "/" := sdiv : scalar_scope.

(** * The byte codec *)

Lemma scalar_to_bytes_length s : length (scalar_to_bytes s) = 32%nat.
Proof. apply le_bytes_length. Qed.

Lemma scalar_to_N_bound s : (Z.to_N (sval s) < 256 ^ N.of_nat 32)%N.
Proof.
  pose proof (sval_range s). pose proof ell_lt_256_32.
  change (256 ^ N.of_nat 32)%N with (Z.to_N (2 ^ 256)). lia.
Qed.

Lemma scalar_from_to_bytes s : scalar_from_canonical (scalar_to_bytes s) = Some s.
Proof.
  unfold scalar_from_canonical, scalar_to_bytes.
  rewrite le_val_le_bytes_small by apply scalar_to_N_bound.
  pose proof (sval_range s) as H.
  rewrite Z2N.id by lia. destruct (Z.ltb_spec (sval s) ell); [|lia].
  rewrite smk_sval. reflexivity.
Qed.

Lemma scalar_to_from_bytes bs s :
  length bs = 32%nat -> scalar_from_canonical bs = Some s -> scalar_to_bytes s = bs.
Proof.
  unfold scalar_from_canonical, scalar_to_bytes. intros Hl H.
  destruct (Z.ltb_spec (Z.of_N (le_val bs)) ell) as [Hlt|]; [|discriminate].
  injection H as <-. rewrite sval_smk, Z.mod_small by lia.
  rewrite N2Z.id. rewrite <- Hl. apply le_bytes_le_val.
Qed.

Lemma scalar_to_bytes_inj a b : scalar_to_bytes a = scalar_to_bytes b -> a = b.
Proof.
  intros H. pose proof (scalar_from_to_bytes a) as Ha. rewrite H, scalar_from_to_bytes in Ha. congruence.
Qed.
