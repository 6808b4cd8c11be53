(** Primality of the order of the Ristretto group.

    [ell] is the group order that [curve25519_dalek::Scalar] reduces modulo.  The
    crate is a dependency of /repo (Cargo.toml, line 17), not part of it; that its
    scalar type is the field of [ell] elements is what every piece of arithmetic
    in /repo relies on, so it is proved here rather than assumed: Fermat's little
    theorem, Pocklington's criterion, and a certificate. *)
From Coq Require Import ZArith Znumtheory Zpow_facts Lia List Permutation.
Import ListNotations.

Local Open Scope Z_scope.

(** * Fermat's little theorem over Z *)

Definition zprod (l : list Z) : Z := fold_right Z.mul 1 l.

Lemma zprod_perm l l' : Permutation l l' -> zprod l = zprod l'.
Proof.
  induction 1 as [|x l l' _ IH|x y l|l l' l'' _ IH1 _ IH2]; cbn [zprod fold_right];
    fold zprod; [reflexivity|fold (zprod l); fold (zprod l'); rewrite IH; reflexivity|ring|congruence].
Qed.

Lemma zprod_scaled_mod (p a : Z) l : p <> 0 ->
  zprod (map (fun x => (a * x) mod p) l) mod p = (a ^ Z.of_nat (length l) * zprod l) mod p.
Proof.
  intros Hp. induction l as [|x l IH]; [reflexivity|].
  cbn [map length]. cbn [zprod fold_right]. fold (zprod l). fold (zprod (map (fun x => (a * x) mod p) l)).
  rewrite Z.mul_mod_idemp_l by exact Hp. rewrite Z.mul_mod by exact Hp. rewrite IH.
  rewrite <- Z.mul_mod by exact Hp. rewrite Nat2Z.inj_succ, Z.pow_succ_r by lia. f_equal. ring.
Qed.

Lemma zprod_not_div (p : Z) l : prime p -> (forall x, In x l -> ~ (p | x)) -> ~ (p | zprod l).
Proof.
  intros Hp. pose proof (prime_ge_2 _ Hp). induction l as [|x l IH]; intros Hl Hd.
  - apply Z.divide_1_r_nonneg in Hd; lia.
  - cbn [zprod fold_right] in Hd. fold (zprod l) in Hd. apply (prime_mult _ Hp) in Hd. destruct Hd as [Hd|Hd].
    + apply (Hl x); [left; reflexivity|exact Hd].
    + apply IH; [|exact Hd]. intros y Hy. apply Hl. right; exact Hy.
Qed.

Lemma fermat_Z1 (p a : Z) :
  prime p -> 0 <= a -> ~ (p | a) -> (a ^ (p - 1)) mod p = 1.
Proof.
  intros Hp Ha Hn. pose proof (prime_ge_2 _ Hp) as H2.
  set (l := map Z.of_nat (seq 1 (Z.to_nat (p - 1)))).
  assert (Hin : forall x, In x l <-> 0 < x < p).
  { intros x. unfold l. rewrite in_map_iff. split.
    - intros (k & <- & Hk). apply in_seq in Hk. lia.
    - intros Hx. exists (Z.to_nat x). split; [lia|]. apply in_seq. lia. }
  assert (Hsmall : forall x, 0 < x < p -> ~ (p | x)).
  { intros x Hx Hd. apply Z.divide_pos_le in Hd; lia. }
  set (f := fun x => (a * x) mod p).
  assert (Hperm : Permutation (map f l) l).
  { apply NoDup_Permutation_bis.
    - assert (Hnd : NoDup l).
      { unfold l. apply FinFun.Injective_map_NoDup; [intros x y Hxy; lia|apply seq_NoDup]. }
      revert Hin Hnd. clearbody l. clear -Hp Hn H2 Hsmall. intros Hin Hnd.
      assert (Hsub : forall x, In x l -> 0 < x < p) by (intros x; apply Hin). clear Hin.
      induction Hnd as [|x l Hni Hnd IH]; [constructor|]. cbn [map]. constructor.
      + intros Hc. apply in_map_iff in Hc. destruct Hc as (y & Hy & Hyl). unfold f in Hy.
        assert (Hd : (p | a * (y - x))).
        { apply Z.mod_divide; [lia|]. replace (a * (y - x)) with (a * y - a * x) by ring.
          rewrite Zminus_mod, Hy, Z.sub_diag. apply Z.mod_0_l. lia. }
        apply (prime_mult _ Hp) in Hd. destruct Hd as [Hd|Hd]; [contradiction|].
        pose proof (Hsub x (or_introl eq_refl)). pose proof (Hsub y (or_intror Hyl)).
        destruct (Z.eq_dec y x) as [He|Hne]; [subst y; contradiction|].
        destruct (Z_lt_ge_dec x y) as [Hlt|Hge].
        * apply (Hsmall (y - x)); [lia|exact Hd].
        * apply (Hsmall (x - y)); [lia|]. replace (x - y) with (- (y - x)) by ring. apply Z.divide_opp_r. exact Hd.
      + apply IH. intros y Hy. apply Hsub. right; exact Hy.
    - rewrite map_length. lia.
    - intros y Hy. apply in_map_iff in Hy. destruct Hy as (x & <- & Hx). apply Hin in Hx. apply Hin. unfold f.
      pose proof (Z.mod_pos_bound (a * x) p ltac:(lia)) as Hb.
      assert ((a * x) mod p <> 0); [|lia]. intros H0. apply Z.mod_divide in H0; [|lia].
      apply (prime_mult _ Hp) in H0. destruct H0 as [H0|H0]; [contradiction|]. apply (Hsmall x Hx H0). }
  pose proof (zprod_scaled_mod p a l ltac:(lia)) as Hmod. fold f in Hmod.
  rewrite (zprod_perm _ _ Hperm) in Hmod.
  assert (Hlen : Z.of_nat (length l) = p - 1) by (unfold l; rewrite map_length, seq_length; lia).
  rewrite Hlen in Hmod.
  assert (Hd : (p | (a ^ (p - 1) - 1) * zprod l)).
  { apply Z.mod_divide; [lia|].
    replace ((a ^ (p - 1) - 1) * zprod l) with (a ^ (p - 1) * zprod l - zprod l) by ring.
    rewrite Zminus_mod, <- Hmod, Z.sub_diag. apply Z.mod_0_l. lia. }
  destruct (prime_mult _ Hp _ _ Hd) as [H|H].
  - apply Z.mod_divide in H; [|lia].
    replace (a ^ (p - 1)) with (1 + (a ^ (p - 1) - 1)) by ring.
    rewrite Zplus_mod, H, Z.add_0_r, Z.mod_mod by lia. apply Z.mod_small; lia.
  - exfalso. revert H. apply (zprod_not_div p l Hp). intros x Hx. apply Hsmall. apply Hin. exact Hx.
Qed.

(** * Pocklington's criterion *)

(** Every prime divisor of [N] is congruent to 1 modulo [q]. *)
Lemma pocklington_divisor (N q a : Z) :
  1 < N -> prime q -> (q | N - 1) -> 0 <= a ->
  (a ^ (N - 1)) mod N = 1 ->
  Z.gcd ((a ^ ((N - 1) / q)) mod N - 1) N = 1 ->
  forall p, prime p -> (p | N) -> (q | p - 1).
Proof.
  intros HN Hq HqN Ha H1 Hg p Hp HpN.
  pose proof (prime_ge_2 _ Hp) as Hp2. pose proof (prime_ge_2 _ Hq) as Hq2.
  set (b := a ^ ((N - 1) / q)) in *.
  assert (Hb0 : 0 <= b) by (apply Z.pow_nonneg; exact Ha).
  assert (Hdiv : N - 1 = (N - 1) / q * q).
  { destruct HqN as [k Hk]. rewrite Hk at 2. rewrite Z.div_mul by lia. exact Hk. }
  assert (Hk0 : 0 <= (N - 1) / q) by (apply Z.div_pos; lia).
  assert (Hbq : (b ^ q) mod N = 1).
  { unfold b. rewrite <- Z.pow_mul_r by lia. rewrite <- Hdiv. exact H1. }
  assert (Hmodp : forall x, (x mod N) mod p = x mod p).
  { intros x. destruct HpN as [k Hk]. subst N.
    symmetry. rewrite (Z.mod_eq x (k * p)) by lia.
    replace (x - k * p * (x / (k * p))) with (x + (- (k * (x / (k * p)))) * p) by ring.
    rewrite Z_mod_plus_full. reflexivity. }
  assert (Hbqp : (b ^ q) mod p = 1).
  { rewrite <- Hmodp, Hbq. apply Z.mod_small; lia. }
  assert (Hb1 : b mod p <> 1).
  { intros Hb1.
    assert (Hpb : (p | b mod N - 1)).
    { apply Z.mod_divide; [lia|]. rewrite Zminus_mod, Hmodp, Hb1.
      rewrite (Z.mod_small 1 p) by lia. reflexivity. }
    assert (Hp1 : (p | 1)).
    { rewrite <- Hg. apply Z.gcd_greatest; assumption. }
    apply Z.divide_1_r_nonneg in Hp1; lia. }
  assert (Hpb : ~ (p | b)).
  { intros Hd. apply Z.mod_divide in Hd; [|lia].
    assert ((b ^ q) mod p = 0).
    { rewrite Zpower_mod by lia. rewrite Hd. rewrite Z.pow_0_l by lia. apply Z.mod_0_l; lia. }
    lia. }
  pose proof (fermat_Z1 p b Hp Hb0 Hpb) as HF.
  (* if q does not divide p - 1 then b = 1 mod p by Bezout *)
  destruct (Zdivide_dec q (p - 1)) as [Hd|Hnd]; [exact Hd|exfalso].
  assert (Hrp : rel_prime q (p - 1)) by (apply prime_rel_prime; assumption).
  apply Hb1.
  destruct (rel_prime_bezout _ _ Hrp) as [u v Huv].
  (* make both exponents nonnegative: u*q = 1 + (-v)*(p-1), shift u by multiples of (p-1) *)
  assert (Hex : exists u' v', 0 <= u' /\ 0 <= v' /\ u' * q = 1 + v' * (p - 1)).
  { clear - Huv Hp2 Hq2. exists (u + (Z.abs u + Z.abs v) * (p - 1)), ((Z.abs u + Z.abs v) * q - v).
    assert (Ht : 0 <= Z.abs u + Z.abs v) by lia.
    assert (Htu : - (Z.abs u + Z.abs v) <= u) by lia. assert (Htv : v <= Z.abs u + Z.abs v) by lia.
    revert Ht Htu Htv. generalize (Z.abs u + Z.abs v). intros t Ht Htu Htv.
    split; [|split]; nia. }
  destruct Hex as (u' & v' & Hu' & Hv' & He).
  assert (Hpow1 : forall x e k, 0 <= e -> 0 <= k -> (x ^ e) mod p = 1 -> (x ^ (e * k)) mod p = 1).
  { intros x e k He0 Hk Hx. rewrite Z.pow_mul_r by lia. rewrite Zpower_mod by lia. rewrite Hx.
    rewrite Z.pow_1_l by lia. apply Z.mod_small; lia. }
  assert (L : (b ^ (u' * q)) mod p = 1).
  { rewrite Z.mul_comm. apply Hpow1; [lia|lia|exact Hbqp]. }
  assert (R : (b ^ (v' * (p - 1))) mod p = 1).
  { rewrite Z.mul_comm. apply Hpow1; [lia|lia|exact HF]. }
  rewrite He in L. rewrite Z.pow_add_r, Z.pow_1_r in L by (try apply Z.mul_nonneg_nonneg; lia).
  rewrite Zmult_mod, R, Z.mul_1_r, Z.mod_mod in L by lia. exact L.
Qed.

Lemma has_prime_divisor (n : Z) : 1 < n -> exists p, prime p /\ (p | n).
Proof.
  intros Hn. assert (H0 : 0 <= n) by lia. revert Hn.
  apply (Zlt_0_ind (fun n => 1 < n -> exists p, prime p /\ (p | n))); [|exact H0].
  intros x IH Hx0 Hx. destruct (prime_dec x) as [Hp|Hnp].
  - exists x. split; [exact Hp|apply Z.divide_refl].
  - destruct (not_prime_divide x Hx Hnp) as [y [Hy1 Hy2]].
    destruct (IH y ltac:(lia) ltac:(lia)) as [p [Hp Hpy]].
    exists p. split; [exact Hp|]. eapply Z.divide_trans; eassumption.
Qed.

Lemma prime_by_sqrt (n : Z) :
  1 < n -> (forall p, prime p -> (p | n) -> n < p * p) -> prime n.
Proof.
  intros Hn Hall. destruct (prime_dec n) as [H|H]; [exact H|exfalso].
  destruct (not_prime_divide n Hn H) as [y [Hy1 [z Hz]]].
  assert (Hz1 : 1 < z) by nia.
  destruct (Z.le_gt_cases y z) as [Hle|Hgt].
  - destruct (has_prime_divisor y) as [p [Hp Hpy]]; [lia|].
    assert (p <= y) by (apply Z.divide_pos_le; [lia|exact Hpy]).
    pose proof (prime_ge_2 _ Hp).
    specialize (Hall p Hp). assert (n < p * p); [|nia].
    apply Hall. eapply Z.divide_trans; [exact Hpy|]. exists z; exact Hz.
  - destruct (has_prime_divisor z) as [p [Hp Hpy]]; [lia|].
    assert (p <= z) by (apply Z.divide_pos_le; [lia|exact Hpy]).
    pose proof (prime_ge_2 _ Hp).
    specialize (Hall p Hp). assert (n < p * p); [|nia].
    apply Hall. eapply Z.divide_trans; [exact Hpy|]. exists y; lia.
Qed.

(** A checkable certificate with a single large prime factor [q] of [N - 1]. *)
Definition pock_check (N q a : Z) : bool :=
  ((1 <? N) && (0 <=? a) && ((N - 1) mod q =? 0) && (N <? q * q)
   && (Zpow_mod a (N - 1) N =? 1)
   && (Z.gcd (Zpow_mod a ((N - 1) / q) N - 1) N =? 1))%bool.

Lemma pock_check_sound (N q a : Z) : prime q -> pock_check N q a = true -> prime N.
Proof.
  intros Hq H. unfold pock_check in H. repeat rewrite Bool.andb_true_iff in H.
  destruct H as [[[[[H1 H2] H3] H4] H5] H6].
  apply Z.ltb_lt in H1. apply Z.leb_le in H2. apply Z.eqb_eq in H3. apply Z.ltb_lt in H4.
  apply Z.eqb_eq in H5. apply Z.eqb_eq in H6. rewrite Zpow_mod_correct in H5, H6 by lia.
  pose proof (prime_ge_2 _ Hq) as Hq2.
  apply Z.mod_divide in H3; [|lia].
  apply prime_by_sqrt; [exact H1|]. intros p Hp HpN.
  pose proof (pocklington_divisor N q a H1 Hq H3 H2 H5 H6 p Hp HpN) as Hd.
  pose proof (prime_ge_2 _ Hp).
  apply Z.divide_pos_le in Hd; [|lia]. nia.
Qed.

(** The same with two distinct prime factors of [N - 1]. *)
Definition pock_check2 (N q1 a1 q2 a2 : Z) : bool :=
  ((1 <? N) && (0 <=? a1) && (0 <=? a2) && negb (q1 =? q2)
   && ((N - 1) mod q1 =? 0) && ((N - 1) mod q2 =? 0) && (N <? (q1 * q2) * (q1 * q2))
   && (Zpow_mod a1 (N - 1) N =? 1) && (Zpow_mod a2 (N - 1) N =? 1)
   && (Z.gcd (Zpow_mod a1 ((N - 1) / q1) N - 1) N =? 1)
   && (Z.gcd (Zpow_mod a2 ((N - 1) / q2) N - 1) N =? 1))%bool.

Lemma pock_check2_sound (N q1 a1 q2 a2 : Z) :
  prime q1 -> prime q2 -> pock_check2 N q1 a1 q2 a2 = true -> prime N.
Proof.
  intros Hq1 Hq2 H. unfold pock_check2 in H. repeat rewrite Bool.andb_true_iff in H.
  destruct H as [[[[[[[[[[H1 Ha1] Ha2] Hne] Hd1] Hd2] Hsz] Hp1] Hp2] Hg1] Hg2].
  apply Z.ltb_lt in H1. apply Z.leb_le in Ha1. apply Z.leb_le in Ha2.
  apply Bool.negb_true_iff in Hne. apply Z.eqb_neq in Hne.
  apply Z.eqb_eq in Hd1. apply Z.eqb_eq in Hd2. apply Z.ltb_lt in Hsz.
  apply Z.eqb_eq in Hp1. apply Z.eqb_eq in Hp2. apply Z.eqb_eq in Hg1. apply Z.eqb_eq in Hg2.
  rewrite Zpow_mod_correct in Hp1, Hp2, Hg1, Hg2 by lia.
  pose proof (prime_ge_2 _ Hq1) as Hq12. pose proof (prime_ge_2 _ Hq2) as Hq22.
  apply Z.mod_divide in Hd1; [|lia]. apply Z.mod_divide in Hd2; [|lia].
  apply prime_by_sqrt; [exact H1|]. intros p Hp HpN.
  pose proof (pocklington_divisor N q1 a1 H1 Hq1 Hd1 Ha1 Hp1 Hg1 p Hp HpN) as E1.
  pose proof (pocklington_divisor N q2 a2 H1 Hq2 Hd2 Ha2 Hp2 Hg2 p Hp HpN) as E2.
  assert (E : (q1 * q2 | p - 1)).
  { destruct E1 as [k Hk]. rewrite Hk in E2.
    destruct (prime_mult _ Hq2 _ _ E2) as [[j Hj]|E3].
    - exists j. rewrite Hk, Hj. ring.
    - exfalso. destruct (prime_divisors _ Hq1 _ E3) as [X|[X|[X|X]]]; lia. }
  pose proof (prime_ge_2 _ Hp).
  apply Z.divide_pos_le in E; [|lia]. nia.
Qed.

(** Trial division, for the leaves of the certificate. *)
Fixpoint trial (fuel : nat) (d n : Z) : bool :=
  match fuel with
  | O => false
  | S fuel' => if n <? d * d then true else if n mod d =? 0 then false else trial fuel' (d + 1) n
  end.

Lemma trial_sound fuel : forall d n, 1 < d -> trial fuel d n = true ->
  forall p, d <= p -> p * p <= n -> ~ (p | n).
Proof.
  induction fuel as [|fuel IH]; intros d n Hd H p Hdp Hpp Hdiv; cbn [trial] in H; [discriminate|].
  destruct (n <? d * d) eqn:E1.
  - apply Z.ltb_lt in E1. nia.
  - destruct (n mod d =? 0) eqn:E2; [discriminate|]. apply Z.eqb_neq in E2.
    destruct (Z.eq_dec d p) as [->|Hne].
    + apply E2. apply Z.mod_divide; [lia|exact Hdiv].
    + apply (IH (d + 1) n ltac:(lia) H p); [lia|exact Hpp|exact Hdiv].
Qed.

Lemma trial_prime fuel n : 1 < n -> trial fuel 2 n = true -> prime n.
Proof.
  intros Hn H. apply prime_by_sqrt; [exact Hn|]. intros p Hp Hdiv.
  destruct (Z.lt_ge_cases n (p * p)) as [Hlt|Hge]; [exact Hlt|exfalso].
  pose proof (prime_ge_2 _ Hp).
  exact (trial_sound fuel 2 n ltac:(lia) H p ltac:(lia) Hge Hdiv).
Qed.

(** * The certificate *)

(** The order of the Ristretto group, 2^252 + 27742317777372353535851937790883648493. *)
Definition ell : Z := 2 ^ 252 + 27742317777372353535851937790883648493.

Lemma prime_531581 : prime 531581.
Proof. apply (trial_prime 1000); [lia|vm_compute; reflexivity]. Qed.
Lemma prime_1224481 : prime 1224481.
Proof. apply (trial_prime 1500); [lia|vm_compute; reflexivity]. Qed.

Lemma prime_q5 : prime 1257559732178653.
Proof. apply (pock_check2_sound _ 531581 2 1224481 2 prime_531581 prime_1224481). vm_compute; reflexivity. Qed.
Lemma prime_q4 : prime 4434155615661930479.
Proof. apply (pock_check_sound _ 1257559732178653 2 prime_q5). vm_compute; reflexivity. Qed.
Lemma prime_q3 : prime 172054593956031949258510691.
Proof. apply (pock_check_sound _ 4434155615661930479 2 prime_q4). vm_compute; reflexivity. Qed.
Lemma prime_q2 : prime 19757330305831588566944191468367130476339.
Proof. apply (pock_check_sound _ 172054593956031949258510691 2 prime_q3). vm_compute; reflexivity. Qed.
Lemma prime_q1 : prime 276602624281642239937218680557139826668747.
Proof. apply (pock_check_sound _ 19757330305831588566944191468367130476339 2 prime_q2). vm_compute; reflexivity. Qed.

Theorem ell_prime : prime ell.
Proof. apply (pock_check_sound _ 276602624281642239937218680557139826668747 2 prime_q1). vm_compute; reflexivity. Qed.
