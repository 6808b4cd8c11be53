(** Property C108: random witnesses and scalars are uniform, up to a bias that is stated exactly. *)
From Verif Require Import SpecPlain SpecUniform Uniform PlainFacts Examples.
Local Open Scope N_scope.

(** Whatever the generator, a random witness is determined by one 64-bit number and 64 bytes read after it. *)
Theorem C108_what_is_read :
  forall (E : env) (R : Type) (ro : rng_ops R) (p : params E) (rng : R),
    let x := fst (rng_next_u64 ro rng) in
    let bs := fst (rng_fill ro (snd (rng_next_u64 ro rng)) 64) in
    fst (witness_random ro p rng) = fst (witness_random tape p (x, [bs])) /\
    snd (witness_random ro p rng) = snd (rng_fill ro (snd (rng_next_u64 ro rng)) 64).
Proof.
  intros E R ro p rng x bs. unfold x, bs, witness_random, rng_scalar. cbn [tape rng_fill rng_next_u64 fst snd].
  destruct (rng_next_u64 ro rng) as [y r1]. cbn [fst snd]. destruct (rng_fill ro r1 64) as [b r2]. split; reflexivity.
Qed.
Print Assumptions C108_what_is_read.

(** Of all pairs of a 64-bit number and 64 bytes, exactly this many give index [i] and key [r]. *)
Theorem C108_random_witness_counts :
  forall (E : env) (p : params E), made_params p -> forall (i : N) (r : scalar), i < get_N p ->
    has_card (fun xb : N * bytes => (fst xb < 2 ^ 64 /\ length (snd xb) = 64%nat) /\
                let w := fst (witness_random tape p (fst xb, [snd xb])) in w_get_params w = p /\ w_get_l w = i /\ w_get_r w = r)
             (share (2 ^ 64) (get_N p) i * share (2 ^ 512) order (Z.to_N (sval r))).
Proof.
  intros E p Hp i r Hi. pose proof (made_good p Hp) as Hg.
  assert (HN : get_N p < u32_bound) by (rewrite (good_N p Hg); exact (gp_pow p Hg)).
  pose proof (card_prod _ _ _ _ (card_mod (2 ^ 64) (get_N p) i ltac:(lia) Hi) (card_wide r)) as H.
  revert H. apply card_iff. intros [x bs]. cbn [fst snd]. unfold witness_random, rng_scalar. cbn [tape rng_fill rng_next_u64 fst snd].
  unfold w_get_params, w_get_l, w_get_r. cbn [w_params w_l w_r].
  assert (Hm : (x mod get_N p) mod u32_bound = x mod get_N p) by (apply N.mod_small; pose proof (N.mod_lt x (get_N p) ltac:(lia)); lia).
  rewrite Hm. split; [intros [[H1 H2] [H3 H4]]; repeat split; assumption|intros [[H1 H2] (_ & H3 & H4)]; repeat split; assumption].
Qed.
Print Assumptions C108_random_witness_counts.

(** No index is likelier than another by more than one part in [2^32], no key by more than one part in [2^259]; if the ring size is a
    power of two, all indices are equally likely. *)
Theorem C108_bias :
  forall (E : env) (p : params E), made_params p ->
    (forall i j, 2 ^ 32 * share (2 ^ 64) (get_N p) i <= (2 ^ 32 + 1) * share (2 ^ 64) (get_N p) j) /\
    (forall r r' : scalar, 2 ^ 259 * share (2 ^ 512) order (Z.to_N (sval r)) <= (2 ^ 259 + 1) * share (2 ^ 512) order (Z.to_N (sval r'))) /\
    (forall k, get_N p = 2 ^ k -> forall i j, share (2 ^ 64) (get_N p) i = share (2 ^ 64) (get_N p) j).
Proof.
  intros E p Hp. pose proof (made_good p Hp) as Hg.
  assert (HN : get_N p < 2 ^ 32) by (rewrite (good_N p Hg); exact (gp_pow p Hg)).
  assert (H0 : get_N p <> 0) by (rewrite (good_N p Hg); apply N.pow_nonzero; pose proof (gp_n p Hg); lia).
  split; [|split].
  - intros i j. apply share_bias; [exact H0|]. change (2 ^ 64) with (2 ^ 32 * 2 ^ 32). apply N.mul_le_mono_l. lia.
  - intros r r'. apply share_bias; [exact order_pos|]. apply N.leb_le. reflexivity.
  - intros k Hk i j. assert (Hm : 2 ^ 64 mod get_N p = 0).
    { rewrite Hk. assert (Hk' : k <= 64).
      { destruct (N.le_gt_cases k 64) as [H|H]; [exact H|]. assert (2 ^ 64 < 2 ^ k) by (apply N.pow_lt_mono_r; lia). change (2 ^ 32) with 4294967296 in HN.
        change (2 ^ 64) with 18446744073709551616 in *. lia. }
      replace 64 with ((64 - k) + k) by lia. rewrite N.pow_add_r. apply N.mod_mul. apply N.pow_nonzero. discriminate. }
    rewrite !share_exact by assumption. reflexivity.
Qed.
Print Assumptions C108_bias.

(** Nonces, weights and challenges are 64 uniformly random bytes made into a scalar; each scalar comes from exactly this many strings. *)
Theorem C108_scalars :
  forall (E : env),
    (forall (g : trng), fst (draw (E := E) g) = scalar_from_wide (fst (trng_fill (E := E) g 64))) /\
    (forall t (st : statement E) pf, challenge t st pf = scalar_from_wide (prf E (fs_transcript t st pf) (b_ "xi") 64)) /\
    (forall s, has_card (fun bs => length bs = 64%nat /\ scalar_from_wide bs = s) (share (2 ^ 512) order (Z.to_N (sval s)))).
Proof. intros E. split; [reflexivity|]. split; [reflexivity|exact card_wide]. Qed.
Print Assumptions C108_scalars.

(** Ring size 4 and position 2: exactly a quarter of the 64-bit numbers. *)
Example C108_example : made_params (x_params P0 T0) /\ 2 < get_N (x_params P0 T0) /\
  share (2 ^ 64) (get_N (x_params P0 T0)) 2 = 2 ^ 62.
Proof. split; [apply x_params_made|]. split; reflexivity. Qed.
(** Ring size 3^5 = 243: the shares of different positions differ. *)
Example C108_biased_example : share (2 ^ 64) 243 0 = share (2 ^ 64) 243 242 + 1.
Proof. reflexivity. Qed.
