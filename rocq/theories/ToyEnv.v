(** Environments that satisfy the laws, for the examples that show the hypotheses of the theorems can be met and for the
    refutations.  The group is the scalar field under addition, which has prime order [ell]; byte sources are toy mixers.
    Nothing here is used in the proof of any theorem that quantifies over environments. *)
From Verif Require Export Spec Core.
From Verif Require Import Prime Algebra.

(** An environment for each choice of the two Merlin outputs. *)
Definition toy (P : transcript -> bytes -> N) (T : trng -> N) : env := {|
  pt := scalar; pid := s0; padd := sadd; popp := sopp; pmul := smul; peqb := seqb;
  compress := scalar_to_bytes;
  decompress := scalar_from_canonical;
  from_uniform := scalar_from_wide;
  basepoint := s1;
  prf := fun t label n => le_bytes n (P t label);
  trng_prf := fun g n => le_bytes n (T g);
  xof := fun input offset len => le_bytes len (le_val input * 7919 + N.of_nat offset * 104729 + 65537)%N |}.

Lemma toy_laws P T : env_laws (toy P T).
Proof.
  constructor; cbn [toy pt pid padd popp pmul peqb compress decompress prf trng_prf]; intros.
  - ring.
  - ring.
  - ring.
  - ring.
  - ring.
  - ring.
  - ring.
  - ring.
  - apply seqb_eq.
  - apply scalar_to_bytes_length.
  - apply scalar_from_to_bytes.
  - apply scalar_to_from_bytes; assumption.
  - apply le_bytes_length.
  - apply le_bytes_length.
Qed.

Lemma toy_prime_order P T : prime_order (toy P T).
Proof.
  intros B Q HB. cbn in *. exists (Q / B)%sc. field. exact HB.
Qed.

(** * A mixer: 64-bit states, cheap to compute with *)
Definition mix (h x : N) : N := N.land (h * 1000003 + x + 12345) (2 ^ 64 - 1).
Definition mix_bytes (h : N) (bs : bytes) : N := fold_left (fun h b => mix h (Byte.to_N b)) bs (mix h (N.of_nat (length bs))).
Definition mix_op (h : N) (o : transcript_op) : N :=
  match o with
  | TAppend l m => mix_bytes (mix_bytes h l) m
  | TChallenge l k => mix_bytes (mix h (N.of_nat k)) l
  end.
Definition mix_transcript (t : transcript) : N := fold_left mix_op t 1%N.
Definition mix_trng (g : trng) : N :=
  let h := mix_transcript (tr_base g) in
  let h := fold_left (fun h k => mix_bytes (mix_bytes h (fst k)) (snd k)) (tr_keys g) h in
  let h := mix_bytes h (tr_seed g) in
  fold_left (fun h k => mix h (N.of_nat k)) (tr_used g) h.

Definition P0 (t : transcript) (label : bytes) : N := (1 + mix (mix_bytes (mix_transcript t) label) 0)%N.
Definition T0 (g : trng) : N := (1 + mix (mix_trng g) 0)%N.
Notation E0 := (toy P0 T0).
Definition L0 : env_laws E0 := toy_laws P0 T0.

Lemma mix_lt h x : (mix h x < 2 ^ 64)%N.
Proof. unfold mix. replace (2 ^ 64 - 1)%N with (N.ones 64) by reflexivity. rewrite N.land_ones. apply N.mod_lt. discriminate. Qed.

Lemma wide_nonzero x : (0 < x)%N -> (x <= 2 ^ 64)%N -> scalar_from_wide (le_bytes 64 x) <> s0.
Proof.
  intros H1 H2 H. unfold scalar_from_wide in H. rewrite le_val_le_bytes in H.
  rewrite N.mod_small in H.
  2:{ eapply N.le_lt_trans; [exact H2|]. reflexivity. }
  apply (f_equal sval) in H. change s0 with (smk 0) in H. rewrite !sval_smk in H. rewrite Z.mod_small in H.
  - change (0 mod ell)%Z with 0%Z in H. lia.
  - split; [lia|]. apply Z.le_lt_trans with (2 ^ 64)%Z; [lia|reflexivity].
Qed.

(** The weight loop of the verifiers terminates when no draw is zero. *)
Lemma toy_weights_terminate P T k : (forall g, (0 < T g <= 2 ^ 64)%N) -> weights_terminate (E := toy P T) k.
Proof.
  intros HT g. destruct (draws (E := toy P T) k g) as [ws g'] eqn:Ed.
  exists ws, g'. apply nw_take with (1 := Ed). revert g ws g' Ed.
  induction k as [|k IH]; intros g ws g' Ed; simpl in Ed.
  - injection Ed as <- <-. intros [].
  - destruct (draws (E := toy P T) k _) as [ws1 g1] eqn:E1 in Ed. injection Ed as <- <-.
    intros [H|H]; [|exact (IH _ _ _ E1 H)].
    revert H. apply wide_nonzero; apply HT.
Qed.

Lemma E0_weights_terminate k : weights_terminate (E := E0) k.
Proof. apply toy_weights_terminate. intros g. unfold T0. pose proof (mix_lt (mix_trng g) 0). lia. Qed.

(** * An external generator: a counter. *)
Definition counter : rng_ops N := {|
  rng_fill := fun r n => (le_bytes n (r * 1000003 + 1), (r + 1)%N);
  rng_next_u64 := fun r => (r, (r + 1)%N) |}.
