(** Property C96: the generators that [new] fixes for its caller come from separate parts of the output of the hash function.

    This file imports the plain and the parallel model together; the names of the latter are qualified. *)
From Verif Require Import SpecPlain PlainFacts ToyEnv.
From Verif Require ParSpec ParFacts.

(** ** The generators, and where they come from: an input to BLAKE3 and the offset of the 64 bytes of output that are mapped to a point. *)
Inductive generator := OfTags | OfAuxiliaryKeys | OfMasks | OfEntries (n m : N) (i : nat).
Definition source (g : generator) : bytes * nat :=
  match g with
  | OfTags => (b_ "Triptych U" ++ le_bytes 8 0, 0%nat)
  | OfAuxiliaryKeys => (b_ "Triptych G1" ++ le_bytes 8 0, 0%nat)
  | OfMasks => (b_ "Triptych CommitmentH" ++ le_bytes 8 0, 0%nat)
  | OfEntries n m i => (b_ "Triptych CommitmentG" ++ le_bytes 8 0 ++ le_bytes 4 n ++ le_bytes 4 m, (64 * i)%nat)
  end.
Definition hashed (E : env) (g : generator) : pt E := from_uniform E (xof E (fst (source g)) (snd (source g)) 64).
(** Two slices of 64 bytes have nothing in common: different inputs, or offsets at least 64 apart. *)
Definition separate (a b : bytes * nat) : Prop := fst a <> fst b \/ (snd a + 64 <= snd b)%nat \/ (snd b + 64 <= snd a)%nat.
(** Indices are those of some parameters. *)
Definition sized (g : generator) : Prop := match g with OfEntries n m _ => (n < 2 ^ 32 /\ m < 2 ^ 32)%N | _ => True end.

(** ** C96: [new] fixes all generators, the two protocols share all they have in common... *)
Theorem C96_generators_fixed :
  forall (E : env) (n m : N) (p : params E) (q : ParParams.params E),
    params_new n m = Ok p -> ParParams.params_new n m = Ok q ->
    get_G p = basepoint E /\ get_U p = hashed E OfTags /\ get_CommitmentH p = hashed E OfMasks /\
    get_CommitmentG p = map (fun i => hashed E (OfEntries n m i)) (seq 0 (N.to_nat (n * m))) /\
    ParParams.get_G q = basepoint E /\ ParParams.get_G1 q = hashed E OfAuxiliaryKeys /\ ParParams.get_U q = hashed E OfTags /\
    ParParams.get_CommitmentH q = hashed E OfMasks /\
    ParParams.get_CommitmentG q = map (fun i => hashed E (OfEntries n m i)) (seq 0 (N.to_nat (n * m))).
Proof.
  intros E n m p q Hp Hq. unfold params_new in Hp. unfold ParParams.params_new in Hq.
  pose proof (new_with_generators_valid _ _ _ _ _ Hp) as Hv. rewrite (new_with_generators_ok _ _ _ _ Hv) in Hp.
  rewrite (ParFacts.new_with_generators_ok _ _ _ _ _ Hv) in Hq. injection Hp as <-. injection Hq as <-. repeat split; reflexivity.
Qed.
Print Assumptions C96_generators_fixed.

(** ... and no two of them, in whichever parameters, come from overlapping parts of the output of the hash function: a relation between
    them can be found only by solving a discrete logarithm between hash values. *)
Theorem C96_sources_separate :
  forall g g' : generator, sized g -> sized g' -> g <> g' -> separate (source g) (source g').
Proof.
  assert (Hlen : forall a b : bytes * nat, length (fst a) <> length (fst b) -> separate a b) by (intros a b H; left; congruence).
  intros [| | |n m i] [| | |n' m' i'] Hs Hs' Hne; try (exfalso; apply Hne; reflexivity);
    try (apply Hlen; cbn [source fst]; rewrite ?app_length, ?le_bytes_length; vm_compute; discriminate).
  destruct (N.eq_dec n n') as [->|Hn]; [destruct (N.eq_dec m m') as [->|Hm]|].
  - right. cbn [source snd]. assert (Hi : i <> i') by congruence. lia.
  - left. cbn [source fst]. intros H. apply Hm. do 3 apply app_inv_head in H. destruct Hs as [_ Hs], Hs' as [_ Hs']. apply (le_bytes_inj 4); assumption.
  - left. cbn [source fst]. intros H. apply Hn. do 2 apply app_inv_head in H. destruct Hs as [Hs _], Hs' as [Hs' _].
    apply (le_bytes_inj 4); [assumption|assumption|]. apply (f_equal (firstn 4)) in H.
    rewrite !firstn_app, !le_bytes_length, !Nat.sub_diag, !firstn_O, !app_nil_r, !firstn_all2 in H by (rewrite le_bytes_length; lia). exact H.
Qed.
Print Assumptions C96_sources_separate.

(** The hypotheses of the first are met by all valid sizes, those of the second by any two generators, for instance the first two
    matrix generators of parameters with eight elements, or the first ones of different parameters. *)
Example C96_example : (exists (p : params E0) (q : ParParams.params E0), params_new 2 3 = Ok p /\ ParParams.params_new 2 3 = Ok q) /\
  (sized (OfEntries 2 3 0) /\ sized (OfEntries 2 3 1) /\ OfEntries 2 3 0 <> OfEntries 2 3 1) /\
  sized (OfEntries 3 2 0) /\ OfEntries 2 3 0 <> OfEntries 3 2 0.
Proof.
  split; [|repeat split; try reflexivity; discriminate]. eexists _, _. split.
  - apply new_with_generators_ok. unfold valid_nm. repeat split; vm_compute; congruence.
  - apply ParFacts.new_with_generators_ok. unfold valid_nm. repeat split; vm_compute; congruence.
Qed.
(** In the toy environment, whose hash function has no collisions that small, the points themselves differ. *)
Example C96_points_differ : hashed E0 OfTags <> hashed E0 OfMasks /\ hashed E0 (OfEntries 2 3 0) <> hashed E0 (OfEntries 2 3 1).
Proof. split; intros H; apply (f_equal sval) in H; vm_compute in H; discriminate. Qed.
