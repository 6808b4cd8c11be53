(** Property C69: serialization of parallel proofs. *)
From Verif Require Import ParSpec ParFacts ParProverFacts ParVerifierFacts ParCompleteness ParVerdict CodecCore ParCodecFacts ParProverApi ParBinding ParVerifierApi ParExamples.
From Verif Require Import Algebra.

(** ** As C45: a proof survives encoding and decoding exactly if its vectors have the lengths an encoding can express... *)
Theorem C69_roundtrip :
  forall (E : env), env_laws E -> forall (pf : proof E),
    (exists bs, to_bytes pf = Ok bs /\ from_bytes bs = Ok pf) <-> exists n1 m, rectangular n1 m pf.
Proof.
  intros E L pf. split.
  - intros (bs & _ & H). destruct (proj1 (from_bytes_iff L bs pf) H) as (n1 & m & Hr & _). exists n1, m. exact Hr.
  - intros (n1 & m & Hr). exact (decode_encode L pf n1 m Hr).
Qed.
Print Assumptions C69_roundtrip.

(** ... in particular if a prover made it, if it fits its parameters, or if it was decoded. *)
Theorem C69_roundtrip_of_proofs :
  forall (E : env), env_laws E -> forall (pf : proof E),
    (forall (R : Type) (ro : rng_ops R) (w : witness E) st rng t t' rng', made_witness w -> made_statement st ->
       prove_with_rng ro w st rng t = (Ok pf, t', rng') -> exists bs, to_bytes pf = Ok bs /\ from_bytes bs = Ok pf) /\
    (forall p, made_params p -> well_shaped p pf -> exists bs, to_bytes pf = Ok bs /\ from_bytes bs = Ok pf) /\
    (forall bs, from_bytes bs = Ok pf -> to_bytes pf = Ok bs).
Proof.
  intros E L pf.
  assert (H2 : forall p, made_params p -> well_shaped p pf -> exists bs, to_bytes pf = Ok bs /\ from_bytes bs = Ok pf).
  { intros p Hp Hw. exact (decode_encode L pf _ _ (well_shaped_rectangular p pf (made_good p Hp) Hw)). }
  split; [|split; [exact H2|exact (fun bs => encode_decode L bs pf)]].
  intros R ro w st rng t t' rng' Hw Hst H.
  destruct (prove_shape L ro w st rng t pf t' rng' Hw Hst H) as (HX & HX1 & HY & Hf & Hr & _).
  apply (H2 (st_get_params st)); [exact (proj1 (made_statement_parts L st Hst))|].
  split; [exact HX|]. split; [exact HX1|]. split; [exact HY|]. split; [exact Hf|]. apply Forall_forall. exact Hr.
Qed.
Print Assumptions C69_roundtrip_of_proofs.

Example C69_roundtrip_example : exists bs, to_bytes (x_proof P0 T0 2 1) = Ok bs /\ from_bytes (E := E0) bs = Ok (x_proof P0 T0 2 1) /\ length bs = 520%nat.
Proof.
  destruct (x_check_ok P0 T0 2 1 x_check_2_1) as [Hx _]. destruct (x_proved P0 T0 2 1 ltac:(lia) Hx) as [_ Hp].
  destruct (proj1 (C69_roundtrip_of_proofs E0 L0 (x_proof P0 T0 2 1)) N counter (x_witness P0 T0 2) (x_statement P0 T0 2) 5%N (x_transcript 1) _ _
    (x_witness_made P0 T0 2 ltac:(lia)) (x_statement_made P0 T0 2) Hp) as (bs & H1 & H2).
  exists bs. split; [exact H1|]. split; [exact H2|].
  destruct (prove_shape L0 counter _ _ _ _ _ _ _ (x_witness_made P0 T0 2 ltac:(lia)) (x_statement_made P0 T0 2) Hp) as (_ & _ & _ & _ & _ & bs' & Hb & Hl).
  rewrite H1 in Hb. injection Hb as <-. change (get_m (st_get_params (x_statement P0 T0 2))) with 2%N in Hl.
  change (get_n (st_get_params (x_statement P0 T0 2))) with 2%N in Hl. lia.
Qed.

(** ** As C46 *)
Theorem C69_canonical :
  forall (E : env), env_laws E ->
    (forall bs bs' (pf : proof E), from_bytes bs = Ok pf -> from_bytes bs' = Ok pf -> bs = bs') /\
    (forall bs (pf : proof E), from_bytes bs = Ok pf -> to_bytes pf = Ok bs) /\
    (forall bs (pf pf' : proof E), (exists n1 m, rectangular n1 m pf) -> (exists n1 m, rectangular n1 m pf') ->
       to_bytes pf = Ok bs -> to_bytes pf' = Ok bs -> pf = pf').
Proof.
  intros E L. split; [|split].
  - intros bs bs' pf H H'. apply (encode_decode L) in H, H'. congruence.
  - exact (encode_decode L).
  - intros bs pf pf' (n1 & m & Hr) (n1' & m' & Hr') H H'.
    destruct (decode_encode L pf n1 m Hr) as (b1 & H1 & H2). destruct (decode_encode L pf' n1' m' Hr') as (b2 & H3 & H4). congruence.
Qed.
Print Assumptions C69_canonical.

(** ** As C47: the first eight bytes fix the dimensions and the dimensions fix the length. *)
Theorem C69_accepted_encodings :
  forall (E : env), env_laws E -> forall bs (pf : proof E), from_bytes bs = Ok pf ->
    let n1 := le_val (firstn 4 bs) in let m := le_val (firstn 4 (skipn 4 bs)) in
    (1 <= n1)%N /\ (n1 + 1 < 2 ^ 32)%N /\ (2 <= m)%N /\
    N.of_nat (length bs) = (8 + 32 * (8 + 3 * m + m * n1))%N /\
    length (pf_X pf) = N.to_nat m /\ length (pf_X1 pf) = N.to_nat m /\ length (pf_Y pf) = N.to_nat m /\
    length (pf_f pf) = N.to_nat m /\ (forall row, In row (pf_f pf) -> length row = N.to_nat n1).
Proof.
  intros E L bs pf H. destruct (proj1 (from_bytes_iff L bs pf) H) as (n1 & m & Hr & Hb).
  assert (H1 : le_val (firstn 4 bs) = n1).
  { rewrite Hb. unfold encoding. rewrite firstn_app, le_bytes_length, Nat.sub_diag, firstn_O, app_nil_r.
    rewrite firstn_all2 by (rewrite le_bytes_length; lia). rewrite le_val_le_bytes. apply N.mod_small.
    destruct Hr as [Hr _]. change (2 ^ (8 * N.of_nat 4))%N with (2 ^ 32)%N. lia. }
  assert (H2 : le_val (firstn 4 (skipn 4 bs)) = m).
  { rewrite Hb. unfold encoding. rewrite skipn_app, le_bytes_length, Nat.sub_diag, skipn_O.
    rewrite skipn_all2 by (rewrite le_bytes_length; lia). cbn [app].
    rewrite firstn_app, le_bytes_length, Nat.sub_diag, firstn_O, app_nil_r.
    rewrite firstn_all2 by (rewrite le_bytes_length; lia). rewrite le_val_le_bytes. apply N.mod_small.
    destruct Hr as [Hr _]. change (2 ^ (8 * N.of_nat 4))%N with (2 ^ 32)%N. lia. }
  cbv zeta. rewrite H1, H2. rewrite Hb at 1. rewrite (encoding_length L n1 m pf Hr).
  destruct Hr as ((Ha & Hb1 & Hc & Hd) & HX & HX1 & HY & Hf & Hrow).
  split; [exact Ha|]. split; [exact Hb1|]. split; [exact Hc|]. split; [reflexivity|]. split; [exact HX|]. split; [exact HX1|]. split; [exact HY|]. split; [exact Hf|]. apply Forall_forall. exact Hrow.
Qed.
Print Assumptions C69_accepted_encodings.

Theorem C69_no_truncation_or_extension :
  forall (E : env), env_laws E -> forall bs extra (pf : proof E), extra <> [] ->
    (from_bytes bs = Ok pf -> from_bytes (E := E) (bs ++ extra) = Err FailedDeserialization) /\
    (from_bytes (bs ++ extra) = Ok pf -> from_bytes (E := E) bs = Err FailedDeserialization).
Proof.
  intros E L bs extra pf He. split; intros H.
  - destruct (from_bytes_fd (E := E) (bs ++ extra)) as [(pf' & Hp)|Hp]; [|exact Hp]. destruct (He (from_bytes_prefix_free L bs extra pf pf' H Hp)).
  - destruct (from_bytes_fd (E := E) bs) as [(pf' & Hp)|Hp]; [|exact Hp]. destruct (He (from_bytes_prefix_free L bs extra pf' pf Hp H)).
Qed.
Print Assumptions C69_no_truncation_or_extension.

(** ** As C48 *)
Theorem C69_decoding_total :
  forall (E : env) bs, (exists pf, from_bytes (E := E) bs = Ok pf) \/ from_bytes (E := E) bs = Err FailedDeserialization.
Proof. intros E bs. exact (from_bytes_fd bs). Qed.
Print Assumptions C69_decoding_total.
(** Exactly what is accepted: the encodings of rectangular proofs. *)
Theorem C69_decoding_exactly :
  forall (E : env), env_laws E -> forall bs (pf : proof E),
    from_bytes bs = Ok pf <-> exists n1 m, rectangular n1 m pf /\ bs = encoding n1 m pf.
Proof. intros E L bs pf. exact (from_bytes_iff L bs pf). Qed.
Print Assumptions C69_decoding_exactly.

(** ** As C49: [to_bytes] panics exactly on a proof without response rows... *)
Theorem C69_encoding_panics_iff :
  forall (E : env) (pf : proof E), to_bytes pf = Panic <-> pf_f pf = [].
Proof. intros E pf. exact (to_bytes_panics_iff pf). Qed.
Print Assumptions C69_encoding_panics_iff.
Theorem C69_encoding_total_refuted : exists (pf : proof E0), to_bytes pf = Panic.
Proof. exists (mk_proof (E := E0) s0 s0 s0 s0 [] [] [] [] s0 s0 s0 s0). reflexivity. Qed.
Print Assumptions C69_encoding_total_refuted.
(** ... never on one that a prover made or that was decoded... *)
Theorem C69_encoding_total_on_proofs :
  forall (E : env), env_laws E -> forall (pf : proof E),
    ((exists (R : Type) (ro : rng_ops R) (w : witness E) st rng t t' rng', made_witness w /\ made_statement st /\
       prove_with_rng ro w st rng t = (Ok pf, t', rng')) \/ (exists bs, from_bytes bs = Ok pf)) ->
    exists bs, to_bytes pf = Ok bs.
Proof.
  intros E L pf [(R & ro & w & st & rng & t & t' & rng' & Hw & Hst & H)|(bs & H)].
  - destruct (proj1 (C69_roundtrip_of_proofs E L pf) R ro w st rng t t' rng' Hw Hst H) as (bs & Hb & _). exists bs. exact Hb.
  - exists bs. exact (encode_decode L bs pf H).
Qed.
Print Assumptions C69_encoding_total_on_proofs.
(** ... and does not distinguish a valid proof from the object that has the first element of [X1] moved to the end of [X]. *)
Definition moved {E : env} (pf : proof E) : proof E :=
  mk_proof (pf_A pf) (pf_B pf) (pf_C pf) (pf_D pf) (pf_X pf ++ firstn 1 (pf_X1 pf)) (skipn 1 (pf_X1 pf)) (pf_Y pf) (pf_f pf) (pf_z_A pf) (pf_z_C pf) (pf_z pf) (pf_z1 pf).
Lemma moved_bytes {E : env} (pf : proof E) : to_bytes (moved pf) = to_bytes pf.
Proof.
  unfold to_bytes, moved. cbn [pf_f pf_A pf_B pf_C pf_D pf_X pf_X1 pf_Y pf_z_A pf_z_C pf_z pf_z1].
  destruct (index (pf_f pf) 0) as [f0|e| |]; cbn [obind]; try reflexivity.
  assert (H : concat (map (compress E) (pf_X pf ++ firstn 1 (pf_X1 pf))) ++ concat (map (compress E) (skipn 1 (pf_X1 pf)))
     = concat (map (compress E) (pf_X pf)) ++ concat (map (compress E) (pf_X1 pf))).
  { rewrite map_app, concat_app, <- app_assoc, <- concat_app, <- map_app, firstn_skipn. reflexivity. }
  repeat rewrite <- app_assoc. apply (f_equal (Ok (E := proof_error))).
  do 10 apply (f_equal2 (@app _) eq_refl). rewrite !app_assoc. apply (f_equal2 (@app _)); [apply (f_equal2 (@app _)); [exact H|reflexivity]|reflexivity].
Qed.
Lemma moved_differs {E : env} (pf pf' : proof E) : length (pf_X pf) = 2%nat -> length (pf_X pf') = 3%nat -> pf <> pf'.
Proof. intros H H' He. subst pf'. rewrite H in H'. discriminate. Qed.

Theorem C69_encoding_loses_shape_refuted :
  exists (st : statement E0) (pf pf' : proof E0) t bs,
    made_statement st /\ pf <> pf' /\ to_bytes pf = Ok bs /\ to_bytes pf' = Ok bs /\ from_bytes bs = Ok pf /\
    (exists t', verify_returns OverflowPanics pf st t (Ok tt) t') /\
    (exists reason, verify_returns OverflowPanics pf' st t (Err (InvalidParameter reason)) t).
Proof.
  destruct (x_check_ok P0 T0 2 1 x_check_2_1) as [Hx _]. destruct (x_proved P0 T0 2 1 ltac:(lia) Hx) as [_ Hp].
  pose proof (x_statement_made P0 T0 2) as Hm.
  pose proof (proj1 (C69_roundtrip_of_proofs E0 L0 (x_proof P0 T0 2 1)) N counter _ _ _ _ _ _ (x_witness_made P0 T0 2 ltac:(lia)) Hm Hp) as (bs & H1 & H2).
  pose proof (prove_shape L0 counter _ _ _ _ _ _ _ (x_witness_made P0 T0 2 ltac:(lia)) Hm Hp) as (HX & HX1 & _).
  change (N.to_nat (get_m (st_get_params (x_statement P0 T0 2)))) with 2%nat in HX, HX1.
  assert (HXs : length (pf_X (moved (x_proof P0 T0 2 1))) = 3%nat).
  { unfold moved. cbn [pf_X]. rewrite app_length, firstn_length, HX, HX1. reflexivity. }
  pose proof (x_valid P0 T0 2 1 ltac:(lia) x_check_2_1) as Hv.
  destruct (batch_of_valid L0 OverflowPanics (x_statement P0 T0 2) [] [x_proof P0 T0 2 1] [x_transcript 1] Hm) as [_ Hb].
  { intros a b [<-|[]] [<-|[]]. split; reflexivity. }
  { exact (eq_refl 1%nat). }
  { exact (eq_refl 1%nat). }
  { intros i s p u (Ha & Hb & Hc). destruct i as [|i]; [|destruct i; discriminate]. cbn [nth_error] in *. injection Ha as <-. injection Hb as <-. injection Hc as <-. exact Hv. }
  { exact (x_fits P0 T0 2 OverflowPanics 1 ltac:(lia)). }
  specialize (Hb (E0_weights_terminate 5)).
  destruct (verify_batch_misshaped 0 OverflowPanics (x_statement P0 T0 2) [] [moved (x_proof P0 T0 2 1)] [x_transcript 1]) as [reason Hr].
  { exact (made_statement_good L0 _ Hm). }
  { intros Hc. pose proof (Forall_inv Hc) as (Hc1 & _). change (N.to_nat (get_m (st_params (x_statement P0 T0 2)))) with 2%nat in Hc1. rewrite HXs in Hc1. discriminate. }
  exists (x_statement P0 T0 2), (x_proof P0 T0 2 1), (moved (x_proof P0 T0 2 1)), (x_transcript 1), bs.
  split; [exact Hm|]. split; [exact (moved_differs _ _ HX HXs)|]. split; [exact H1|].
  split; [rewrite moved_bytes; exact H1|]. split; [exact H2|]. split.
  - eexists. apply verify_returns_batch. exact Hb.
  - exists reason. apply verify_returns_batch. exists 0%nat. split; [exact Hr|discriminate].
Qed.
Print Assumptions C69_encoding_loses_shape_refuted.

(** ** As C50: Borsh *)
Theorem C69_borsh_roundtrip :
  forall (E : env), env_laws E -> forall (pf : proof E) n1 m trailing,
    rectangular n1 m pf -> (encoded_size n1 m < 2 ^ 32)%N ->
    exists bs, borsh_serialize pf = Ok bs /\ borsh_deserialize_reader (bs ++ trailing) = Ok (pf, trailing).
Proof. intros E L pf n1 m trailing. exact (borsh_roundtrip L pf n1 m trailing). Qed.
Print Assumptions C69_borsh_roundtrip.
Theorem C69_borsh_canonical :
  forall (E : env), env_laws E -> forall reader (pf : proof E) rest,
    borsh_deserialize_reader reader = Ok (pf, rest) -> exists bs, borsh_serialize pf = Ok bs /\ reader = bs ++ rest.
Proof. intros E L reader pf rest. exact (borsh_canonical L reader pf rest). Qed.
Print Assumptions C69_borsh_canonical.
Theorem C69_borsh_total :
  forall (E : env) reader, borsh_deserialize_reader (E := E) reader = Err IoError \/ exists x, borsh_deserialize_reader (E := E) reader = Ok x.
Proof. intros E reader. destruct (borsh_total (E := E) reader) as (r & -> & H). exact H. Qed.
Print Assumptions C69_borsh_total.
(** The dimensions of the example are met by every proof for parameters of which the encoding fits. *)
Example C69_borsh_example : exists bs, borsh_serialize (x_proof P0 T0 2 1) = Ok bs /\
  borsh_deserialize_reader (E := E0) (bs ++ [x00; xff]) = Ok (x_proof P0 T0 2 1, [x00; xff]).
Proof.
  destruct (x_check_ok P0 T0 2 1 x_check_2_1) as [Hx _]. destruct (x_proved P0 T0 2 1 ltac:(lia) Hx) as [_ Hp].
  apply (C69_borsh_roundtrip E0 L0 (x_proof P0 T0 2 1) 1 2).
  - pose proof (x_valid P0 T0 2 1 ltac:(lia) x_check_2_1) as (Hw & _).
    exact (well_shaped_rectangular (x_params P0 T0) (x_proof P0 T0 2 1) (made_good _ (x_params_made P0 T0)) Hw).
  - reflexivity.
Qed.

(** ** As C51: a verifier that received the bytes does what a verifier that has the proof does. *)
Theorem C69_verification_survives_encoding :
  forall (E : env), env_laws E -> forall (pf pf' : proof E) p bs md (st : statement E) t,
    made_params p -> well_shaped p pf -> to_bytes pf = Ok bs -> from_bytes bs = Ok pf' ->
    (forall r t', verify_returns md pf st t r t' <-> verify_returns md pf' st t r t') /\
    (forall sts pfs1 pfs2 ts r ts',
       verify_batch_returns md sts (pfs1 ++ pf :: pfs2) ts r ts' <-> verify_batch_returns md sts (pfs1 ++ pf' :: pfs2) ts r ts').
Proof.
  intros E L pf pf' p bs md st t Hp Hw Hb H.
  destruct (proj1 (proj2 (C69_roundtrip_of_proofs E L pf)) p Hp Hw) as (bs' & Hb' & H').
  assert (pf' = pf) by congruence. subst pf'. split; intros; reflexivity.
Qed.
Print Assumptions C69_verification_survives_encoding.
(** End to end: what is accepted from the wire is what was sent: an honest proof, encoded and decoded, is accepted unless one
    of its responses is zero. *)
Theorem C69_honest_over_the_wire :
  forall (E : env), env_laws E -> weights_terminate (E := E) 5 ->
  forall (R : Type) (ro : rng_ops R) md (w : witness E) (st : statement E) rng t pf t' rng',
    made_witness w -> made_statement st -> prove_with_rng ro w st rng t = (Ok pf, t', rng') -> fits md (st_get_params st) 1 ->
    exists bs, to_bytes pf = Ok bs /\ forall pf', from_bytes bs = Ok pf' ->
      nondegenerate t st pf -> exists t'', verify_returns md pf' st t (Ok tt) t''.
Proof.
  intros E L Ht R ro md w st rng t pf t' rng' Hw Hst Hp Hf.
  destruct (proj1 (C69_roundtrip_of_proofs E L pf) R ro w st rng t t' rng' Hw Hst Hp) as (bs & Hb & Hd).
  exists bs. split; [exact Hb|]. intros pf' Hd' Hnd. assert (pf' = pf) by congruence. subst pf'.
  eexists. exact (proj2 (honest_verifies L md ro w st rng t pf t' rng' Hw Hst Hp Hf) Ht Hnd).
Qed.
Print Assumptions C69_honest_over_the_wire.
