(** Property C91: serialization through serde. *)
From Verif Require Import SpecPlainSound SerdeProof SerdeFacts PlainFacts CodecFacts ProverApi Verdict VerifierApi Examples Properties_Prover Properties_Verifier Properties_Codec.
From Coq Require Import Permutation.
From Verif Require Import Algebra.

Lemma field_names_distinct : NoDup field_names.
Proof. unfold field_names. repeat constructor; cbn; intuition discriminate. Qed.

(** ** C91: every proof, whatever its dimensions, is read back as it was written, with and without field names, by strict and lenient
    formats... *)
Theorem C91_roundtrip :
  forall (E : env), env_laws E -> forall s lo (pf : proof E), deserialize lo (serialize s pf) = Ok pf.
Proof.
  intros E L s lo pf. unfold deserialize, serialize. rewrite (des_struct_value lo s field_names (proof_fields pf) field_names_distinct eq_refl).
  unfold proof_fields, point_tree, scalar_tree. cbn [obind map snd].
  rewrite !(des_point_value L), !des_scalar_value. cbn [obind].
  rewrite !(des_vec_value (des_point lo) (fun P => bytes_tree (compress E P))) by (intros; apply (des_point_value L)). cbn [obind].
  rewrite (des_vec_value (des_vec (des_scalar lo)) (vec_tree (fun s => bytes_tree (scalar_to_bytes s)))).
  - destruct pf. reflexivity.
  - intros row. apply des_vec_value. intros x. apply des_scalar_value.
Qed.
Print Assumptions C91_roundtrip.

(** ... a strict format accepts nothing else, except that named fields may come in any order and among unknown ones... *)
Theorem C91_accepted_exactly :
  forall (E : env), env_laws E -> forall v (pf : proof E),
    deserialize LeftoversRefused v = Ok pf <->
    v = serialize Positional pf \/
    exists fields, v = VMap fields /\ Permutation (filter (fun kv => existsb (String.eqb (fst kv)) field_names) fields) (proof_fields pf).
Proof.
  intros E L v pf. split.
  - unfold deserialize. destruct (des_struct LeftoversRefused field_names v) as [vs| | |] eqn:Ed; cbn [obind]; try discriminate.
    apply (des_struct_inv _ _ _ field_names_distinct) in Ed. destruct Ed as [Hl Hv].
    destruct vs as [|vA [|vB [|vC [|vD [|vX [|vY [|vf [|vzA [|vzC [|vz [|]]]]]]]]]]]; try discriminate Hl. intros H.
    destruct (des_point LeftoversRefused vA) as [A| | |] eqn:EA; cbn [obind] in H; try discriminate.
    destruct (des_point LeftoversRefused vB) as [B| | |] eqn:EB; cbn [obind] in H; try discriminate.
    destruct (des_point LeftoversRefused vC) as [C| | |] eqn:EC; cbn [obind] in H; try discriminate.
    destruct (des_point LeftoversRefused vD) as [D| | |] eqn:ED; cbn [obind] in H; try discriminate.
    destruct (des_vec (des_point LeftoversRefused) vX) as [X| | |] eqn:EX; cbn [obind] in H; try discriminate.
    destruct (des_vec (des_point LeftoversRefused) vY) as [Y| | |] eqn:EY; cbn [obind] in H; try discriminate.
    destruct (des_vec (des_vec (des_scalar LeftoversRefused)) vf) as [f| | |] eqn:Ef; cbn [obind] in H; try discriminate.
    destruct (des_scalar LeftoversRefused vzA) as [z_A| | |] eqn:EzA; cbn [obind] in H; try discriminate.
    destruct (des_scalar LeftoversRefused vzC) as [z_C| | |] eqn:EzC; cbn [obind] in H; try discriminate.
    destruct (des_scalar LeftoversRefused vz) as [z| | |] eqn:Ez; cbn [obind] in H; try discriminate.
    injection H as <-.
    apply (des_point_inv L) in EA, EB, EC, ED. apply des_scalar_inv in EzA, EzC, Ez.
    apply (des_vec_inv _ point_tree) in EX; [|intros u x Hu; exact (des_point_inv L u x Hu)].
    apply (des_vec_inv _ point_tree) in EY; [|intros u x Hu; exact (des_point_inv L u x Hu)].
    apply (des_vec_inv _ (vec_tree scalar_tree)) in Ef; [|intros u x Hu; apply (des_vec_inv _ scalar_tree) in Hu; [exact Hu|intros u' x' Hu'; exact (des_scalar_inv u' x' Hu')]].
    subst vA vB vC vD vX vY vf vzA vzC vz. destruct Hv as [->|(fields & -> & Hp)]; [left; reflexivity|right]. exists fields. split; [reflexivity|exact Hp].
  - intros [->|(fields & -> & Hp)]; [apply (C91_roundtrip E L)|].
    rewrite <- (C91_roundtrip E L Positional LeftoversRefused pf). unfold deserialize. f_equal. cbn [serialize struct_tree des_struct].
    change (visit_seq LeftoversRefused field_names (map snd (proof_fields pf))) with (@Ok serde_error _ (map snd (proof_fields pf))).
    apply (visit_map_spec _ _ _ field_names_distinct). split; [reflexivity|exact Hp].
Qed.
Print Assumptions C91_accepted_exactly.

(** ... and reading never panics. *)
Theorem C91_total :
  forall (E : env) lo v, (exists pf, deserialize (E := E) lo v = Ok pf) \/ deserialize (E := E) lo v = Err SerdeError.
Proof.
  intros E lo v.
  assert (HmapM : forall A B (f : A -> outcome serde_error B) l, (forall x, (exists y, f x = Ok y) \/ f x = Err SerdeError) -> (exists r, mapM f l = Ok r) \/ mapM f l = Err SerdeError).
  { intros A B f l Hf. induction l as [|x l IH]; [left; eexists; reflexivity|]. cbn [mapM]. destruct (Hf x) as [[y ->]| ->]; [|right; reflexivity].
    cbn [obind]. destruct IH as [[r ->]| ->]; [left; eexists; reflexivity|right; reflexivity]. }
  assert (H32 : forall u, (exists bs, des_32 lo u = Ok bs) \/ des_32 lo u = Err SerdeError).
  { intros [b|us|fs]; try (right; reflexivity). cbn [des_32].
    destruct (HmapM _ _ des_u8 (firstn 32 us)) as [[bs ->]| ->]; [intros [b| |]; [left; eexists; reflexivity|right; reflexivity|right; reflexivity]| |right; reflexivity].
    cbn [obind]. destruct (length bs <? 32)%nat; [right; reflexivity|]. destruct (32 <? length us)%nat; [destruct lo; [right; reflexivity|left; eexists; reflexivity]|left; eexists; reflexivity]. }
  assert (Hp : forall u, (exists P, des_point (E := E) lo u = Ok P) \/ des_point (E := E) lo u = Err SerdeError).
  { intros u. unfold des_point. destruct (H32 u) as [[bs ->]| ->]; [|right; reflexivity]. cbn [obind]. destruct (decompress E bs); [left; eexists; reflexivity|right; reflexivity]. }
  assert (Hs : forall u, (exists s, des_scalar lo u = Ok s) \/ des_scalar lo u = Err SerdeError).
  { intros u. unfold des_scalar. destruct (H32 u) as [[bs ->]| ->]; [|right; reflexivity]. cbn [obind]. destruct (scalar_from_canonical bs); [left; eexists; reflexivity|right; reflexivity]. }
  assert (Hv : forall A (f : tree -> outcome serde_error A), (forall x, (exists y, f x = Ok y) \/ f x = Err SerdeError) ->
    forall u, (exists r, des_vec f u = Ok r) \/ des_vec f u = Err SerdeError).
  { intros A f Hf [b|us|fs]; try (right; reflexivity). apply HmapM. exact Hf. }
  assert (Hst : (exists vs, des_struct lo field_names v = Ok vs) \/ des_struct lo field_names v = Err SerdeError).
  { destruct v as [b|us|fs]; cbn [des_struct]; [right; reflexivity| |].
    - unfold visit_seq. destruct (length us <? length field_names)%nat; [right; reflexivity|].
      destruct (length field_names <? length us)%nat; [destruct lo; [right; reflexivity|left; eexists; reflexivity]|left; eexists; reflexivity].
    - unfold visit_map.
      assert (Hscan : forall fs got, (exists r, scan_map field_names fs got = Ok r) \/ scan_map field_names fs got = Err SerdeError).
      { clear. induction fs as [|[k u] fs IH]; intros got; cbn [scan_map]; [left; eexists; reflexivity|].
        destruct (existsb _ field_names); [|apply IH]. destruct (existsb _ got); [right; reflexivity|apply IH]. }
      destruct (Hscan fs []) as [[got ->]| ->]; [|right; reflexivity]. cbn [obind]. apply HmapM. intros k. unfold lookup.
      destruct (find _ got); [left; eexists; reflexivity|right; reflexivity]. }
  unfold deserialize. destruct Hst as [[vs ->]| ->]; [|right; reflexivity]. cbn [obind].
  destruct vs as [|vA [|vB [|vC [|vD [|vX [|vY [|vf [|vzA [|vzC [|vz [|]]]]]]]]]]]; try (right; reflexivity).
  destruct (Hp vA) as [[A ->]| ->]; [|right; reflexivity]. cbn [obind].
  destruct (Hp vB) as [[B ->]| ->]; [|right; reflexivity]. cbn [obind].
  destruct (Hp vC) as [[C ->]| ->]; [|right; reflexivity]. cbn [obind].
  destruct (Hp vD) as [[D ->]| ->]; [|right; reflexivity]. cbn [obind].
  destruct (Hv _ _ Hp vX) as [[X ->]| ->]; [|right; reflexivity]. cbn [obind].
  destruct (Hv _ _ Hp vY) as [[Y ->]| ->]; [|right; reflexivity]. cbn [obind].
  destruct (Hv _ _ (Hv _ _ Hs) vf) as [[f ->]| ->]; [|right; reflexivity]. cbn [obind].
  destruct (Hs vzA) as [[z_A ->]| ->]; [|right; reflexivity]. cbn [obind].
  destruct (Hs vzC) as [[z_C ->]| ->]; [|right; reflexivity]. cbn [obind].
  destruct (Hs vz) as [[z ->]| ->]; [|right; reflexivity]. left. eexists. reflexivity.
Qed.
Print Assumptions C91_total.

(** ** Unlike [from_bytes], serde lets proofs of all dimensions in.  That a proof which was read can be written by [to_bytes] is
    refuted, even for lawful formats: it panics... *)
Theorem C91_encodable_refuted :
  forall (E : env), env_laws E -> exists v (pf : proof E), deserialize LeftoversRefused v = Ok pf /\ to_bytes pf = Panic.
Proof.
  intros E L. set (pf := mk_proof (pid E) (pid E) (pid E) (pid E) [] [] [] s0 s0 s0).
  exists (serialize Positional pf), pf. split; [apply (C91_roundtrip E L)|reflexivity].
Qed.
Print Assumptions C91_encodable_refuted.
(** ... or, if it does not panic, may write what [from_bytes] refuses. *)
Theorem C91_formats_agree_refuted :
  forall (E : env), env_laws E -> exists v (pf : proof E) bs,
    deserialize LeftoversRefused v = Ok pf /\ to_bytes pf = Ok bs /\ from_bytes (E := E) bs = Err FailedDeserialization.
Proof.
  intros E L. set (pf := mk_proof (pid E) (pid E) (pid E) (pid E) [] [] [[]] s0 s0 s0).
  destruct (to_bytes pf) as [bs| | |] eqn:Eb; try discriminate Eb.
  exists (serialize Positional pf), pf, bs. split; [apply (C91_roundtrip E L)|]. split; [exact Eb|].
  destruct (C48_decoding_total E bs) as [[pf' Hp]|Hp]; [exfalso|exact Hp].
  destruct (C47_accepted_encodings E L bs pf' Hp) as (H1 & _).
  assert (Hz : le_val (firstn 4 bs) = 0%N); [|rewrite Hz in H1; lia].
  assert (Hbs : exists rest, bs = [x00; x00; x00; x00] ++ rest).
  { unfold to_bytes, pf in Eb. cbn [index nth_error obind pf_f] in Eb. injection Eb as <-. eexists. reflexivity. }
  destruct Hbs as [rest ->]. reflexivity.
Qed.
Print Assumptions C91_formats_agree_refuted.
(** But whatever was read, by whatever format, verifying it does not panic, and it is accepted only if it has the right dimensions. *)
Theorem C91_reading_is_safe :
  forall (E : env), env_laws E -> forall md lo v (pf : proof E) (st : statement E) t r t',
    made_statement st -> fits md (st_get_params st) 1 -> deserialize lo v = Ok pf -> verify_returns md pf st t r t' ->
    r <> Panic /\ (r = Ok tt -> well_shaped (st_get_params st) pf).
Proof.
  intros E L md lo v pf st t r t' Hm Hf _ Hv. apply verify_returns_batch in Hv. split.
  - assert (Hm1 : Forall made_statement [st]) by (constructor; [exact Hm|constructor]). destruct md.
    + apply (C31_overflow_checked E L st [] [pf] [t] r [t'] Hm1 Hv). destruct Hf as [_ [Hf|Hf]]; [discriminate|exact Hf].
    + destruct (proj1 (C30_never_panics E L [st] [pf] [t] Hm1) r [t'] Hv) as [ ->|[ ->|[ ->|[reason ->]]]]; discriminate.
  - intros ->. destruct (accepted_batch L md st [] [pf] [t] [t'] ltac:(constructor; [exact Hm|constructor]) Hv) as (_ & _ & Hw & _).
    apply (Hw 0%nat st pf t). repeat split; reflexivity.
Qed.
Print Assumptions C91_reading_is_safe.

(** ** A proof of the example, presented by name in the reverse order and with an unknown field in front, is read; without its first
    field, or with it twice, it is not. *)
Example C91_example :
  deserialize LeftoversRefused (VMap (("comment"%string, VU8 x00) :: rev (proof_fields (x_proof P0 T0 2 1)))) = Ok (x_proof P0 T0 2 1) /\
  deserialize (E := E0) LeftoversIgnored (VMap (tl (proof_fields (x_proof P0 T0 2 1)))) = Err SerdeError /\
  deserialize (E := E0) LeftoversIgnored (VMap (("A"%string, point_tree (E := E0) (x_U P0 T0)) :: proof_fields (x_proof P0 T0 2 1))) = Err SerdeError /\
  deserialize (E := E0) LeftoversRefused (VSeq (map snd (proof_fields (x_proof P0 T0 2 1)) ++ [VU8 x00])) = Err SerdeError /\
  deserialize (E := E0) LeftoversIgnored (VSeq (map snd (proof_fields (x_proof P0 T0 2 1)) ++ [VU8 x00])) = Ok (x_proof P0 T0 2 1).
Proof.
  assert (Hgen : forall (E : env), env_laws E -> forall (pf : proof E) (U : pt E),
    deserialize LeftoversRefused (VMap (("comment"%string, VU8 x00) :: rev (proof_fields pf))) = Ok pf /\
    deserialize (E := E) LeftoversIgnored (VMap (tl (proof_fields pf))) = Err SerdeError /\
    deserialize (E := E) LeftoversIgnored (VMap (("A"%string, point_tree (E := E) U) :: proof_fields pf)) = Err SerdeError /\
    deserialize (E := E) LeftoversRefused (VSeq (map snd (proof_fields pf) ++ [VU8 x00])) = Err SerdeError /\
    deserialize (E := E) LeftoversIgnored (VSeq (map snd (proof_fields pf) ++ [VU8 x00])) = Ok pf).
  { intros E L pf U. split; [|split; [|split; [|split]]]; try reflexivity.
    - apply (C91_accepted_exactly E L). right. eexists. split; [reflexivity|]. apply Permutation_sym. exact (Permutation_rev (proof_fields pf)).
    - rewrite <- (C91_roundtrip E L Positional LeftoversIgnored pf). reflexivity. }
  exact (Hgen E0 L0 (x_proof P0 T0 2 1) (x_U P0 T0)).
Qed.
