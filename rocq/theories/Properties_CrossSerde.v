(** Property C93: what the two protocols make of each other's proofs when these are transported by serde.  Names of the parallel model
    are qualified. *)
From Verif Require Import SpecPlainSound SerdeProof SerdeFacts Examples Properties_Serde.
From Verif Require ParSpecSound ParSerdeProof ParExamples Properties_ParSerde.
From Coq Require Import Permutation.
From Verif Require Import Algebra.

(** ** C93: no format, strict or lenient, with or without names, lets a plain proof through as a parallel one... *)
Theorem C93_plain_not_parallel :
  forall (E : env) s lo (pf : proof E), ParSerdeProof.deserialize (E := E) lo (serialize s pf) = Err SerdeError.
Proof. intros E [|] lo pf; reflexivity. Qed.
Print Assumptions C93_plain_not_parallel.

(** ... and no sequence is both, in a strict format. *)
Theorem C93_sequences_disjoint :
  forall (E : env), env_laws E -> forall vs (pf : proof E) (pf' : ParProver.proof E),
    deserialize LeftoversRefused (VSeq vs) = Ok pf -> ParSerdeProof.deserialize LeftoversRefused (VSeq vs) = Ok pf' -> False.
Proof.
  intros E L vs pf pf' H H'.
  apply (C91_accepted_exactly E L) in H. apply (Properties_ParSerde.C92_accepted_exactly E L) in H'.
  destruct H as [H|(f & H & _)]; [|discriminate]. destruct H' as [H'|(f & H' & _)]; [|discriminate].
  injection H as H. injection H' as H'. apply (f_equal (@length tree)) in H, H'. cbn in H, H'. rewrite H in H'. discriminate.
Qed.
Print Assumptions C93_sequences_disjoint.

(** But that the protocols keep apart in every format is refuted: with named fields every parallel proof is read as a plain one, its
    two extra fields being skipped as unknown. *)
Theorem C93_parallel_not_plain_refuted :
  forall (E : env), env_laws E -> forall lo (pf : ParProver.proof E),
    deserialize lo (ParSerdeProof.serialize NamedFields pf) =
      Ok (mk_proof (ParProver.pf_A pf) (ParProver.pf_B pf) (ParProver.pf_C pf) (ParProver.pf_D pf) (ParProver.pf_X pf) (ParProver.pf_Y pf)
                   (ParProver.pf_f pf) (ParProver.pf_z_A pf) (ParProver.pf_z_C pf) (ParProver.pf_z pf)).
Proof.
  intros E L lo pf. set (q := mk_proof _ _ _ _ _ _ _ _ _ _).
  rewrite <- (C91_roundtrip E L Positional lo q). reflexivity.
Qed.
Print Assumptions C93_parallel_not_plain_refuted.

Example C93_example :
  ParSerdeProof.deserialize (E := E0) LeftoversIgnored (serialize NamedFields (x_proof P0 T0 2 1)) = Err SerdeError /\
  exists pf, deserialize (E := E0) LeftoversRefused (ParSerdeProof.serialize NamedFields (ParExamples.x_proof P0 T0 2 1)) = Ok pf.
Proof.
  split; [exact (C93_plain_not_parallel E0 NamedFields LeftoversIgnored _)|].
  eexists. exact (C93_parallel_not_plain_refuted E0 L0 LeftoversRefused (ParExamples.x_proof P0 T0 2 1)).
Qed.
