(** A concrete batch of two proofs in the toy environment, the second one tampered with. *)
From Verif Require Export Examples SpecTamper SpecVerdict.
From Verif Require Import Algebra VerifierApi Lone.

(** The honest proof for transcript 2 with the response [z_A] replaced. *)
Definition x_tampered : proof E0 := with_z_A (x_proof P0 T0 2 2) (pf_z_A (x_proof P0 T0 2 2) + s1)%sc.
(** A proof with its last response row removed. *)
Definition clipped {E : env} (pf : proof E) : proof E :=
  mk_proof (pf_A pf) (pf_B pf) (pf_C pf) (pf_D pf) (pf_X pf) (pf_Y pf) (removelast (pf_f pf)) (pf_z_A pf) (pf_z_C pf) (pf_z pf).
Definition x_clipped : proof E0 := clipped (x_proof P0 T0 2 2).
Lemma removelast_length {A} (l : list A) : length (removelast l) = (length l - 1)%nat.
Proof.
  induction l as [|a l IH]; [reflexivity|]. destruct l as [|b l]; [reflexivity|].
  change (removelast (a :: b :: l)) with (a :: removelast (b :: l)). cbn [length] in *. lia.
Qed.
Lemma clipped_fault {E : env} (p : params E) (pf : proof E) : well_shaped p pf -> (1 <= get_m p)%N ->
  shape_fault p (clipped pf) "proof `f` matrix did not have `m` rows".
Proof.
  intros (HX & HY & Hf & _) Hm. apply fault_rows; cbn [clipped pf_X pf_Y pf_f]; [exact HX|exact HY|].
  rewrite removelast_length. lia.
Qed.
Lemma x_clipped_fault : shape_fault (st_get_params (x_statement P0 T0 2)) x_clipped "proof `f` matrix did not have `m` rows".
Proof. exact (clipped_fault _ _ (proj1 (x_valid P0 T0 2 2 ltac:(lia) x_check_2_2)) ltac:(change (1 <= 2)%N; lia)). Qed.

Definition x_sts : list (statement E0) := [x_statement P0 T0 2; x_statement P0 T0 2].
Definition x_pfs : list (proof E0) := [x_proof P0 T0 2 1; x_tampered].
Definition x_ts : list transcript := [x_transcript 1; x_transcript 2].

Lemma x_statements_made : Forall made_statement x_sts.
Proof. constructor; [apply x_statement_made|]. constructor; [apply x_statement_made|constructor]. Qed.
Lemma x_statements_ring : one_ring x_sts.
Proof. intros a b [<-|[<-|[]]] [<-|[<-|[]]]; split; reflexivity. Qed.
Lemma x_H_nonzero : get_CommitmentH (st_get_params (x_statement P0 T0 2)) <> pid E0.
Proof. scalars_differ. Qed.
Lemma add_one_differs (x : scalar) : (x + s1)%sc <> x.
Proof.
  intros H. assert (s1 = s0) as Hc; [|revert Hc; scalars_differ].
  replace s1 with (x + s1 - x)%sc by ring. rewrite H. ring.
Qed.
Lemma x_tampered_fails : one_failed_equation (x_transcript 2) (x_statement P0 T0 2) x_tampered.
Proof.
  exact (tamper_z_A L0 (x_transcript 2) (x_statement P0 T0 2) (x_proof P0 T0 2 2) _ x_H_nonzero
    (x_valid P0 T0 2 2 ltac:(lia) x_check_2_2) (add_one_differs _)).
Qed.
Lemma lone_second {E : env} (st st' : statement E) pf pf' t t' : valid_proof t st pf -> one_failed_equation t' st' pf' ->
  lone_failure [st; st'] [pf; pf'] [t; t'] 1.
Proof.
  intros Hv Hf. split.
  - exists st', pf', t'. split; [repeat split|exact Hf].
  - intros k a b c Hk (H1 & H2 & H3). destruct k as [|[|k]]; [|contradiction|destruct k; discriminate].
    cbn [nth_error] in H1, H2, H3. injection H1 as <-. injection H2 as <-. injection H3 as <-. exact Hv.
Qed.
Lemma x_lone : lone_failure x_sts x_pfs x_ts 1.
Proof.
  exact (lone_second _ _ _ _ _ _ (x_valid P0 T0 2 1 ltac:(lia) x_check_2_1) x_tampered_fails).
Qed.
