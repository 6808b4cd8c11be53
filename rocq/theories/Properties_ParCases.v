(** As Properties_Cases, parallel protocol: concrete cases for the theorems of the other files whose hypotheses are about runs of the
    verifiers; and a run that shows why the theorems about acceptance speak of weights that cancel. *)
From Verif Require Import ParSpecSound ParSpecTamper ParSpecVerdict ParFacts ParProverFacts ParVerifierFacts ParCompleteness ParVerdict ParBlame ParVerifierApi
  ParProverApi ParBinding ParLone ParExamples ParExamplesRun
  Properties_ParParams Properties_ParInputs Properties_ParProver Properties_ParVerifier Properties_ParSoundness Properties_ParBlame Properties_ParCodec
  Properties_ParBinding Properties_ParTamper Properties_ParVerdict.
From Verif Require Import Prime Algebra.

(** A run in which the proof is rejected; [C62_completeness_example] is one in which it is accepted. *)
Example C63_rejected_example : exists t', verify_returns OverflowPanics x_tampered (x_statement P0 T0 2) (x_transcript 2) (Err FailedVerification) t'.
Proof.
  assert (Hl : lone_failure [x_statement P0 T0 2] [x_tampered] [x_transcript 2] 0).
  { split.
    - exists (x_statement P0 T0 2), x_tampered, (x_transcript 2). split; [repeat split|exact x_tampered_fails].
    - intros k a b c Hk (H1 & _). destruct k as [|k]; [contradiction|destruct k; discriminate H1]. }
  assert (Hr : one_ring [x_statement P0 T0 2]) by (intros a b [<-|[]] [<-|[]]; split; reflexivity).
  eexists. apply verify_returns_batch.
  exact (proj2 (lone_batch L0 OverflowPanics (x_statement P0 T0 2) [] [x_tampered] [x_transcript 2] 0 (x_statement_made P0 T0 2) Hr eq_refl eq_refl
    (x_fits P0 T0 2 OverflowPanics 1 ltac:(lia)) Hl) (E0_weights_terminate 5)).
Qed.

(** ** C63: that an accepted proof is valid cannot be had from the code alone.  Here the generator of the weights answers so that the
    third and fourth weight satisfy [w3 * G + w4 * J = 0], and a proof with the wrong [z] is accepted. *)
Definition T_bad (g : trng) : N :=
  match tr_keys g with
  | [] => match length (tr_used g) with 2%nat => 99 | 3%nat => Z.to_N (ell - 1) | _ => 1 end
  | _ => T0 g
  end%N.
Lemma T_bad_check : x_check P0 T_bad 2 1 = true.
Proof. vm_compute. reflexivity. Qed.
Lemma wide_small (x : N) : (x < 2 ^ 256)%N -> scalar_from_wide (le_bytes 64 x) = smk (Z.of_N x).
Proof.
  intros Hx. unfold scalar_from_wide. rewrite le_val_le_bytes. rewrite N.mod_small; [reflexivity|].
  eapply N.lt_trans; [exact Hx|reflexivity].
Qed.
Lemma draws_bad base : draws (E := toy P0 T_bad) 5 (mk_trng base [] (repeat x00 32) []) =
  ([smk 1; smk 1; smk 99; smk (Z.of_N (Z.to_N (ell - 1))); smk 1], mk_trng base [] (repeat x00 32) [64; 64; 64; 64; 64]%nat).
Proof.
  unfold draws, draw, trng_fill. cbn [tr_base tr_keys tr_seed tr_used app].
  repeat match goal with |- context [trng_prf (toy P0 T_bad) ?g 64] =>
    change (trng_prf (toy P0 T_bad) g 64) with (le_bytes 64 (T_bad g)); unfold T_bad; cbn [tr_keys tr_used length] end.
  rewrite !wide_small by (vm_compute; reflexivity). reflexivity.
Qed.
Lemma bad_minus_one : smk (Z.of_N (Z.to_N (ell - 1))) = (- s1)%sc.
Proof. apply scalar_ext. vm_compute. reflexivity. Qed.
Lemma bad_nonzero : ~ In s0 [smk 1; smk 1; smk 99; smk (Z.of_N (Z.to_N (ell - 1))); smk 1].
Proof. intros [H|[H|[H|[H|[H|[]]]]]]; revert H; scalars_differ. Qed.
Lemma bad_terminates : weights_terminate (E := toy P0 T_bad) 5.
Proof.
  intros g. destruct (draws (E := toy P0 T_bad) 5 g) as [ws g'] eqn:Ed. exists ws, g'. apply nw_take with (1 := Ed).
  assert (Hn : forall k g ws g', draws (E := toy P0 T_bad) k g = (ws, g') -> ~ In s0 ws).
  { induction k as [|k IH]; intros h vs h' Hd; cbn [draws] in Hd.
    - injection Hd as <- <-. intros [].
    - destruct (draw (E := toy P0 T_bad) h) as [s h1] eqn:E1. destruct (draws (E := toy P0 T_bad) k h1) as [ss h2] eqn:E2.
      injection Hd as <- <-. intros [Hs|Hs]; [|exact (IH _ _ _ E2 Hs)].
      apply (f_equal fst) in E1. cbn [fst] in E1. change (fst (draw (E := toy P0 T_bad) h)) with (scalar_from_wide (trng_prf (toy P0 T_bad) h 64)) in E1.
      rewrite <- E1 in Hs. revert Hs.
      change (trng_prf (toy P0 T_bad) h 64) with (le_bytes 64 (T_bad h)). unfold T_bad.
      destruct (tr_keys h); [|apply wide_nonzero; unfold T0; pose proof (mix_lt (mix_trng h) 0); lia].
      destruct (length (tr_used h)) as [|[|[|[|[|n]]]]]; try (apply wide_nonzero; vm_compute; congruence).
      rewrite wide_small by (vm_compute; reflexivity). scalars_differ. }
  exact (Hn _ _ _ _ Ed).
Qed.
(** With these weights any proof for a statement with [J = 99 * G] passes with any [z]. *)
Lemma bad_accepts (st : statement (toy P0 T_bad)) t pf x : made_statement st -> fits OverflowPanics (st_get_params st) 1 ->
  valid_proof t st pf -> st_get_J st = pmul (toy P0 T_bad) (smk 99) (get_G (st_get_params st)) -> x <> pf_z pf ->
  exists t', verify_returns OverflowPanics (with_z pf x) st t (Ok tt) t'.
Proof.
  intros Hm Hf Hv HJ Hx. pose proof (toy_laws P0 T_bad) as L.
  assert (Hg : Forall good_statement [st]) by (constructor; [exact (made_statement_good L st Hm)|constructor]).
  destruct (verify_batch_total L OverflowPanics [st] [with_z pf x] [t] Hg bad_terminates) as (r & ts & H).
  pose proof H as (fuel & Hq & _).
  assert (Hl : length ts = 1%nat) by (pose proof (verify_batch_keeps_length fuel OverflowPanics [st] [with_z pf x] [t]) as Hk; rewrite Hq in Hk; exact Hk).
  destruct ts as [|t' [|]]; try discriminate Hl. exists t'. apply verify_returns_batch in H.
  destruct (C74_tampered_z _ L OverflowPanics st t pf x r t' Hm Hf Hv Hx H) as (w1 & w2 & w3 & w4 & w5 & g & Hw & Hnz & [[Hr _]|[_ Hd]]).
  { rewrite <- Hr. exact H. }
  exfalso. apply Hd. rewrite HJ. clear - Hw L. unfold weight_rng in Hw. set (base := _ ++ _) in Hw. clearbody base.
  inversion Hw as [g0 ws g1 Hdr Hn E1 E2 E3|g0 ws g1 ws' g2 Hdr Hn Hrest E1 E2 E3].
  - rewrite draws_bad in Hdr. 
    pose proof (f_equal (fun x => nth 2 (fst x) s0) Hdr) as H3. pose proof (f_equal (fun x => nth 3 (fst x) s0) Hdr) as H4.
    cbn [fst nth] in H3, H4. rewrite <- H3, <- H4, bad_minus_one. module L.
  - rewrite draws_bad in Hdr. apply (f_equal fst) in Hdr. cbn [fst] in Hdr. rewrite <- Hdr in Hn. destruct (bad_nonzero Hn).
Qed.
Theorem C63_accepted_valid_refuted :
  exists (E : env), env_laws E /\ weights_terminate (E := E) 5 /\ exists (st : statement E) t pf t', made_statement st /\
    verify_returns OverflowPanics pf st t (Ok tt) t' /\ ~ valid_proof t st pf.
Proof.
  exists (toy P0 T_bad). split; [apply toy_laws|]. split; [exact bad_terminates|].
  pose proof (x_valid P0 T_bad 2 1 ltac:(lia) T_bad_check) as Hv. pose proof (x_statement_made P0 T_bad 2) as Hm.
  pose proof (toy_laws P0 T_bad) as L.
  assert (HG : get_G (st_get_params (x_statement P0 T_bad 2)) <> pid (toy P0 T_bad)) by scalars_differ.
  assert (HJ : st_get_J (x_statement P0 T_bad 2) = pmul (toy P0 T_bad) (smk 99) (get_G (st_get_params (x_statement P0 T_bad 2)))).
  { change (smk 99 = (smk 99 * s1)%sc). ring. }
  pose proof (x_fits P0 T_bad 2 OverflowPanics 1 ltac:(lia)) as Hf.
  revert Hv Hm HG HJ Hf. generalize (x_statement P0 T_bad 2) (x_proof P0 T_bad 2 1) (x_transcript 1).
  intros st pf t Hv Hm HG HJ Hf.
  destruct (bad_accepts st t pf (pf_z pf + s1)%sc Hm Hf Hv HJ (add_one_differs _)) as [t' H].
  exists st, t, (with_z pf (pf_z pf + s1)%sc), t'. split; [exact Hm|]. split; [exact H|].
  intros (_ & _ & _ & He). change (challenge t st (with_z pf (pf_z pf + s1)%sc)) with (challenge t st pf) in He.
  apply (defects_zero L) in He. rewrite (tamper_z_defects L t st pf _ Hv) in He.
  apply Forall_inv_tail, Forall_inv_tail, Forall_inv in He.
  apply HG. apply (pmul_eq_0 L _ _ He). replace (pf_z pf - (pf_z pf + s1))%sc with (- s1)%sc by ring. scalars_differ.
Qed.
Print Assumptions C63_accepted_valid_refuted.

(** The uniqueness of weights: equation 0 of proof 1 is violated there, and with all other weights zero only weight zero
    makes the sum vanish. *)
Lemma single_weight {E : env} (L : env_laws E) (st0 : statement E) sts pfs ts i st pf t w :
  length (st0 :: sts) = length pfs -> length (st0 :: sts) = length ts -> member (st0 :: sts) pfs ts i st pf t ->
  nth 0 (defects (st_get_params st0) (get_keys (st_get_input_set st0)) (get_auxiliary_keys (st_get_input_set st0)) (st_get_offset st) (st_get_J st) pf (challenge t st pf)) (pid E) <> pid E ->
  weighted_defects (st_get_params st0) (get_keys (st_get_input_set st0)) (get_auxiliary_keys (st_get_input_set st0)) (st0 :: sts) pfs ts
    (mkmat (length pfs) 5 (with_weight (fun _ _ => s0) i 0 w)) = pid E <-> w = s0.
Proof.
  intros Hl1 Hl2 Hm Hd.
  assert (Hz : weighted_defects (st_get_params st0) (get_keys (st_get_input_set st0)) (get_auxiliary_keys (st_get_input_set st0)) (st0 :: sts) pfs ts
    (mkmat (length pfs) 5 (with_weight (fun _ _ => s0) i 0 s0)) = pid E).
  { assert (Hmat : mkmat (length pfs) 5 (with_weight (fun _ _ => s0) i 0 s0) = repeat (repeat s0 5) (length pfs)).
    { unfold mkmat. rewrite <- (seq_length (length pfs) 0) at 2. generalize (seq 0 (length pfs)). intros l.
      induction l as [|a l IH]; [reflexivity|]. cbn [map repeat length]. rewrite IH. f_equal. apply map_ext_in with (g := fun _ => s0).
      intros b _. unfold with_weight. destruct (Nat.eqb a i && Nat.eqb b 0)%bool; reflexivity. }
    rewrite Hmat. unfold weighted_defects. generalize (combine (combine (st0 :: sts) pfs) ts). generalize (length pfs). clear - L.
    remember (repeat s0 5) as z eqn:Ez. intros k l. revert k. induction l as [|[[s q] u] l IH]; intros [|k]; try reflexivity.
    cbn [repeat combine map psum fold_right]. unfold psum in IH. rewrite (IH k). rewrite Ez. cbn [defects repeat].
    unfold defects. rewrite !lincomb_cons, lincomb_nil_l. module L. }
  split; [|intros ->; exact Hz]. intros H.
  exact (C63_at_most_one_weight E L _ _ _ (st0 :: sts) pfs ts (fun _ _ => s0) i 0 st pf t w s0 Hl1 Hl2 Hm ltac:(lia) Hd H Hz).
Qed.
Lemma tampered_first_defect {E : env} (L : env_laws E) t (st : statement E) pf x :
  get_CommitmentH (st_get_params st) <> pid E -> valid_proof t st pf -> x <> pf_z_A pf ->
  nth 0 (defects (st_get_params st) (get_keys (st_get_input_set st)) (get_auxiliary_keys (st_get_input_set st)) (st_get_offset st) (st_get_J st) (with_z_A pf x) (challenge t st (with_z_A pf x))) (pid E) <> pid E.
Proof.
  intros HH (_ & _ & _ & He) Hx. change (challenge t st (with_z_A pf x)) with (challenge t st pf).
  apply (defects_zero L) in He. apply Forall_inv in He. cbn [defects nth]. cbn [defects] in He.
  exact (com_other_mask L _ _ _ x (pf_z_A pf) _ HH Hx He).
Qed.
Example C63_weights_example : forall w,
  weighted_defects (x_params P0 T0) (x_ring P0 T0 2) (x_ring1 P0 T0 2) x_sts x_pfs x_ts (mkmat 2 5 (with_weight (fun _ _ => s0) 1 0 w)) = pid E0 <-> w = s0.
Proof.
  intros w.
  exact (single_weight L0 (x_statement P0 T0 2) [x_statement P0 T0 2] x_pfs x_ts 1 (x_statement P0 T0 2) x_tampered (x_transcript 2) w
    eq_refl eq_refl (conj eq_refl (conj eq_refl eq_refl))
    (tampered_first_defect L0 (x_transcript 2) (x_statement P0 T0 2) (x_proof P0 T0 2 2) _ x_H_nonzero (x_valid P0 T0 2 2 ltac:(lia) x_check_2_2) (add_one_differs _))).
Qed.

(** C66: two rings, two proofs. *)
Example C66_mixed_example : exists reason,
  verify_batch_returns OverflowPanics [x_statement P0 T0 2; x_statement P0 T0 1] [x_proof P0 T0 2 1; x_proof P0 T0 1 1]
    [x_transcript 1; x_transcript 1] (Err (InvalidParameter reason)) [x_transcript 1; x_transcript 1].
Proof.
  exact (C66_mixed_rejected E0 OverflowPanics [x_statement P0 T0 2; x_statement P0 T0 1] _ _ (x_statement P0 T0 2) (x_statement P0 T0 1) (or_introl eq_refl) (or_intror (or_introl eq_refl))
    (or_introl mixed_hashes)).
Qed.

(** C68: one response changed, another weight query. *)
Example C68_weight_query_example : verifier_transcript (x_transcript 2) (x_statement P0 T0 2) (x_proof P0 T0 2 2) <>
  verifier_transcript (x_transcript 2) (x_statement P0 T0 2) x_tampered.
Proof.
  pose proof (x_valid P0 T0 2 2 ltac:(lia) x_check_2_2) as (Hw & _).
  assert (Hgen : forall (pf : proof E0) st t, well_shaped (st_get_params st) pf ->
    verifier_transcript t st pf <> verifier_transcript t st (with_z_A pf (pf_z_A pf + s1)%sc)).
  { intros pf st t Hp H. apply (C68_weight_query_binds E0 L0 (st_get_params st)) in H; [|exact Hp|exact Hp].
    destruct H as (_ & _ & H). apply (f_equal pf_z_A) in H. exact (add_one_differs (pf_z_A pf) (eq_sym H)). }
  exact (Hgen _ _ _ Hw).
Qed.

(** C67: the runs of [C74_example] return, and what they return is what the theorems say. *)
Example C67_example : exists i, single_blame_returns OverflowPanics x_sts x_pfs x_ts (Err (FailedBatchVerificationWithSingleBlame (Some i))) x_ts /\
  (i < length x_pfs)%nat /\ ~ valid_proof (x_transcript 2) (x_statement P0 T0 2) x_tampered /\ valid_proof (x_transcript 1) (x_statement P0 T0 2) (x_proof P0 T0 2 1).
Proof.
  exists 1%nat. split; [exact (proj1 (proj2 C74_example))|]. split; [cbn [length x_pfs]; lia|].
  split; [|exact (x_valid P0 T0 2 1 ltac:(lia) x_check_2_1)].
  assert (Hgen : forall (t : transcript) (st : statement E0) pf, one_failed_equation t st pf -> ~ valid_proof t st pf).
  { intros t st pf (_ & _ & b & d & a & Hd & Hn & _) (_ & _ & _ & He). apply (defects_zero L0) in He. rewrite Hd in He.
    apply Forall_app in He. destruct He as [_ He]. exact (Hn (Forall_inv He)). }
  exact (Hgen _ _ _ x_tampered_fails).
Qed.

(** C69: the bytes of [C69_roundtrip_example], and the same with a byte more or less. *)
Example C69_bytes_example : exists bs, from_bytes (E := E0) bs = Ok (x_proof P0 T0 2 1) /\
  from_bytes (E := E0) (bs ++ [x00]) = Err FailedDeserialization /\ from_bytes (E := E0) (removelast bs) = Err FailedDeserialization.
Proof.
  destruct C69_roundtrip_example as (bs & _ & Hd & Hl). exists bs. split; [exact Hd|].
  split; [exact (proj1 (C69_no_truncation_or_extension E0 L0 bs [x00] (x_proof P0 T0 2 1) ltac:(discriminate)) Hd)|].
  assert (Hne : bs <> []) by (intros ->; discriminate Hl). pose proof (app_removelast_last x00 Hne) as Hb.
  refine (proj2 (C69_no_truncation_or_extension E0 L0 (removelast bs) [last bs x00] (x_proof P0 T0 2 1) ltac:(discriminate)) _).
  rewrite <- Hb. exact Hd.
Qed.

(** C64: the view of an honest proof. *)
Lemma view_shape {E : env} (p : params E) (pf : proof E) : well_shaped p pf -> (2 <= get_m p)%N ->
  length (tl (pf_X pf)) = (N.to_nat (get_m p) - 1)%nat /\ length (tl (pf_X1 pf)) = (N.to_nat (get_m p) - 1)%nat /\
  length (tl (pf_Y pf)) = (N.to_nat (get_m p) - 1)%nat.
Proof. intros (HX & HX1 & HY & _) Hm. destruct (pf_X pf), (pf_X1 pf), (pf_Y pf); cbn [tl length] in *; repeat split; lia. Qed.
Example C64_view_example :
  length (tl (pf_X (x_proof P0 T0 2 1))) = (N.to_nat (get_m (x_params P0 T0)) - 1)%nat /\
  length (tl (pf_X1 (x_proof P0 T0 2 1))) = (N.to_nat (get_m (x_params P0 T0)) - 1)%nat /\
  length (tl (pf_Y (x_proof P0 T0 2 1))) = (N.to_nat (get_m (x_params P0 T0)) - 1)%nat.
Proof. exact (view_shape (x_params P0 T0) _ (proj1 (x_valid P0 T0 2 1 ltac:(lia) x_check_2_1)) ltac:(change (2 <= 2)%N; lia)). Qed.

(** C68: rings that differ at two positions. *)
Example C68_rings_example : exists i, nth_error (get_keys (st_get_input_set (x_statement P0 T0 2))) i <> nth_error (get_keys (st_get_input_set (x_statement P0 T0 1))) i.
Proof. exists 1%nat. intros H. apply (f_equal (option_map sval)) in H. revert H. vm_compute. discriminate. Qed.
