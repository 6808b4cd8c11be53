(** The verifiers as seen through the API: consequences of [Verdict.v], [Soundness.v] and [Binding.v]. *)
From Verif Require Export Verdict Soundness Binding ProverApi Blame.
From Verif Require Import Algebra.

Section VerifierApi.
Context {E : env} (L : env_laws E).

Lemma nonzero_challenges_dec (sts : list (statement E)) pfs ts :
  Forall (fun x => challenge (snd x) (fst (fst x)) (snd (fst x)) <> s0) (combine (combine sts pfs) ts) \/
  Exists (fun x => challenge (snd x) (fst (fst x)) (snd (fst x)) = s0) (combine (combine sts pfs) ts).
Proof.
  induction (combine (combine sts pfs) ts) as [|x l IH]; [left; constructor|].
  destruct (scalar_eq_dec (challenge (snd x) (fst (fst x)) (snd (fst x))) s0) as [H|H].
  - right. constructor. exact H.
  - destruct IH as [IH|IH]; [left; constructor; assumption|right; apply Exists_cons_tl; exact IH].
Qed.

Lemma nondeg_dec (l : list (statement E * proof E * transcript)) : Forall nondeg l \/ ~ Forall nondeg l.
Proof.
  induction l as [|x l IH]; [left; constructor|].
  destruct (scalar_eq_dec (challenge (snd x) (fst (fst x)) (snd (fst x))) s0) as [H0|H0].
  { right. intros H. inversion H as [|y k [Hy _] Hk]; subst. contradiction. }
  destruct (contains_zero (complete (challenge (snd x) (fst (fst x)) (snd (fst x))) (pf_f (snd (fst x))))) eqn:Hz.
  - right. intros H. inversion H as [|y k [_ Hy] Hk]; subst.
    fold (no_zero (snd (fst x)) (challenge (snd x) (fst (fst x)) (snd (fst x)))) in Hy. rewrite no_zero_spec in Hy. congruence.
  - destruct IH as [IH|IH].
    + left. constructor; [|exact IH]. split; [exact H0|]. apply no_zero_spec in Hz. exact Hz.
    + right. intros H. inversion H. contradiction.
Qed.

(** What happens after the static checks when no challenge is zero. *)
Lemma verify_batch_run fuel md (st0 : statement E) sts pfs ts : good_statement st0 ->
  length (st0 :: sts) = length pfs -> length (st0 :: sts) = length ts ->
  Forall (same_ring st0) sts -> Forall (well_shaped (st_params st0)) pfs ->
  fits md (st_params st0) (N.of_nat (length pfs)) ->
  Forall (fun x => challenge (snd x) (fst (fst x)) (snd (fst x)) <> s0) (combine (combine (st0 :: sts) pfs) ts) ->
  snd (verify_batch fuel md (st0 :: sts) pfs ts) = verified_transcripts (st0 :: sts) pfs ts /\
  let r := fst (verify_batch fuel md (st0 :: sts) pfs ts) in
  r = OutOfFuel \/
  (r = Err (InvalidParameter "proof `f` matrix contained 0") /\ ~ Forall nondeg (combine (combine (st0 :: sts) pfs) ts)) \/
  (Forall nondeg (combine (combine (st0 :: sts) pfs) ts) /\
   exists ws, batch_weights (E := E) 4 (length pfs) (weight_rng (st0 :: sts) pfs ts) ws /\
     r = if peqb E (weighted_defects (st_params st0) (is_M (st_input_set st0)) (st0 :: sts) pfs ts ws) (pid E)
         then Ok tt else Err FailedVerification).
Proof.
  intros Hg Hl1 Hl2 Hs Hw Hf Hnz. pose proof (gs_params _ Hg) as Hp. pose proof (gp_m _ Hp) as Hm. pose proof (good_m_u32 _ Hp) as Hm32.
  assert (HM : length (is_M (st_input_set st0)) = N.to_nat (get_N (st_params st0))) by (pose proof (gs_len _ Hg); lia).
  unfold verify_batch. rewrite (proj2 (batch_checks_ok md st0 sts pfs ts Hp Hl1 Hl2) (conj Hs (conj Hw Hf))).
  unfold st_get_params, st_get_input_set, get_keys.
  rewrite (challenge_loop_spec (st_params st0) ltac:(lia) Hm32 (st0 :: sts) pfs ts weights_transcript Hl1 Hl2)
    by (apply challenges_Forall; exact Hnz).
  cbn [fst snd]. split; [reflexivity|]. cbn [obind]. pose proof (weight_rng_spec (st0 :: sts) pfs ts) as Hrng.
  destruct (finalize_rng _ _ _ _) as [g u]. cbn [fst] in Hrng. subst g.
  pose proof (process_all_cases L fuel (st_params st0) (is_M (st_input_set st0)) Hp HM (st0 :: sts) pfs ts (weight_rng (st0 :: sts) pfs ts) _ []
                Hl1 Hl2 Hw (acc_start_good _ _)) as Hcases. cbv zeta in Hcases.
  destruct (process_all fuel _ pfs _ _ _) as [ac|e| |] eqn:Hpa.
  - destruct (process_all_sound L fuel (st_params st0) (is_M (st_input_set st0)) Hp HM (st0 :: sts) pfs ts _ _ [] ac Hl1 Hl2 Hw
              (acc_start_good _ _) Hpa) as (Hz & ws & Hws & Ha & Hv).
    cbn [app] in Ha, Hv. cbn [obind]. rewrite (value_final L _ _ _ _ _ Ha). cbn [obind].
    right. right. split.
    + apply Forall_forall. intros x Hx. rewrite Forall_forall in Hnz, Hz. split; [apply Hnz; exact Hx|apply Hz; exact Hx].
    + exists ws. split; [exact Hws|]. rewrite Hv, (acc_start_value L), (padd_0_l E L). reflexivity.
  - right. left. destruct Hcases as [(ac' & Hc)|[Hc|[Hc Hex]]]; try discriminate.
    cbn [obind]. split; [congruence|]. intros Hnd. rewrite Forall_forall in Hnd. apply Exists_exists in Hex.
    destruct Hex as (x & Hx & Hno). apply Hno. exact (proj2 (Hnd x Hx)).
  - destruct Hcases as [(ac' & Hc)|[Hc|[Hc Hex]]]; discriminate.
  - left. reflexivity.
Qed.

(** * One proof *)

Lemma challenge_loop_length (p : params E) : forall sts pfs ts tw, length (snd (challenge_loop p sts pfs ts tw)) = length ts.
Proof.
  induction sts as [|st sts IH]; intros pfs ts tw; [reflexivity|].
  destruct pfs as [|pf pfs]; [reflexivity|]. destruct ts as [|t ts]; [reflexivity|].
  cbn [challenge_loop].
  unfold pt_commit. cbn [pt_new build_transcript_rng finalize_rng null_rng rng_fill challenge_bytes].
  destruct (challenge_powers _ _) as [xs|e| |]; try reflexivity.
  unfold pt_response, trng_next_u64, trng_fill. cbn [build_transcript_rng finalize_rng null_rng rng_fill].
  match goal with |- context[challenge_loop p sts pfs ts ?w] => specialize (IH pfs ts w); destruct (challenge_loop p sts pfs ts w) as [res ts'] end.
  cbn [snd length] in *. f_equal. exact IH.
Qed.

Lemma verify_batch_keeps_length fuel md (sts : list (statement E)) pfs ts : length (snd (verify_batch fuel md sts pfs ts)) = length ts.
Proof.
  unfold verify_batch. destruct (batch_checks _ _ _ _) as [[s|]|e| |]; try reflexivity.
  match goal with |- context[challenge_loop ?p ?a ?b ?c ?d] => pose proof (challenge_loop_length p a b c d) as H; destruct (challenge_loop p a b c d) as [res ts'] end.
  exact H.
Qed.

Lemma verify_batch_one fuel md (st : statement E) pf t : exists t',
  snd (verify_batch fuel md [st] [pf] [t]) = [t'] /\ verify fuel md pf st t = (fst (verify_batch fuel md [st] [pf] [t]), t').
Proof.
  assert (Hlen : length (snd (verify_batch fuel md [st] [pf] [t])) = 1%nat).
  { apply (verify_batch_keeps_length fuel md [st] [pf] [t]). }
  unfold verify. destruct (verify_batch fuel md [st] [pf] [t]) as [r ts]. cbn [fst snd] in *.
  destruct ts as [|t' [|]]; try discriminate. exists t'. split; reflexivity.
Qed.

Lemma verify_returns_batch md (st : statement E) pf t r t' :
  verify_returns md pf st t r t' <-> verify_batch_returns md [st] [pf] [t] r [t'].
Proof.
  split; intros (fuel & H & Hr); exists fuel; destruct (verify_batch_one fuel md st pf t) as (t1 & H1 & H2).
  - rewrite H2 in H. injection H as <- <-. split; [|exact Hr]. rewrite <- H1. apply surjective_pairing.
  - rewrite H2, H. rewrite H in H1. cbn [fst snd] in *. split; [congruence|exact Hr].
Qed.

Lemma well_shaped_dec (p : params E) pf : well_shaped p pf \/ ~ well_shaped p pf.
Proof.
  unfold well_shaped, shape.
  destruct (Nat.eq_dec (length (pf_X pf)) (N.to_nat (get_m p))) as [|]; [|right; tauto].
  destruct (Nat.eq_dec (length (pf_Y pf)) (N.to_nat (get_m p))) as [|]; [|right; tauto].
  destruct (Nat.eq_dec (length (pf_f pf)) (N.to_nat (get_m p))) as [|]; [|right; tauto].
  destruct (Forall_dec (fun row => length row = (N.to_nat (get_n p) - 1)%nat) (fun row => Nat.eq_dec _ _) (pf_f pf)); [left; tauto|right; tauto].
Qed.

Lemma fits_dec md (p : params E) b : fits md p b \/ ~ fits md p b.
Proof. unfold fits. destruct md; destruct (N.lt_ge_cases b (2 ^ 32)); destruct (N.lt_ge_cases (msm_size p b) (2 ^ 32)); intuition (try discriminate; try lia). Qed.

Lemma verify_cases md (pf : proof E) (st : statement E) t r t' : made_statement st -> verify_returns md pf st t r t' ->
  let p := st_get_params st in
  let xi := challenge t st pf in
  (~ well_shaped p pf -> (exists reason, r = Err (InvalidParameter reason)) /\ t' = t) /\
  (well_shaped p pf -> ~ fits md p 1 -> r = Panic /\ t' = t) /\
  (well_shaped p pf -> fits md p 1 -> xi = s0 -> r = Err InvalidChallenge /\ t' = prover_transcript t st pf) /\
  (well_shaped p pf -> fits md p 1 -> xi <> s0 -> ~ nondegenerate t st pf ->
     r = Err (InvalidParameter "proof `f` matrix contained 0") /\ t' = verifier_transcript t st pf) /\
  (well_shaped p pf -> fits md p 1 -> nondegenerate t st pf ->
     t' = verifier_transcript t st pf /\
     exists ws g, next_weights (E := E) 4 (weight_rng [st] [pf] [t]) ws g /\ length ws = 4%nat /\ ~ In s0 ws /\
       let total := lincomb ws (defects p (get_keys (st_get_input_set st)) (st_get_J st) pf xi) in
       ((total = pid E /\ r = Ok tt) \/ (total <> pid E /\ r = Err FailedVerification))).
Proof.
  intros Hst H p xi. pose proof (made_statement_good L st Hst) as Hg.
  apply verify_returns_batch in H. destruct H as (fuel & H & Hr).
  split; [|split; [|split; [|split]]].
  - intros Hns. destruct (verify_batch_misshaped fuel md st [] [pf] [t] Hg) as (s & Hm).
    { intros Hf. inversion Hf. contradiction. }
    rewrite Hm in H. injection H as <- <-. split; [eexists; reflexivity|reflexivity].
  - intros Hs Hf. destruct (verify_batch_unfit fuel md st [] [pf] [t] Hg eq_refl eq_refl (Forall_nil _) (Forall_cons _ Hs (Forall_nil _))) as [_ Hu].
    destruct md.
    + rewrite Hu in H.
      * injection H as <- <-. split; reflexivity.
      * reflexivity.
      * destruct (N.lt_ge_cases (msm_size (st_params st) (N.of_nat (length [pf]))) (2 ^ 32)) as [Hlt|Hge]; [|exact Hge].
        exfalso. apply Hf. split; [reflexivity|]. right. exact Hlt.
      * reflexivity.
    + exfalso. apply Hf. split; [reflexivity|]. left. reflexivity.
  - intros Hs Hf Hx.
    rewrite (verify_batch_zero_challenge fuel md st [] [pf] [t] Hg eq_refl eq_refl (Forall_nil _) (Forall_cons _ Hs (Forall_nil _)) Hf
               [] [] [] st pf t [] [] [] eq_refl eq_refl eq_refl eq_refl eq_refl (Forall_nil _) Hx) in H.
    injection H as <- <-. split; reflexivity.
  - intros Hs Hf Hx Hnd.
    destruct (verify_batch_run fuel md st [] [pf] [t] Hg eq_refl eq_refl (Forall_nil _) (Forall_cons _ Hs (Forall_nil _)) Hf
                (Forall_cons (st, pf, t) Hx (Forall_nil _))) as [H1 H2].
    rewrite H in H1, H2. cbn [fst snd] in *. cbv zeta in H2. injection H1 as ->.
    destruct H2 as [H2|[[H2 _]|[H2 _]]]; [contradiction|split; [exact H2|reflexivity]|].
    exfalso. apply Hnd. inversion H2. assumption.
  - intros Hs Hf Hnd.
    destruct (verify_batch_run fuel md st [] [pf] [t] Hg eq_refl eq_refl (Forall_nil _) (Forall_cons _ Hs (Forall_nil _)) Hf
                (Forall_cons (st, pf, t) (proj1 Hnd) (Forall_nil _))) as [H1 H2].
    rewrite H in H1, H2. cbn [fst snd] in *. cbv zeta in H2. injection H1 as ->. split; [reflexivity|].
    destruct H2 as [H2|[[_ H2]|[_ (ws & Hws & H2)]]]; [contradiction|exfalso; apply H2; constructor; [exact Hnd|constructor]|].
    cbn [length] in Hws. inversion Hws as [|b g w g' rest Hnw Hrest]; subst. inversion Hrest; subst.
    exists w, g'. split; [exact Hnw|]. split; [exact (next_weights_len _ _ _ _ Hnw)|]. split; [exact (next_weights_nonzero _ _ _ _ Hnw)|].
    unfold weighted_defects in *. cbn [combine map] in *. unfold psum in *. cbn [fold_right] in *. rewrite (padd_comm E L), (padd_0_l E L) in *.
    cbv zeta. change (get_keys (st_get_input_set st)) with (is_M (st_input_set st)). fold xi. fold p. fold xi in Hr. 
    destruct (peqb E _ (pid E)) eqn:Ee.
    + left. split; [apply (peqb_eq E L); exact Ee|reflexivity].
    + right. split; [|reflexivity]. intros Hx. apply (peqb_eq E L) in Hx. unfold p, st_get_params in Hx. fold xi in Ee. congruence.
Qed.

(** * Members of a batch *)
Lemma nth_error_combine {A B} (l : list A) (k : list B) i a b :
  nth_error (combine l k) i = Some (a, b) <-> nth_error l i = Some a /\ nth_error k i = Some b.
Proof.
  revert k i. induction l as [|x l IH]; intros k i; cbn [combine].
  - destruct i; cbn [nth_error]; (split; [discriminate|intros [H _]; discriminate]).
  - destruct k as [|y k].
    + destruct i; cbn [nth_error]; (split; [discriminate|intros [_ H]; discriminate]).
    + destruct i as [|i]; cbn [nth_error]; [|apply IH].
      split; [intros H; injection H as <- <-; split; reflexivity|intros [H1 H2]; congruence].
Qed.
Lemma member_combine sts pfs ts i (st : statement E) pf t :
  member sts pfs ts i st pf t <-> nth_error (combine (combine sts pfs) ts) i = Some (st, pf, t).
Proof. unfold member. rewrite !nth_error_combine. tauto. Qed.
Lemma in_member sts pfs ts (st : statement E) pf t :
  In (st, pf, t) (combine (combine sts pfs) ts) <-> exists i, member sts pfs ts i st pf t.
Proof.
  split.
  - intros H. apply In_nth_error in H. destruct H as [i H]. exists i. apply member_combine. exact H.
  - intros [i H]. apply member_combine in H. apply nth_error_In in H. exact H.
Qed.
Lemma forall_member (Q : statement E -> proof E -> transcript -> Prop) sts pfs ts :
  Forall (fun x => Q (fst (fst x)) (snd (fst x)) (snd x)) (combine (combine sts pfs) ts) <->
  forall i st pf t, member sts pfs ts i st pf t -> Q st pf t.
Proof.
  rewrite Forall_forall. split.
  - intros H i st pf t Hm. apply (H (st, pf, t)). apply in_member. exists i. exact Hm.
  - intros H [[st pf] t] Hin. apply in_member in Hin. destruct Hin as [i Hi]. exact (H i st pf t Hi).
Qed.
Lemma member_exists sts pfs ts i : length sts = length pfs -> length sts = length ts -> (i < length pfs)%nat ->
  exists (st : statement E) pf t, member sts pfs ts i st pf t.
Proof.
  intros H1 H2 Hi. destruct (nth_error sts i) as [st|] eqn:E1; [|apply nth_error_None in E1; lia].
  destruct (nth_error pfs i) as [pf|] eqn:E2; [|apply nth_error_None in E2; lia].
  destruct (nth_error ts i) as [t|] eqn:E3; [|apply nth_error_None in E3; lia].
  exists st, pf, t. repeat split; assumption.
Qed.
Lemma forall_pfs_member (Q : proof E -> Prop) sts pfs ts : length sts = length pfs -> length sts = length ts ->
  (Forall Q pfs <-> forall i st pf t, member sts pfs ts i st pf t -> Q pf).
Proof.
  intros H1 H2. rewrite Forall_forall. split.
  - intros H i st pf t (_ & Hp & _). apply H. apply nth_error_In in Hp. exact Hp.
  - intros H pf Hin. apply In_nth_error in Hin. destruct Hin as [i Hi].
    assert (Hlt : (i < length pfs)%nat) by (apply nth_error_Some; congruence).
    destruct (member_exists sts pfs ts i H1 H2 Hlt) as (st & pf' & t & Hm). pose proof Hm as (_ & Hp & _).
    assert (pf' = pf) by congruence. subst pf'. exact (H i st pf t Hm).
Qed.

(** * Batches of valid proofs *)
Lemma batch_of_valid md (st0 : statement E) sts pfs ts : made_statement st0 -> one_ring (st0 :: sts) ->
  length (st0 :: sts) = length pfs -> length (st0 :: sts) = length ts -> all_valid (st0 :: sts) pfs ts ->
  fits md (st_get_params st0) (N.of_nat (length pfs)) ->
  (forall r ts', verify_batch_returns md (st0 :: sts) pfs ts r ts' -> r = Ok tt /\ ts' = verified_transcripts (st0 :: sts) pfs ts) /\
  (weights_terminate (E := E) 4 -> verify_batch_returns md (st0 :: sts) pfs ts (Ok tt) (verified_transcripts (st0 :: sts) pfs ts)).
Proof.
  intros Hm H1 Hl1 Hl2 Hv Hf. pose proof (made_statement_good L st0 Hm) as Hg.
  assert (Hin0 : In st0 (st0 :: sts)) by (left; reflexivity).
  assert (Hsr : Forall (same_ring st0) sts).
  { apply Forall_forall. intros st Hin. destruct (H1 st st0 (or_intror Hin) Hin0) as [Hp Hi]. unfold same_ring. rewrite Hp, Hi. split; reflexivity. }
  assert (Hin : forall i st pf t, member (st0 :: sts) pfs ts i st pf t -> st_get_params st = st_get_params st0 /\ st_get_input_set st = st_get_input_set st0).
  { intros i st pf t (Hs & _). apply nth_error_In in Hs. exact (H1 st st0 Hs Hin0). }
  assert (Hws : Forall (well_shaped (st_params st0)) pfs).
  { apply (forall_pfs_member _ (st0 :: sts) pfs ts Hl1 Hl2). intros i st pf t Hmb. destruct (Hin i st pf t Hmb) as [Hp _].
    change (st_params st0) with (st_get_params st0). rewrite <- Hp. exact (proj1 (Hv i st pf t Hmb)). }
  assert (Hnd : Forall nondeg (combine (combine (st0 :: sts) pfs) ts)).
  { apply (forall_member (fun st pf t => nondegenerate t st pf)). intros i st pf t Hmb. destruct (Hv i st pf t Hmb) as (_ & Hx & Hz & _). split; assumption. }
  assert (Heq : forall st pf t, In (st, pf, t) (combine (combine (st0 :: sts) pfs) ts) ->
     equations (st_params st0) (is_M (st_input_set st0)) (st_get_J st) pf (challenge t st pf)).
  { intros st pf t Hi. apply in_member in Hi. destruct Hi as [i Hmb]. destruct (Hin i st pf t Hmb) as [Hp Hs].
    change (st_params st0) with (st_get_params st0). change (is_M (st_input_set st0)) with (get_keys (st_get_input_set st0)).
    rewrite <- Hp, <- Hs. exact (proj2 (proj2 (proj2 (Hv i st pf t Hmb)))). }
  split.
  - intros r ts' (fuel & H & Hr).
    destruct (verify_batch_run fuel md st0 sts pfs ts Hg Hl1 Hl2 Hsr Hws Hf) as [Ht Hc].
    { apply (forall_member (fun st pf t => challenge t st pf <> s0)). intros i st pf t Hmb. exact (proj1 (proj2 (Hv i st pf t Hmb))). }
    rewrite H in Ht, Hc. cbn [fst snd] in *. split; [|exact Ht].
    destruct Hc as [Hc|[[_ Hc]|[_ (ws & _ & Hc)]]]; [contradiction|contradiction|].
    rewrite (weighted_defects_valid L) in Hc by exact Heq. rewrite (proj2 (peqb_eq E L _ _) eq_refl) in Hc. exact Hc.
  - intros Ht. destruct (batch_weights_exist 4 Ht (length pfs) (weight_rng (st0 :: sts) pfs ts)) as [ws Hws4].
    pose proof (verify_batch_decides L md st0 sts pfs ts ws Hg Hl1 Hl2 Hsr Hws Hf Hnd Hws4) as H.
    rewrite (weighted_defects_valid L) in H by exact Heq. rewrite (proj2 (peqb_eq E L _ _) eq_refl) in H. exact H.
Qed.

(** * Accepted batches *)
Lemma accepted_batch md (st0 : statement E) sts pfs ts ts' : Forall made_statement (st0 :: sts) ->
  verify_batch_returns md (st0 :: sts) pfs ts (Ok tt) ts' ->
  length (st0 :: sts) = length pfs /\ length (st0 :: sts) = length ts /\
  (forall i st pf t, member (st0 :: sts) pfs ts i st pf t -> same_ring st0 st /\ well_shaped (st_get_params st0) pf /\ nondegenerate t st pf) /\
  (all_valid (st0 :: sts) pfs ts \/
   weights_cancel (st_get_params st0) (get_keys (st_get_input_set st0)) (st0 :: sts) pfs ts \/
   exists st, In st sts /\ (params_collide (st_get_params st) (st_get_params st0) \/ input_sets_collide (st_get_input_set st) (st_get_input_set st0))).
Proof.
  intros Hm H. pose proof (Forall_inv Hm) as Hm0. pose proof (made_statement_good L st0 Hm0) as Hg.
  pose proof (proj1 (verify_batch_accepts_iff L md st0 sts pfs ts Hg) (ex_intro _ ts' H)) as (Hl1 & Hl2 & Hsr & Hws & Hf & Hnd & _).
  assert (Hsr' : forall st, In st (st0 :: sts) -> same_ring st0 st).
  { intros st [<-|Hin]; [split; reflexivity|]. rewrite Forall_forall in Hsr. exact (Hsr st Hin). }
  split; [exact Hl1|]. split; [exact Hl2|]. split.
  { intros i st pf t Hmb. split; [|split].
    - apply Hsr'. destruct Hmb as (Hs & _). exact (nth_error_In _ _ Hs).
    - exact (proj1 (forall_pfs_member _ (st0 :: sts) pfs ts Hl1 Hl2) Hws i st pf t Hmb).
    - exact (proj1 (forall_member (fun st pf t => nondegenerate t st pf) (st0 :: sts) pfs ts) Hnd i st pf t Hmb). }
  destruct (accepted_or_cancel L md st0 sts pfs ts ts' Hg H) as [Hall|Hc]; [|right; left; exact Hc].
  assert (Hbind : (forall st, In st sts -> st_get_params st = st_get_params st0 /\ get_keys (st_get_input_set st) = get_keys (st_get_input_set st0)) \/
     exists st, In st sts /\ (params_collide (st_get_params st) (st_get_params st0) \/ input_sets_collide (st_get_input_set st) (st_get_input_set st0))).
  { clear - L Hm Hm0 Hsr. apply Forall_inv_tail in Hm. induction sts as [|s sts IH]; [left; intros st []|].
    pose proof (Forall_inv Hm) as Hms. apply Forall_inv_tail in Hm. pose proof (Forall_inv Hsr) as Hss. apply Forall_inv_tail in Hsr.
    destruct (same_ring_binding L st0 s Hm0 Hms Hss) as [[Hp Hk]|Hcol].
    - destruct (IH Hm Hsr) as [IHl|(st & Hin & Hcol)].
      + left. intros st [<-|Hin]; [split; assumption|exact (IHl st Hin)].
      + right. exists st. split; [right; exact Hin|exact Hcol].
    - right. exists s. split; [left; reflexivity|exact Hcol]. }
  destruct Hbind as [Hbind|Hcol]; [left|right; right; exact Hcol].
  intros i st pf t Hmb.
  assert (Hpk : st_get_params st = st_get_params st0 /\ get_keys (st_get_input_set st) = get_keys (st_get_input_set st0)).
  { destruct Hmb as (Hs & _). apply nth_error_In in Hs. destruct Hs as [<-|Hs]; [split; reflexivity|exact (Hbind st Hs)]. }
  destruct Hpk as [Hp Hk].
  pose proof (proj1 (forall_pfs_member _ (st0 :: sts) pfs ts Hl1 Hl2) Hws i st pf t Hmb) as Hw.
  pose proof (proj1 (forall_member (fun st pf t => nondegenerate t st pf) (st0 :: sts) pfs ts) Hnd i st pf t Hmb) as [Hx Hz].
  unfold valid_proof. rewrite Hp, Hk. split; [exact Hw|]. split; [exact Hx|]. split; [exact Hz|].
  apply Hall. apply in_member. exists i. exact Hmb.
Qed.

(** * Transcripts after a batch *)
Lemma first_zero (sts : list (statement E)) : forall pfs ts, length sts = length pfs -> length sts = length ts ->
  Exists (fun x => challenge (snd x) (fst (fst x)) (snd (fst x)) = s0) (combine (combine sts pfs) ts) ->
  exists sts1 pfs1 ts1 st pf t sts2 pfs2 ts2,
    sts = sts1 ++ st :: sts2 /\ pfs = pfs1 ++ pf :: pfs2 /\ ts = ts1 ++ t :: ts2 /\
    length sts1 = length pfs1 /\ length sts1 = length ts1 /\
    Forall (fun x => challenge (snd x) (fst (fst x)) (snd (fst x)) <> s0) (combine (combine sts1 pfs1) ts1) /\ challenge t st pf = s0.
Proof.
  induction sts as [|st sts IH]; intros [|pf pfs] [|t ts] H1 H2 H; cbn [length combine] in *; try discriminate; try (inversion H; fail).
  destruct (scalar_eq_dec (challenge t st pf) s0) as [Hz|Hz].
  - exists [], [], [], st, pf, t, sts, pfs, ts. repeat split; try reflexivity; [constructor|exact Hz].
  - assert (Hex : Exists (fun x => challenge (snd x) (fst (fst x)) (snd (fst x)) = s0) (combine (combine sts pfs) ts)).
    { inversion H as [x l Hx|x l Hx]; subst; [cbn [fst snd] in Hx; contradiction|exact Hx]. }
    destruct (IH pfs ts ltac:(lia) ltac:(lia) Hex) as (s1 & p1 & t1 & st' & pf' & t' & s2 & p2 & t2 & -> & -> & -> & Ha & Hb & Hc & Hd).
    exists (st :: s1), (pf :: p1), (t :: t1), st', pf', t', s2, p2, t2.
    repeat split; try reflexivity; cbn [length]; try lia; [|exact Hd]. cbn [combine]. constructor; assumption.
Qed.

Lemma batch_transcripts md (st0 : statement E) sts pfs ts r ts' : made_statement st0 ->
  verify_batch_returns md (st0 :: sts) pfs ts r ts' ->
  (ts' = ts /\ ((exists s, r = Err (InvalidParameter s)) \/ (md = OverflowPanics /\ r = Panic))) \/
  (exists sts1 pfs1 ts1 st pf t sts2 pfs2 ts2,
     st0 :: sts = sts1 ++ st :: sts2 /\ pfs = pfs1 ++ pf :: pfs2 /\ ts = ts1 ++ t :: ts2 /\
     length sts1 = length pfs1 /\ length sts1 = length ts1 /\
     r = Err InvalidChallenge /\ challenge t st pf = s0 /\
     ts' = verified_transcripts sts1 pfs1 ts1 ++ prover_transcript t st pf :: ts2) \/
  (ts' = verified_transcripts (st0 :: sts) pfs ts /\
   (r = Ok tt \/ r = Err FailedVerification \/ r = Err (InvalidParameter "proof `f` matrix contained 0"))).
Proof.
  intros Hm (fuel & H & Hr). pose proof (made_statement_good L st0 Hm) as Hg.
  destruct (Nat.eq_dec (length (st0 :: sts)) (length pfs)) as [Hl1|Hl1].
  2:{ rewrite (proj1 (verify_batch_lengths fuel md (st0 :: sts) pfs ts) Hl1) in H. injection H as <- <-. left. split; [reflexivity|left; eexists; reflexivity]. }
  destruct (Nat.eq_dec (length (st0 :: sts)) (length ts)) as [Hl2|Hl2].
  2:{ rewrite (proj2 (verify_batch_lengths fuel md (st0 :: sts) pfs ts) Hl1 Hl2) in H. injection H as <- <-. left. split; [reflexivity|left; eexists; reflexivity]. }
  assert (Hb : forall h : statement E -> bytes, (forall st, In st sts -> h st = h st0) \/ ~ (forall st, In st sts -> h st = h st0)).
  { intros h. clear. induction sts as [|s sts IH]; [left; intros st []|].
    destruct (list_eq_dec Byte.byte_eq_dec (h s) (h st0)) as [He|He].
    - destruct IH as [IH|IH]; [left; intros st [<-|Hin]; [exact He|exact (IH st Hin)]|right; intros Hc; apply IH; intros st Hin; apply Hc; right; exact Hin].
    - right. intros Hc. apply He. apply Hc. left. reflexivity. }
  destruct (verify_batch_mixed fuel md st0 sts pfs ts Hl1 Hl2) as [Hx1 Hx2].
  destruct (Hb (fun st => input_set_get_hash (st_get_input_set st))) as [Hi|Hi].
  2:{ rewrite (Hx1 Hi) in H. injection H as <- <-. left. split; [reflexivity|left; eexists; reflexivity]. }
  destruct (Hb (fun st => params_get_hash (st_get_params st))) as [Hp|Hp].
  2:{ rewrite (Hx2 Hi Hp) in H. injection H as <- <-. left. split; [reflexivity|left; eexists; reflexivity]. }
  assert (Hsr : Forall (same_ring st0) sts).
  { apply Forall_forall. intros st Hin. split; [apply Hi; exact Hin|apply Hp; exact Hin]. }
  assert (Hwd : Forall (well_shaped (st_params st0)) pfs \/ ~ Forall (well_shaped (st_params st0)) pfs).
  { clear. induction pfs as [|x l IH]; [left; constructor|]. destruct (well_shaped_dec (st_params st0) x) as [Hx|Hx].
    - destruct IH as [IH|IH]; [left; constructor; assumption|right; intros Hc; inversion Hc; contradiction].
    - right. intros Hc. inversion Hc. contradiction. }
  destruct Hwd as [Hw|Hw].
  2:{ destruct (verify_batch_misshaped fuel md st0 sts pfs ts Hg Hw) as (s & Hs). rewrite Hs in H. injection H as <- <-. left. split; [reflexivity|left; eexists; reflexivity]. }
  destruct (verify_batch_unfit fuel md st0 sts pfs ts Hg Hl1 Hl2 Hsr Hw) as [Hu1 Hu2].
  destruct (N.lt_ge_cases (N.of_nat (length pfs)) (2 ^ 32)) as [Hbs|Hbs].
  2:{ rewrite (Hu1 Hbs) in H. injection H as <- <-. left. split; [reflexivity|left; eexists; reflexivity]. }
  destruct (fits_dec md (st_params st0) (N.of_nat (length pfs))) as [Hf|Hf].
  2:{ destruct md.
      - rewrite Hu2 in H; [injection H as <- <-; left; split; [reflexivity|right; split; reflexivity]|exact Hbs| |reflexivity].
        destruct (N.lt_ge_cases (msm_size (st_params st0) (N.of_nat (length pfs))) (2 ^ 32)) as [Hlt|Hge]; [|exact Hge].
        exfalso. apply Hf. split; [exact Hbs|right; exact Hlt].
      - exfalso. apply Hf. split; [exact Hbs|left; reflexivity]. }
  destruct (nonzero_challenges_dec (st0 :: sts) pfs ts) as [Hnz|Hz].
  - destruct (verify_batch_run fuel md st0 sts pfs ts Hg Hl1 Hl2 Hsr Hw Hf Hnz) as [Ht Hc]. rewrite H in Ht, Hc. cbn [fst snd] in *.
    right. right. split; [exact Ht|]. destruct Hc as [Hc|[[Hc _]|[_ (ws & _ & Hc)]]]; [contradiction|right; right; exact Hc|].
    destruct (peqb E _ (pid E)); [left; exact Hc|right; left; exact Hc].
  - destruct (first_zero (st0 :: sts) pfs ts Hl1 Hl2 Hz) as (s1 & p1 & t1 & st & pf & t & s2 & p2 & t2 & Es & Ep & Et & Ha & Hb' & Hc & Hd).
    pose proof (verify_batch_zero_challenge fuel md st0 sts pfs ts Hg Hl1 Hl2 Hsr Hw Hf s1 p1 t1 st pf t s2 p2 t2 Es Ep Et Ha Hb' Hc Hd) as Hq.
    rewrite Hq in H. injection H as <- <-. right. left.
    exists s1, p1, t1, st, pf, t, s2, p2, t2. repeat split; assumption.
Qed.

(** A zero among the responses of a single proof is found before any weight is drawn. *)
Lemma verify_degenerate md (st : statement E) pf t : made_statement st -> well_shaped (st_get_params st) pf -> fits md (st_get_params st) 1 ->
  challenge t st pf <> s0 -> ~ nondegenerate t st pf ->
  verify_returns md pf st t (Err (InvalidParameter "proof `f` matrix contained 0")) (verifier_transcript t st pf).
Proof.
  intros Hst Hw Hf Hx Hnd. pose proof (made_statement_good L st Hst) as Hg. apply verify_returns_batch.
  pose proof (gs_params _ Hg) as Hp. pose proof (gp_m _ Hp) as Hm. pose proof (good_m_u32 _ Hp) as Hm32.
  assert (Hz : contains_zero (complete (challenge t st pf) (pf_f pf)) = true).
  { destruct (contains_zero _) eqn:Hz; [reflexivity|]. exfalso. apply Hnd. split; [exact Hx|]. apply no_zero_spec in Hz. exact Hz. }
  exists 0%nat. split; [|discriminate]. unfold verify_batch.
  rewrite (proj2 (batch_checks_ok md st [] [pf] [t] Hp eq_refl eq_refl) (conj (Forall_nil _) (conj (Forall_cons _ Hw (Forall_nil _)) Hf))).
  unfold st_get_params, st_get_input_set, get_keys.
  rewrite (challenge_loop_spec (st_params st) ltac:(lia) Hm32 [st] [pf] [t] weights_transcript eq_refl eq_refl)
    by (constructor; [exact Hx|constructor]).
  f_equal. cbn [obind]. destruct (finalize_rng _ _ _ _) as [g u].
  unfold challenges. cbn [combine map fst snd process_all].
  rewrite (proj1 (process_proof_other 0 (st_params st) pf (challenge t st pf) g _ Hp Hw) Hz). reflexivity.
Qed.

(** * Honest proofs *)
Lemma honest_verifies {R} md (ro : rng_ops R) (w : witness E) (st : statement E) rng t pf t' rng' : made_witness w -> made_statement st ->
  prove_with_rng ro w st rng t = (Ok pf, t', rng') -> fits md (st_get_params st) 1 ->
  (forall r t'', verify_returns md pf st t r t'' ->
     (r = Ok tt <-> nondegenerate t st pf) /\
     (r = Err (InvalidParameter "proof `f` matrix contained 0") <-> ~ nondegenerate t st pf)) /\
  (weights_terminate (E := E) 4 -> nondegenerate t st pf -> verify_returns md pf st t (Ok tt) (verifier_transcript t st pf)).
Proof.
  intros Hw Hst Hpr Hf. pose proof (made_statement_good L st Hst) as Hg.
  destruct (prove_result L ro w st rng t pf t' rng' Hw Hst Hpr) as (Hrel & Hx & Hpf & _ & _).
  set (c := prover_coins t st w (fst (rng_fill ro rng 32))) in *.
  assert (Hws : well_shaped (st_get_params st) pf) by (rewrite Hpf; apply honest_well_shaped).
  assert (Heq : equations (st_get_params st) (get_keys (st_get_input_set st)) (st_get_J st) pf (challenge t st pf)).
  { set (xi := challenge t st pf) in *. rewrite Hpf.
    exact (honest_equations L st _ _ c xi Hg Hrel (prover_coins_good t st w _)). }
  assert (Hdec : nondegenerate t st pf \/ ~ nondegenerate t st pf).
  { destruct (nondeg_dec [(st, pf, t)]) as [H|H]; [left; exact (Forall_inv H)|right; intros Hc; apply H; constructor; [exact Hc|constructor]]. }
  split.
  - intros r t'' H. destruct (verify_cases md pf st t r t'' Hst H) as (_ & _ & _ & H4 & H5).
    destruct Hdec as [Hn|Hn].
    + destruct (H5 Hws Hf Hn) as (_ & ws & g & _ & _ & _ & Hc).
      apply (defects_zero L) in Heq. rewrite (lincomb_all_id L ws _ Heq) in Hc.
      assert (Hr : r = Ok tt) by (destruct Hc as [[_ Hc]|[Hc _]]; [exact Hc|congruence]).
      rewrite Hr. split; split; intros; try assumption; try reflexivity; [discriminate|contradiction].
    + destruct (H4 Hws Hf Hx Hn) as [-> _]. split; split; intros; try assumption; try reflexivity; [discriminate|contradiction].
  - intros Ht Hn. apply verify_returns_batch.
    destruct (batch_of_valid md st [] [pf] [t] Hst) as [_ H]; try reflexivity.
    + intros a b [<-|[]] [<-|[]]. split; reflexivity.
    + intros i st' pf' t0 (H1 & H2 & H3). destruct i as [|i]; [|destruct i; discriminate].
      cbn in H1, H2, H3. injection H1 as <-. injection H2 as <-. injection H3 as <-.
      split; [exact Hws|]. split; [exact (proj1 Hn)|]. split; [exact (proj2 Hn)|exact Heq].
    + exact Hf.
    + exact (H Ht).
Qed.

End VerifierApi.
