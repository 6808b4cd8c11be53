(** Property C115: the parallel soundness error of batch verification. *)
From Verif Require Import ParSpecSound SpecUniform ParFacts ParVerifierFacts ParVerdict ParVerifierApi ParSoundness CountWeights ParLone ParExamples ParExamplesRun Properties_ParVerifier Properties_ParTamper
  Properties_ParCases Properties_ParSoundness.
From Verif Require Import Uniform CoreFacts Algebra.
Local Open Scope N_scope.

(** The weight tables under which the final check of the verifier passes. *)
Definition accepting {E : env} (p : params E) (M M1 : list (pt E)) (sts : list (statement E)) (pfs : list (proof E)) (ts : list transcript) (ws : list (list scalar)) : Prop :=
  weight_table 5 (length pfs) ws /\ weighted_defects p M M1 sts pfs ts ws = pid E.

(** There are [(order - 1)^(5 b)] tables of weights for [b] proofs. *)
Theorem C115_number_of_tables : forall b, has_card (weight_table 5 b) ((order - 1) ^ N.of_nat (5 * b)).
Proof. exact (card_tables 5). Qed.
Print Assumptions C115_number_of_tables.

Lemma failing_member {E : env} (L : env_laws E) (p : params E) M M1 sts pfs ts : ~ all_equations p M M1 sts pfs ts ->
  exists i j st pf t, nth_error (combine (combine sts pfs) ts) i = Some (st, pf, t) /\ (j < 5)%nat /\
    nth j (defects p M M1 (st_get_offset st) (st_get_J st) pf (challenge t st pf)) (pid E) <> pid E.
Proof.
  intros Hn. unfold all_equations in Hn. revert Hn. generalize (combine (combine sts pfs) ts) as l. intros l Hn.
  assert (Hd : forall ds : list (pt E), Forall (fun d => d = pid E) ds \/ exists j, (j < length ds)%nat /\ nth j ds (pid E) <> pid E).
  { induction ds as [|d ds IH]; [left; constructor|]. destruct (peqb E d (pid E)) eqn:Ed.
    - apply (peqb_eq E L) in Ed. destruct IH as [IH|(j & Hj & Hd)]; [left; constructor; assumption|right; exists (S j); split; [cbn [length]; lia|exact Hd]].
    - right. exists 0%nat. split; [cbn [length]; lia|]. intros Hc. cbn [nth] in Hc. apply (peqb_eq E L) in Hc. congruence. }
  induction l as [|[[st pf] t] l IH]; [destruct Hn; intros st pf t []|].
  destruct (Hd (defects p M M1 (st_get_offset st) (st_get_J st) pf (challenge t st pf))) as [Hz|(j & Hj & Hz)].
  - destruct IH as (i & j & st' & pf' & t' & H1 & H2).
    + intros Hall. apply Hn. intros st' pf' t' [He|Hin]; [injection He as <- <- <-; apply (defects_zero L); exact Hz|exact (Hall _ _ _ Hin)].
    + exists (S i), j, st', pf', t'. split; [exact H1|exact H2].
  - exists 0%nat, j, st, pf, t. split; [reflexivity|]. split; [exact Hj|exact Hz].
Qed.

(** If some proof of the batch fails some equation, at most one table in [order - 1] is accepting. *)
Theorem C115_few_tables_accept :
  forall (E : env), env_laws E -> forall (p : params E) M M1 sts pfs ts,
    length sts = length pfs -> length sts = length ts -> ~ all_equations p M M1 sts pfs ts ->
    exists c, has_card (accepting p M M1 sts pfs ts) c /\ c * (order - 1) <= (order - 1) ^ N.of_nat (5 * length pfs).
Proof.
  intros E L p M M1 sts pfs ts Hl1 Hl2 Hn. destruct (failing_member L p M M1 sts pfs ts Hn) as (i & j & st & pf & t & Hi & Hj & Hd).
  assert (Hl : length (combine (combine sts pfs) ts) = length pfs) by (rewrite !combine_length; lia).
  apply (few_tables 5 (length pfs) i j (fun ws => weighted_defects p M M1 sts pfs ts ws = pid E)).
  - intros ws. destruct (peqb E (weighted_defects p M M1 sts pfs ts ws) (pid E)) eqn:He;
      [left; apply (peqb_eq E L); exact He|right; intros H; apply (peqb_eq E L) in H; congruence].
  - rewrite <- Hl. apply nth_error_Some. congruence.
  - exact Hj.
  - intros ws w w' Hw Hw'. unfold put in Hw, Hw'. rewrite <- Hl in Hw, Hw'. exact (weight_unique L p M M1 sts pfs ts (mat ws) i j st pf t w w' Hi Hj Hd Hw Hw').
Qed.
Print Assumptions C115_few_tables_accept.

(** A batch is accepted if and only if it is well formed and the table of weights drawn for it is accepting. *)
Theorem C115_accepted_by_its_table :
  forall (E : env), env_laws E -> forall md (st0 : statement E) sts pfs ts, made_statement st0 ->
    let p := st_get_params st0 in
    (exists ts', verify_batch_returns md (st0 :: sts) pfs ts (Ok tt) ts') <->
    length (st0 :: sts) = length pfs /\ length (st0 :: sts) = length ts /\ Forall (same_ring st0) sts /\ Forall (well_shaped p) pfs /\
    fits md p (N.of_nat (length pfs)) /\
    (forall i st pf t, member (st0 :: sts) pfs ts i st pf t ->
       challenge t st pf <> s0 /\ forall row, In row (complete (challenge t st pf) (pf_f pf)) -> ~ In s0 row) /\
    exists ws, batch_weights (E := E) 5 (length pfs) (weight_rng (st0 :: sts) pfs ts) ws /\ accepting p (get_keys (st_get_input_set st0)) (get_auxiliary_keys (st_get_input_set st0)) (st0 :: sts) pfs ts ws.
Proof.
  intros E L md st0 sts pfs ts Hm p. rewrite (verify_batch_accepts_iff L md st0 sts pfs ts (made_statement_good L st0 Hm)).
  change (is_M (st_input_set st0)) with (get_keys (st_get_input_set st0)). change (is_M1 (st_input_set st0)) with (get_auxiliary_keys (st_get_input_set st0)). change (st_params st0) with p.
  set (M := get_keys _). set (M1 := get_auxiliary_keys _).
  split; intros (H1 & H2 & H3 & H4 & H5 & H6 & ws & Hw & Hz); (split; [exact H1|split; [exact H2|split; [exact H3|split; [exact H4|split; [exact H5|split]]]]]).
  - intros i st pf t Hmb. rewrite Forall_forall in H6. specialize (H6 (st, pf, t)). apply H6. apply member_combine in Hmb. exact (nth_error_In _ _ Hmb).
  - exists ws. split; [exact Hw|]. split; [|exact Hz]. split; [exact (batch_weights_len _ _ _ _ Hw)|exact (batch_weights_nonzero _ _ _ _ Hw)].
  - apply Forall_forall. intros [[st pf] t] Hin. apply In_nth_error in Hin. destruct Hin as (i & Hi). apply (H6 i). apply member_combine. exact Hi.
  - exists ws. split; [exact Hw|exact (proj2 Hz)].
Qed.
Print Assumptions C115_accepted_by_its_table.

(** The bound is reached: a valid proof whose [z] is changed fails the two equations that use it, and exactly one table in [order - 1]
    is accepting (here the tag is a known multiple of [G]). *)
Lemma fourth (a : N) : a ^ 4 = a * (a * (a * a)).
Proof. change 4 with (N.succ (N.succ (N.succ (N.succ 0)))). rewrite !N.pow_succ_r', N.pow_0_r, N.mul_1_r. reflexivity. Qed.
Theorem C115_bound_is_reached :
  forall (E : env), env_laws E -> forall (st : statement E) t pf x y, made_statement st -> valid_proof t st pf -> x <> pf_z pf ->
    get_G (st_get_params st) <> pid E -> y <> s0 -> st_get_J st = pmul E y (get_G (st_get_params st)) ->
    ~ all_equations (st_get_params st) (get_keys (st_get_input_set st)) (get_auxiliary_keys (st_get_input_set st)) [st] [with_z pf x] [t] /\
    has_card (accepting (st_get_params st) (get_keys (st_get_input_set st)) (get_auxiliary_keys (st_get_input_set st)) [st] [with_z pf x] [t]) ((order - 1) ^ 4).
Proof.
  intros E L st t pf x y Hm Hv Hx HG Hy HJ. pose proof (tamper_z_defects L t st pf x Hv) as Hd.
  set (p := st_get_params st) in *. set (M := get_keys (st_get_input_set st)) in *. set (M1 := get_auxiliary_keys (st_get_input_set st)) in *. set (d := (pf_z pf - x)%sc) in *.
  assert (Hd0 : d <> s0) by (unfold d; intros He; apply Hx; replace x with (pf_z pf - (pf_z pf - x))%sc by ring; rewrite He; ring).
  clearbody d. split.
  - intros Hall. specialize (Hall st (with_z pf x) t (or_introl eq_refl)). change (challenge t st (with_z pf x)) with (challenge t st pf) in Hall.
    apply (defects_zero L) in Hall. rewrite Hd in Hall. apply Forall_inv_tail, Forall_inv_tail, Forall_inv in Hall. exact (HG (pmul_eq_0 L _ _ Hall Hd0)).
  - assert (Hacc : forall w1 w2 w3 w4 w5, weighted_defects p M M1 [st] [with_z pf x] [t] [[w1; w2; w3; w4; w5]] = pid E <-> w3 = (- (w4 * y))%sc).
    { intros w1 w2 w3 w4 w5. unfold weighted_defects. cbn [combine map psum fold_right]. change (challenge t st (with_z pf x)) with (challenge t st pf).
      rewrite Hd, HJ. rewrite !lincomb_cons, lincomb_nil_l.
      assert (Hre : forall G, padd E (padd E (pmul E w1 (pid E)) (padd E (pmul E w2 (pid E)) (padd E (pmul E w3 (pmul E d G))
             (padd E (pmul E w4 (pmul E d (pmul E y G))) (padd E (pmul E w5 (pid E)) (pid E)))))) (pid E) = pmul E (d * (w3 + w4 * y))%sc G) by (intros G; module L).
      rewrite Hre. split.
      - intros He. destruct (scalar_eq_dec (d * (w3 + w4 * y))%sc s0) as [Hz|Hz]; [|destruct (HG (pmul_eq_0 L _ _ He Hz))].
        apply smul_eq_0 in Hz. destruct Hz as [Hz|Hz]; [destruct (Hd0 Hz)|]. replace w3 with ((w3 + w4 * y) - w4 * y)%sc by ring. rewrite Hz. ring.
      - intros ->. replace (d * (- (w4 * y) + w4 * y))%sc with s0 by ring. apply (pmul_0_l L). }
    rewrite fourth.
    apply (card_image (fun u : scalar * (scalar * (scalar * scalar)) => fst u <> s0 /\ (fst (snd u) <> s0 /\ (fst (snd (snd u)) <> s0 /\ snd (snd (snd u)) <> s0))) _
      (fun u => [[fst u; fst (snd u); (- (fst (snd (snd u)) * y))%sc; fst (snd (snd u)); snd (snd (snd u))]])
      (fun ws => (mat ws 0 0, (mat ws 0 1, (mat ws 0 3, mat ws 0 4))))).
    + exact (card_prod _ _ _ _ card_nonzero (card_prod _ _ _ _ card_nonzero (card_prod _ _ _ _ card_nonzero card_nonzero))).
    + intros (w1 & w2 & w4 & w5) (H1 & H2 & H4 & H5). cbn [fst snd] in *. split; [|reflexivity]. split; [|apply Hacc; reflexivity].
      split; [split; [reflexivity|repeat constructor]|]. constructor; [|constructor]. intros [Hc|[Hc|[Hc|[Hc|[Hc|[]]]]]]; [exact (H1 Hc)|exact (H2 Hc)| |exact (H4 Hc)|exact (H5 Hc)].
      assert (Hz : (w4 * y)%sc = s0) by (replace (w4 * y)%sc with (- - (w4 * y))%sc by ring; rewrite Hc; ring).
      apply smul_eq_0 in Hz. destruct Hz as [Hz|Hz]; [exact (H4 Hz)|exact (Hy Hz)].
    + intros ws (Ht & Hw). pose proof Ht as ((Hl & Hr) & Hz). cbn [length] in Hl. destruct ws as [|w [|]]; try discriminate.
      apply Forall_inv in Hr, Hz. destruct w as [|w1 [|w2 [|w3 [|w4 [|w5 [|]]]]]]; try discriminate. unfold mat. cbn [nth fst snd].
      split; [repeat split; intros ->; apply Hz; cbn [In]; tauto|]. apply Hacc in Hw. rewrite Hw. reflexivity.
Qed.
Print Assumptions C115_bound_is_reached.

(** A batch of two proofs with one failing, and a single proof for which the bound is reached. *)
Example C115_example :
  (length x_sts = length x_pfs /\ length x_sts = length x_ts /\
   ~ all_equations (st_get_params (x_statement P0 T0 2)) (get_keys (st_get_input_set (x_statement P0 T0 2))) (get_auxiliary_keys (st_get_input_set (x_statement P0 T0 2))) x_sts x_pfs x_ts) /\
  (exists (st : statement E0) t pf x y, made_statement st /\ valid_proof t st pf /\ x <> pf_z pf /\
     get_G (st_get_params st) <> pid E0 /\ y <> s0 /\ st_get_J st = pmul E0 y (get_G (st_get_params st))).
Proof.
  split.
  - split; [reflexivity|]. split; [reflexivity|]. intros Hall.
    assert (Hin : In (x_statement P0 T0 2, x_tampered, x_transcript 2) (combine (combine x_sts x_pfs) x_ts)) by (right; left; reflexivity).
    specialize (Hall _ _ _ Hin). apply (defects_zero L0) in Hall. apply Forall_inv in Hall.
    exact (tampered_first_defect L0 (x_transcript 2) (x_statement P0 T0 2) (x_proof P0 T0 2 2) _ x_H_nonzero (x_valid P0 T0 2 2 ltac:(lia) x_check_2_2) (add_one_differs _) Hall).
  - exists (x_statement P0 T0 2), (x_transcript 1), (x_proof P0 T0 2 1), (pf_z (x_proof P0 T0 2 1) + s1)%sc, (smk 99).
    split; [apply x_statement_made|]. split; [exact (x_valid P0 T0 2 1 ltac:(lia) x_check_2_1)|]. split; [apply add_one_differs|].
    split; [scalars_differ|]. split; [scalars_differ|]. change (smk 99 = (smk 99 * s1)%sc). ring.
Qed.
