(** Property C118: what verifying a batch costs. *)
From Verif Require Import SpecPlain VerifyCost PlainFacts ProverFacts VerifierFacts VerifierApi Calls Examples Properties_Verifier
  Properties_Verdict.

Section Counting.
Context {E : env} (u : units).

(** transcript.rs lines 44-93 *)
Definition pt_commit_c (t : transcript) (p : params E) (A B C D : pt E) (X Y : list (pt E)) : counted (list scalar) * transcript :=
  let t := absorb_first_message t A B C D X Y in
  let (xi_bytes, t) := challenge_bytes (E := E) t (b_ "xi") 64 in
  (challenge_powers_c u (get_m p) (scalar_from_wide xi_bytes), t).

(** proof.rs lines 677-689 *)
Fixpoint challenge_loop_c (p : params E) (statements : list (statement E)) (proofs : list (proof E)) (transcripts : list transcript)
    (tw : transcript) : counted (list (list scalar) * transcript) * list transcript :=
  match statements, proofs, transcripts with
  | st :: sts, pf :: pfs, t :: ts =>
      let '(t, _, _) := pt_new null_rng t st tt None in
      let (powers, t) := pt_commit_c t p (pf_A pf) (pf_B pf) (pf_C pf) (pf_D pf) (pf_X pf) (pf_Y pf) in
      match fst powers with
      | Ok xi_powers =>
          let '(g, t, _) := pt_response (E := E) null_rng t None tt (pf_f pf) (pf_z_A pf) (pf_z_C pf) (pf_z pf) in
          let (x, _) := trng_next_u64 (E := E) g in
          let tw := append_u64 tw (b_ "proof") x in
          let (res, ts) := challenge_loop_c p sts pfs ts tw in
          (tick (snd powers) (cbind res (fun '(all, tw) => cret (xi_powers :: all, tw))), t :: ts)
      | Err e => ((Err e, snd powers), t :: ts)
      | Panic => ((Panic, snd powers), t :: ts)
      | OutOfFuel => ((OutOfFuel, snd powers), t :: ts)
      end
  | _, _, _ => (cret ([], tw), transcripts)
  end.

(** proof.rs lines 695-795.  Multiplications: one for G (line 731), three for each entry of CommitmentG (733-739), two for CommitmentH
    (742), one each for B, C and J (748-757), one for each entry of X and Y (760-767), those of the products (769-788), one for each key
    (789) and one for U (794). *)
Definition process_proof_c (fuel : nat) (p : params E) (pf : proof E) (xi_powers : list scalar) (g : trng) (ac : acc)
    : counted (trng * acc) :=
  cbind (cfree (f_full (get_m p) xi_powers (pf_f pf))) (fun f =>
  if contains_zero f then cerr (InvalidParameter "proof `f` matrix contained 0")
  else
    cbind (cfree (weights_loop (E := E) fuel g s0 s0 s0 s0)) (fun '(w1, w2, w3, w4, g) =>
    cbind (cfree (index xi_powers 1)) (fun xi =>
    let G_scalar := (a_G ac - w3 * pf_z pf)%sc in
    let CommitmentG_scalars :=
      zip_add (a_CommitmentG ac) (map (fun x => w1 * x + w2 * x * (xi - x))%sc (concat f)) in
    let CommitmentH_scalar := (a_CommitmentH ac + (w1 * pf_z_A pf + w2 * pf_z_C pf))%sc in
    tick ((1 + 3 * Nat.min (length (a_CommitmentG ac)) (length (concat f)) + 2) * u_mul u)
    (cbind (cfree (index xi_powers 1)) (fun x1 =>
    cbind (cfree (slice xi_powers 0 (N.to_nat (get_m p)))) (fun low_powers =>
    let scalars :=
      a_scalars ac ++ [(- w1)%sc; ((- w1) * x1)%sc; ((- w2) * x1)%sc; (- w2)%sc; ((- w4) * pf_z pf)%sc]
      ++ map (fun x => (- w3) * x)%sc low_powers ++ map (fun x => (- w4) * x)%sc low_powers in
    tick ((3 + length low_powers + length low_powers) * u_mul u)
    (cbind (all_f_products_c u (get_n p) (get_m p) (length (a_M ac)) f) (fun products =>
    let M_scalars := zip_add (a_M ac) (map (fun x => w3 * x)%sc products) in
    let U_scalar := (a_U ac + w4 * ssum products)%sc in
    tick ((length products + 1) * u_mul u)
    (cret (g, mk_acc scalars G_scalar CommitmentG_scalars CommitmentH_scalar M_scalars U_scalar)))))))))).

(** proof.rs lines 694-795 *)
Fixpoint process_all_c (fuel : nat) (p : params E) (proofs : list (proof E)) (powers : list (list scalar)) (g : trng) (ac : acc) : counted acc :=
  match proofs, powers with
  | pf :: pfs, xi_powers :: rest =>
      cbind (process_proof_c fuel p pf xi_powers g ac) (fun '(g, ac) => process_all_c fuel p pfs rest g ac)
  | _, _ => cret ac
  end.

(** proof.rs lines 547-810 *)
Definition verify_batch_c (fuel : nat) (md : overflow_mode) (statements : list (statement E)) (proofs : list (proof E))
    (transcripts : list transcript) : counted unit * list transcript :=
  match batch_checks md statements proofs transcripts with
  | Err e => ((Err e, 0%nat), transcripts)
  | Panic => ((Panic, 0%nat), transcripts)
  | OutOfFuel => ((OutOfFuel, 0%nat), transcripts)
  | Ok None => (cret tt, transcripts)
  | Ok (Some first_statement) =>
      let M := get_keys (st_get_input_set first_statement) in
      let p := st_get_params first_statement in
      let points := final_points p M proofs statements in
      let (challenges, transcripts) := challenge_loop_c p statements proofs transcripts weights_transcript in
      (cbind challenges (fun '(xi_powers_all, tw) =>
       let (g, _) := finalize_rng null_rng tw [] tt in
       cbind (process_all_c fuel p proofs xi_powers_all g (acc_start p M)) (fun ac =>
       tick (u_msm u (length (final_scalars ac)))
       (cbind (cfree (vartime_multiscalar_mul (final_scalars ac) points)) (fun result =>
       if peqb E result (pid E) then cret tt else cerr FailedVerification)))), transcripts)
  end.

(** * Specification: the costs *)

(** Each proof: multiplications, and an inversion of its matrix. *)
Definition cost_per_proof (p : params E) : nat :=
  let n := N.to_nat (get_n p) in let m := N.to_nat (get_m p) in let k := N.to_nat (get_N p) in
  (3 * k + 3 * (n * m) + 4 * m + 8) * u_mul u + u_inv u (n * m).
(** The terms of the final multiscalar multiplication of a batch of [b] proofs: shared ones and those of each proof. *)
Definition terms (p : params E) (b : nat) : nat :=
  let n := N.to_nat (get_n p) in let m := N.to_nat (get_m p) in let k := N.to_nat (get_N p) in
  (k + n * m + 3) + b * (2 * m + 5).

(** * The same results *)
Lemma pt_commit_c_result (t : transcript) (p : params E) A B C D X Y :
  let r := pt_commit null_rng t None tt p A B C D X Y in
  let c := pt_commit_c t p A B C D X Y in
  fst (fst c) = fst (fst (fst r)) /\ snd c = snd (fst (fst r)).
Proof.
  cbv zeta. unfold pt_commit, pt_commit_c. destruct (build_transcript_rng _ _ _ _) as [g w]. destruct (challenge_bytes _ _ _) as [xb t'].
  cbn [fst snd]. split; [apply challenge_powers_c_result|reflexivity].
Qed.
Lemma challenge_loop_c_result (p : params E) : forall sts pfs ts tw,
  fst (fst (challenge_loop_c p sts pfs ts tw)) = fst (challenge_loop p sts pfs ts tw) /\
  snd (challenge_loop_c p sts pfs ts tw) = snd (challenge_loop p sts pfs ts tw).
Proof.
  induction sts as [|st sts IH]; intros pfs ts tw; [split; reflexivity|]. destruct pfs as [|pf pfs]; [split; reflexivity|].
  destruct ts as [|t ts]; [split; reflexivity|]. cbn [challenge_loop_c challenge_loop]. destruct (pt_new _ _ _ _ _) as [[t1 g1] r1].
  pose proof (pt_commit_c_result t1 p (pf_A pf) (pf_B pf) (pf_C pf) (pf_D pf) (pf_X pf) (pf_Y pf)) as [H1 H2].
  destruct (pt_commit _ _ _ _ _ _ _ _ _ _ _) as [[[powers t2] g2] r2]. destruct (pt_commit_c _ _ _ _ _ _ _ _) as [pc t2']. cbn [fst snd] in H1, H2. subst t2'.
  rewrite H1. destruct powers as [xp|e| |]; [|split; reflexivity..]. destruct (pt_response _ _ _ _ _ _ _ _) as [[g3 t3] r3].
  destruct (trng_next_u64 g3) as [x g4]. destruct (IH pfs ts (append_u64 tw (b_ "proof") x)) as [I1 I2].
  destruct (challenge_loop_c p sts pfs ts _) as [res ts']. destruct (challenge_loop p sts pfs ts _) as [res' ts'']. cbn [fst snd] in *.
  split; [|congruence]. rewrite fst_tick, fst_cbind, I1. destruct res' as [[all tw']| | |]; reflexivity.
Qed.
Lemma process_proof_c_result fuel (p : params E) pf xp g ac : fst (process_proof_c fuel p pf xp g ac) = process_proof fuel p pf xp g ac.
Proof.
  unfold process_proof_c, process_proof. rewrite fst_cbind. cbn [cfree fst]. destruct (f_full _ _ _) as [f| | |]; cbn [obind]; try reflexivity.
  destruct (contains_zero f); [reflexivity|]. rewrite fst_cbind. cbn [cfree fst].
  destruct (weights_loop _ _ _ _ _ _) as [[[[[w1 w2] w3] w4] g']| | |]; cbn [obind]; try reflexivity. rewrite fst_cbind. cbn [cfree fst].
  destruct (index xp 1) as [xi| | |]; cbn [obind]; try reflexivity. rewrite fst_tick, fst_cbind. cbn [cfree fst obind]. rewrite fst_cbind. cbn [cfree fst].
  destruct (slice xp 0 _) as [low| | |]; cbn [obind]; try reflexivity. rewrite fst_tick, fst_cbind, all_f_products_c_result.
  destruct (all_f_products _ _ _ _) as [ps| | |]; reflexivity.
Qed.
Lemma process_all_c_result fuel (p : params E) : forall pfs xps g ac, fst (process_all_c fuel p pfs xps g ac) = process_all fuel p pfs xps g ac.
Proof.
  induction pfs as [|pf pfs IH]; intros xps g ac; [reflexivity|]. destruct xps as [|xp xps]; [reflexivity|]. cbn [process_all_c process_all].
  rewrite fst_cbind, process_proof_c_result. destruct (process_proof _ _ _ _ _ _) as [[g' ac']| | |]; cbn [obind]; try reflexivity. apply IH.
Qed.

End Counting.

(** ** C118: the verifier that counts is the verifier. *)
Theorem C118_same_verifier : forall (E : env) (u : units) fuel md (sts : list (statement E)) (pfs : list (proof E)) (ts : list transcript),
  (fst (fst (verify_batch_c u fuel md sts pfs ts)), snd (verify_batch_c u fuel md sts pfs ts)) = verify_batch fuel md sts pfs ts.
Proof.
  intros E u fuel md sts pfs ts. unfold verify_batch_c, verify_batch. destruct (batch_checks md sts pfs ts) as [[st|]|e| |]; try reflexivity.
  pose proof (challenge_loop_c_result u (st_get_params st) sts pfs ts weights_transcript) as [H1 H2].
  destruct (challenge_loop_c _ _ _ _ _ _) as [res ts1]. destruct (challenge_loop _ _ _ _ _) as [res' ts2]. cbn [fst snd] in *. subst ts2.
  f_equal. rewrite fst_cbind, H1. destruct res' as [[xps tw]| | |]; cbn [obind]; try reflexivity. destruct (finalize_rng _ _ _ _) as [g r].
  rewrite fst_cbind, process_all_c_result. destruct (process_all _ _ _ _ _ _) as [ac| | |]; cbn [obind]; try reflexivity.
  rewrite fst_tick, fst_cbind. cbn [cfree fst]. destruct (vartime_multiscalar_mul _ _) as [result| | |]; cbn [obind]; try reflexivity.
  destruct (peqb E result (pid E)); reflexivity.
Qed.
Print Assumptions C118_same_verifier.

Section Costs.
Context {E : env} (L : env_laws E) (u : units).

Lemma challenge_loop_cost (p : params E) : (p_m p < u32_bound)%N -> forall sts pfs ts tw, length sts = length pfs -> length sts = length ts ->
  let c := (length pfs * ((N.to_nat (get_m p) + 1) * u_mul u))%nat in
  match fst (fst (challenge_loop_c u p sts pfs ts tw)) with
  | Ok _ => steps (fst (challenge_loop_c u p sts pfs ts tw)) = c
  | _ => (steps (fst (challenge_loop_c u p sts pfs ts tw)) <= c)%nat
  end.
Proof.
  intros Hm. unfold steps. induction sts as [|st sts IH]; intros pfs ts tw H1 H2; destruct pfs as [|pf pfs]; try discriminate; destruct ts as [|t ts]; try discriminate.
  - reflexivity.
  - cbn [length] in H1, H2. cbn [challenge_loop_c]. destruct (pt_new _ _ _ _ _) as [[t1 g1] r1]. unfold pt_commit_c.
    destruct (challenge_bytes _ _ _) as [xb t2]. pose proof (challenge_powers_cost u (get_m p) (scalar_from_wide xb) Hm) as Hc. unfold steps in Hc.
    destruct (fst (challenge_powers_c u (get_m p) (scalar_from_wide xb))) as [xp|e| |]; [|cbn [fst snd length] in *; lia..].
    destruct (pt_response _ _ _ _ _ _ _ _) as [[g3 t3] r3]. destruct (trng_next_u64 g3) as [x g4].
    specialize (IH pfs ts (append_u64 tw (b_ "proof") x) ltac:(lia) ltac:(lia)). cbv zeta in IH.
    destruct (challenge_loop_c u p sts pfs ts _) as [res ts']. cbn [fst snd] in *. rewrite fst_tick, fst_cbind. unfold tick, cbind. cbn [snd].
    destruct (fst res) as [[all tw']| | |]; cbn [obind cret fst snd length] in *; lia.
Qed.

Lemma process_proof_cost fuel (p : params E) M pf xi g ac pts : good_params p -> length M = N.to_nat (get_N p) -> well_shaped p pf ->
  good_acc p M pts ac ->
  let n := N.to_nat (get_n p) in let m := N.to_nat (get_m p) in let k := N.to_nat (get_N p) in
  let x := process_proof_c u fuel p pf (powers xi (S m)) g ac in
  match fst x with
  | Ok (_, ac') => steps x = ((3 * k + 3 * (n * m) + 3 * m + 7) * u_mul u + u_inv u (n * m))%nat
  | _ => steps x = 0%nat
  end.
Proof.
  intros Hp HM (HX & HY & Hf) Ha n m k x. pose proof (gp_n p Hp) as Hn. pose proof (gp_m p Hp) as Hm. pose proof (gp_pow p Hp) as Hb.
  change (p_n p) with (get_n p) in *. change (p_m p) with (get_m p) in *. unfold x, steps, process_proof_c.
  rewrite f_full_spec by (destruct Hf; lia). rewrite cbind_free.
  destruct (contains_zero (complete xi (pf_f pf))) eqn:Hz; [reflexivity|]. rewrite cbind_free.
  destruct (weights_loop fuel g s0 s0 s0 s0) as [[[[[w1 w2] w3] w4] g']| | |]; [|reflexivity..].
  assert (H1 : @index proof_error _ (powers xi (S m)) 1 = Ok xi).
  { apply index_Ok. rewrite powers_nth by (unfold m; lia). f_equal. cbn [spow]. ring. }
  rewrite H1. rewrite slice_Ok by (rewrite ?powers_length; unfold m; lia). rewrite skipn_O, Nat.sub_0_r. fold m. rewrite firstn_powers.
  set (F := complete xi (pf_f pf)) in *.
  assert (HF : shape m n F) by (apply full_shape; [unfold n; lia|exact Hf]).
  rewrite (ga_M _ _ _ _ Ha), HM, (good_N p Hp). change (p_n p) with (get_n p). change (p_m p) with (get_m p).
  pose proof (all_f_products_spec (get_n p) (get_m p) F ltac:(assumption) ltac:(lia) Hb HF Hz) as Hps.
  pose proof (all_f_products_cost u _ _ _ _ _ Hps) as Hc. unfold steps in Hc. rewrite <- (all_f_products_c_result u) in Hps.
  unfold cbind, tick. cbn [cfree fst snd]. rewrite Hps. cbn [fst snd cret]. rewrite Hc, (ga_CG _ _ _ _ Ha), (gp_CG p Hp), powers_length.
  change (p_n p) with (get_n p). change (p_m p) with (get_m p). fold n m.
  rewrite map_length, seq_length, (concat_shape_length _ _ _ HF), Nat.min_id. destruct HF as [HF _]. rewrite HF.
  replace (N.to_nat (get_n p ^ get_m p)) with k by (unfold k; rewrite (good_N p Hp); reflexivity). rewrite (Nat.mul_comm m n). lia.
Qed.

Lemma process_all_cost fuel (p : params E) M : good_params p -> length M = N.to_nat (get_N p) ->
  forall pfs xis g ac pts, Forall (well_shaped p) pfs -> length xis = length pfs -> good_acc p M pts ac ->
  let n := N.to_nat (get_n p) in let m := N.to_nat (get_m p) in let k := N.to_nat (get_N p) in
  let c := (length pfs * ((3 * k + 3 * (n * m) + 3 * m + 7) * u_mul u + u_inv u (n * m)))%nat in
  let x := process_all_c u fuel p pfs (map (fun xi => powers xi (S m)) xis) g ac in
  match fst x with
  | Ok ac' => steps x = c /\ length (final_scalars ac') = (length (a_scalars ac) + terms p (length pfs))%nat
  | _ => (steps x <= c)%nat
  end.
Proof.
  intros Hp HM. unfold steps. induction pfs as [|pf pfs IH]; intros xis g ac pts Hw Hl Ha; destruct xis as [|xi xis]; try discriminate.
  - cbn. split; [reflexivity|]. unfold final_scalars. rewrite !app_length. cbn [length]. rewrite (ga_CG _ _ _ _ Ha), (ga_M _ _ _ _ Ha), (gp_CG p Hp), HM.
    change (p_n p) with (get_n p). change (p_m p) with (get_m p). unfold terms. lia.
  - cbn [length] in Hl. inversion Hw as [|? ? Hw1 Hw2]; subst. cbn [map process_all_c].
    pose proof (process_proof_cost fuel p M pf xi g ac pts Hp HM Hw1 Ha) as Hc. cbv zeta in Hc. cbv zeta.
    set (n := N.to_nat (get_n p)) in *. set (m := N.to_nat (get_m p)) in *. set (k := N.to_nat (get_N p)) in *.
    set (one := ((3 * k + 3 * (n * m) + 3 * m + 7) * u_mul u + u_inv u (n * m))%nat) in *. unfold steps in Hc.
    rewrite fst_cbind. unfold cbind.
    destruct (fst (process_proof_c u fuel p pf (powers xi (S m)) g ac)) as [[g' ac']|e| |] eqn:Hpp; cbn [obind fst snd length] in *; try lia.
    rewrite process_proof_c_result in Hpp. change m with (N.to_nat (p_m p)) in Hpp.
    assert (Ha' : good_acc p M (pts ++ own_points pf (pid E)) ac' /\ length (a_scalars ac') = (length (a_scalars ac) + (2 * m + 5))%nat).
    { destruct (contains_zero (complete xi (pf_f pf))) eqn:Hz.
      { rewrite (proj1 (process_proof_other fuel p pf xi g ac Hp Hw1) Hz) in Hpp. discriminate. }
      destruct (weights_loop (E := E) fuel g s0 s0 s0 s0) as [[[[[w1 w2] w3] w4] g'']| | |] eqn:Hwl.
      - destruct (process_proof_ok L fuel p M (pid E) pf xi g ac pts w1 w2 w3 w4 g'' Hp HM Hw1 Hz Hwl Ha) as (ac1 & Hok & Hg1 & _).
        rewrite Hok in Hpp. injection Hpp as _ <-. split; [exact Hg1|].
        rewrite (ga_scalars _ _ _ _ Hg1), (ga_scalars _ _ _ _ Ha), app_length. unfold own_points. rewrite !app_length. cbn [length].
        destruct Hw1 as (-> & -> & _). fold m. lia.
      - destruct (weights_loop_cases (E := E) fuel g s0 s0 s0 s0) as [[? H]|H]; rewrite H in Hwl; discriminate.
      - destruct (weights_loop_cases (E := E) fuel g s0 s0 s0 s0) as [[? H]|H]; rewrite H in Hwl; discriminate.
      - rewrite (proj2 (process_proof_other fuel p pf xi g ac Hp Hw1) Hz Hwl) in Hpp. discriminate. }
    destruct Ha' as [Ha' Hs']. specialize (IH xis g' ac' _ Hw2 ltac:(lia) Ha'). cbv zeta in IH. fold n m k one in IH.
    destruct (fst (process_all_c u fuel p pfs (map (fun xi0 => powers xi0 (S m)) xis) g' ac')) as [ac2| | |]; cbn [obind fst snd] in *; try lia.
    destruct IH as [I1 I2]. split; [lia|]. rewrite I2, Hs'. unfold terms. fold n m k. lia.
Qed.

End Costs.

(** The cost of a batch of [b] proofs over parameters with ring size [N]: if the verifier reaches its final check, exactly [b] times
    the cost of a proof and one multiscalar multiplication, in which everything that the proofs share occurs once; if it stops earlier, at
    most the former and no multiscalar multiplication.  Nothing but [n], [m] and the number of proofs matters. *)
Theorem C118_cost : forall (E : env), env_laws E -> forall (u : units) fuel md (st : statement E) sts (pfs : list (proof E)) (ts : list transcript),
  Forall made_statement (st :: sts) ->
  let p := st_get_params st in
  let b := length pfs in
  let cost := snd (fst (verify_batch_c u fuel md (st :: sts) pfs ts)) in
  match fst (verify_batch fuel md (st :: sts) pfs ts) with
  | Ok _ | Err FailedVerification => cost = (b * cost_per_proof u p + u_msm u (terms p b))%nat
  | _ => (cost <= b * cost_per_proof u p)%nat
  end.
Proof.
  intros E L u fuel md st0 sts pfs ts Hsts p b cost. pose proof (Forall_inv Hsts) as Hst. pose proof (made_statement_good L st0 Hst) as Hg.
  pose proof (gs_params _ Hg) as Hp. pose proof (gp_m _ Hp) as Hm. pose proof (good_m_u32 _ Hp) as Hm32.
  assert (HM : length (is_M (st_input_set st0)) = N.to_nat (get_N (st_params st0))) by (pose proof (gs_len _ Hg); lia).
  rewrite <- (C118_same_verifier E u). cbn [fst]. unfold cost, verify_batch_c.
  destruct (batch_checks md (st0 :: sts) pfs ts) as [[st|]|e| |] eqn:Hc; cbn [cret fst snd].
  - assert (Hl : length (st0 :: sts) = length pfs /\ length (st0 :: sts) = length ts /\ st = st0).
    { revert Hc. unfold batch_checks. destruct (Nat.eqb_spec (length (st0 :: sts)) (length pfs)) as [H1|]; [|discriminate]. cbn [negb].
      destruct (Nat.eqb_spec (length (st0 :: sts)) (length ts)) as [H2|]; [|discriminate]. cbn [negb].
      destruct (negb _); [discriminate|]. destruct (negb _); [discriminate|]. intros Hc. oinv Hc. repeat split; congruence. }
    destruct Hl as (Hl1 & Hl2 & ->). apply (batch_checks_ok md st0 sts pfs ts Hp Hl1 Hl2) in Hc. destruct Hc as (_ & Hw & _).
    assert (Hcpp : (b * cost_per_proof u p = b * ((N.to_nat (get_m p) + 1) * u_mul u) +
      b * ((3 * N.to_nat (get_N p) + 3 * (N.to_nat (get_n p) * N.to_nat (get_m p)) + 3 * N.to_nat (get_m p) + 7) * u_mul u +
           u_inv u (N.to_nat (get_n p) * N.to_nat (get_m p))))%nat).
    { rewrite <- Nat.mul_add_distr_l. f_equal. unfold cost_per_proof. lia. }
    fold p. pose proof (challenge_loop_cost u p Hm32 (st0 :: sts) pfs ts weights_transcript Hl1 Hl2) as Hcc. cbv zeta in Hcc.
    pose proof (challenge_loop_c_result u p (st0 :: sts) pfs ts weights_transcript) as [Hr _].
    destruct (challenge_loop_c u p (st0 :: sts) pfs ts weights_transcript) as [[o c0] ts']. unfold steps in Hcc. cbn [fst snd] in *.
    destruct (nonzero_dec (challenges (st0 :: sts) pfs ts)) as [Hnz|Hz].
    2:{ rewrite (challenge_loop_zero p ltac:(unfold p, st_get_params; lia) Hm32 (st0 :: sts) pfs ts weights_transcript Hl1 Hl2 Hz) in Hr.
        subst o. unfold cbind. cbn [fst snd]. rewrite Hcpp. fold b in Hcc. lia. }
    rewrite (challenge_loop_spec p ltac:(unfold p, st_get_params; lia) Hm32 (st0 :: sts) pfs ts weights_transcript Hl1 Hl2 Hnz) in Hr. cbn [fst] in Hr.
    subst o. rewrite cbind_ok. destruct (finalize_rng _ _ _ _) as [g r].
    assert (Hcl : length (challenges (st0 :: sts) pfs ts) = length pfs) by (unfold challenges; rewrite map_length, !combine_length; lia).
    pose proof (process_all_cost L u fuel p (is_M (st_input_set st0)) Hp HM pfs (challenges (st0 :: sts) pfs ts) g _ [] Hw Hcl (acc_start_good p (is_M (st_input_set st0)))) as Hpa.
    cbv zeta in Hpa. unfold steps in Hpa. change (N.to_nat (p_m p)) with (N.to_nat (get_m p)). change (get_keys (st_get_input_set st0)) with (is_M (st_input_set st0)).
    fold b in Hpa, Hcc. rewrite Hcpp. set (first := (b * ((N.to_nat (get_m p) + 1) * u_mul u))%nat) in *.
    match type of Hpa with context [(b * ?e)%nat] => set (second := (b * e)%nat) in * end.
    pose proof (process_all_c_result u fuel p pfs (map (fun xi => powers xi (S (N.to_nat (get_m p)))) (challenges (st0 :: sts) pfs ts)) g
      (acc_start p (is_M (st_input_set st0)))) as Hpr.
    pose proof (process_all_cases L fuel p (is_M (st_input_set st0)) Hp HM (st0 :: sts) pfs ts g _ [] Hl1 Hl2 Hw (acc_start_good p (is_M (st_input_set st0)))) as Hpc.
    cbv zeta in Hpc. change (N.to_nat (p_m p)) with (N.to_nat (get_m p)) in Hpc.
    pose proof (fun ac => process_all_sound L fuel p (is_M (st_input_set st0)) Hp HM (st0 :: sts) pfs ts g _ [] ac Hl1 Hl2 Hw (acc_start_good p (is_M (st_input_set st0)))) as Hps.
    change (N.to_nat (p_m p)) with (N.to_nat (get_m p)) in Hps. rewrite <- Hpr in Hpc, Hps.
    destruct (process_all_c u fuel p pfs _ g (acc_start p (is_M (st_input_set st0)))) as [[ac|e| |] c1]; cbn [fst snd] in Hpa, Hpc, Hps; [rewrite cbind_ok|unfold cbind; cbn [fst snd]..].
    2:{ destruct Hpc as [[? Hpc]|[Hpc|[Hpc _]]]; try discriminate. injection Hpc as ->. lia. }
    2:{ lia. }
    2:{ lia. }
    destruct Hpa as [Hpa Hfs]. unfold acc_start in Hfs. cbn [a_scalars length Nat.add] in Hfs. rewrite Hfs.
    rewrite cbind_free. unfold tick. cbn [fst snd].
    destruct (vartime_multiscalar_mul (final_scalars ac) _) as [result|e| |] eqn:Hmsm; cbn [fst snd].
    + destruct (peqb E result (pid E)); cbn [cret cerr fst snd]; lia.
    + exfalso. revert Hmsm. unfold vartime_multiscalar_mul. destruct (_ =? _)%nat; discriminate.
    + exfalso. destruct (Hps ac eq_refl) as (_ & ws & _ & Hga & _). cbn [app] in Hga. rewrite (value_final L p (is_M (st_input_set st0)) pfs (st0 :: sts) ac Hga) in Hmsm. discriminate.
    + exfalso. revert Hmsm. unfold vartime_multiscalar_mul. destruct (_ =? _)%nat; discriminate.
  - exfalso. revert Hc. unfold batch_checks. destruct (negb _); [discriminate|]. destruct (negb _); [discriminate|].
    destruct (negb _); [discriminate|]. destruct (negb _); [discriminate|]. intros Hc. oinv Hc.
  - assert (Hgs : Forall good_statement (st0 :: sts)) by (eapply Forall_impl; [|exact Hsts]; intros a Ha; exact (made_statement_good L a Ha)).
    destruct (batch_checks_cases md (st0 :: sts) pfs ts Hgs) as [(r & Hr)|[(Hr & _)|[(a & b' & _ & Hr & _)|(_ & Hr & _)]]]; rewrite Hr in Hc; try discriminate.
    injection Hc as <-. lia.
  - lia.
  - lia.
Qed.
Print Assumptions C118_cost.

(** An empty batch costs nothing. *)
Theorem C118_empty : forall (E : env) (u : units) fuel md, verify_batch_c (E := E) u fuel md [] [] [] = ((Ok tt, 0%nat), []).
Proof. reflexivity. Qed.
Print Assumptions C118_empty.

(** A call of the verifier that returns [r] and costs [c]. *)
Definition verify_batch_costs {E : env} (u : units) (md : overflow_mode) (sts : list (statement E)) (pfs : list (proof E)) (ts : list transcript)
    (r : outcome proof_error unit) (c : nat) : Prop :=
  exists fuel, fst (verify_batch_c u fuel md sts pfs ts) = (r, c) /\ r <> OutOfFuel.

(** Every call that returns has a cost. *)
Theorem C118_every_call : forall (E : env) (u : units) md (sts : list (statement E)) (pfs : list (proof E)) (ts : list transcript) r,
  (exists ts', verify_batch_returns md sts pfs ts r ts') <-> (exists c, verify_batch_costs u md sts pfs ts r c).
Proof.
  intros E u md sts pfs ts r. split.
  - intros (ts' & fuel & H & Hr). rewrite <- (C118_same_verifier E u) in H. injection H as H _.
    exists (snd (fst (verify_batch_c u fuel md sts pfs ts))), fuel. split; [|exact Hr]. rewrite <- H. apply surjective_pairing.
  - intros (c & fuel & H & Hr). exists (snd (verify_batch_c u fuel md sts pfs ts)), fuel. rewrite <- (C118_same_verifier E u), H. auto.
Qed.
Print Assumptions C118_every_call.

(** Verifying accepted proofs one by one costs what verifying them as a batch costs, and in addition one multiscalar multiplication of
    full size for each proof instead of a single one for the batch; if such multiplications cost [k] for each term, a batch of [b] proofs
    saves the cost of the [N + n * m + 3] shared terms [b - 1] times. *)
Theorem C118_batch_saves : forall (E : env), env_laws E -> forall (u : units) (k : nat) md (st : statement E) sts (pfs : list (proof E)) (ts : list transcript) c cs,
  (forall x, u_msm u x = (k * x)%nat) ->
  Forall made_statement (st :: sts) ->
  let p := st_get_params st in
  Forall (fun s => st_get_params s = p) sts ->
  verify_batch_costs u md (st :: sts) pfs ts (Ok tt) c ->
  Forall2 (fun x c => verify_batch_costs u md [fst (fst x)] [snd (fst x)] [snd x] (Ok tt) c) (combine (combine (st :: sts) pfs) ts) cs ->
  fold_right Nat.add 0%nat cs =
  (c + (length pfs - 1) * (k * (N.to_nat (get_N p) + N.to_nat (get_n p) * N.to_nat (get_m p) + 3)))%nat.
Proof.
  intros E L u k md st sts pfs ts c cs Hc Hm p Hsame (fuel & Hb & _) Hones.
  assert (Hb' : fst (verify_batch fuel md (st :: sts) pfs ts) = Ok tt) by (rewrite <- (C118_same_verifier E u); cbn [fst]; rewrite Hb; reflexivity).
  pose proof (C118_cost E L u fuel md st sts pfs ts Hm) as Hcost. cbv zeta in Hcost.
  rewrite Hb' in Hcost. fold p in Hcost. rewrite Hb in Hcost. cbn [snd] in Hcost. rewrite Hcost, Hc.
  assert (Hl : length (st :: sts) = length pfs /\ length (st :: sts) = length ts).
  { unfold verify_batch in Hb'. destruct (batch_checks md (st :: sts) pfs ts) as [o|e| |] eqn:Hk; try discriminate. clear Hb Hb'. revert Hk. unfold batch_checks.
    destruct (Nat.eqb_spec (length (st :: sts)) (length pfs)) as [H1|]; [|discriminate]. cbn [negb].
    destruct (Nat.eqb_spec (length (st :: sts)) (length ts)) as [H2|]; [|discriminate]. auto. }
  destruct Hl as [Hl1 Hl2]. set (one := (cost_per_proof u p + k * terms p 1)%nat).
  assert (Htot : fold_right Nat.add 0%nat cs = (length pfs * one)%nat).
  { assert (Hp : Forall (fun s => st_get_params s = p) (st :: sts)) by (constructor; [reflexivity|exact Hsame]).
    unfold one. clear - L Hc Hm Hp Hones Hl1 Hl2. clearbody p. revert pfs ts cs Hl1 Hl2 Hones. induction (st :: sts) as [|s l IH]; intros pfs ts cs Hl1 Hl2 Hones.
    - destruct pfs; [|discriminate]. inversion Hones; reflexivity.
    - destruct pfs as [|pf pfs]; [discriminate|]. destruct ts as [|t ts]; [discriminate|]. cbn [combine] in Hones.
      inversion Hm as [|? ? Hm1 Hm2]; subst. inversion Hp as [|? ? Hp1 Hp2]; subst. inversion Hones as [|? c1 ? cs' Ho1 Ho2]; subst.
      destruct Ho1 as (fuel & Ho1 & _). cbn [fst snd] in Ho1.
      assert (Ho' : fst (verify_batch fuel md [s] [pf] [t]) = Ok tt) by (rewrite <- (C118_same_verifier E u); cbn [fst]; rewrite Ho1; reflexivity).
      pose proof (C118_cost E L u fuel md s [] [pf] [t] ltac:(constructor; [exact Hm1|constructor])) as H1. cbv zeta in H1.
      rewrite Ho', Ho1 in H1. cbn [fst snd length] in H1. rewrite Hc in H1.
      cbn [length] in Hl1, Hl2. specialize (IH Hm2 Hp2 pfs ts cs' ltac:(lia) ltac:(lia) Ho2). cbn [fold_right length]. rewrite IH, H1. ring. }
  rewrite Htot. unfold one, terms. set (y := (2 * N.to_nat (get_m p) + 5)%nat). set (x := (N.to_nat (get_N p) + N.to_nat (get_n p) * N.to_nat (get_m p) + 3)%nat).
  destruct (length pfs) as [|b]; [cbn [length] in Hl1; lia|]. rewrite Nat.sub_succ, Nat.sub_0_r. ring.
Qed.
Print Assumptions C118_batch_saves.

(** The blame functions: what the verifications they make cost together ([Calls.v] logs the ranges they verify). *)
Definition calls_cost {E : env} (u : units) fuel md (sts : list (statement E)) (pfs : list (proof E)) (ts : list transcript) (calls : list (nat * nat)) : nat :=
  list_sum (map (fun c => snd (fst (verify_batch_c u fuel md (sub sts (fst c) (snd c)) (sub pfs (fst c) (snd c)) (sub ts (fst c) (snd c))))) calls).

Lemma sub_length {A} (l : list A) a b : (b <= length l)%nat -> length (sub l a b) = (b - a)%nat.
Proof. intros H. unfold sub. rewrite firstn_length, skipn_length. lia. Qed.
Lemma call_cost {E : env} (L : env_laws E) (u : units) (k : nat) fuel md (p : params E) sts (pfs : list (proof E)) (ts : list transcript) :
  (forall x, u_msm u x = (k * x)%nat) -> Forall made_statement sts -> Forall (fun s => st_get_params s = p) sts ->
  (snd (fst (verify_batch_c u fuel md sts pfs ts)) <= length pfs * (cost_per_proof u p + k * (2 * N.to_nat (get_m p) + 5)) +
    k * (N.to_nat (get_N p) + N.to_nat (get_n p) * N.to_nat (get_m p) + 3))%nat.
Proof.
  intros Hk Hm Hp. destruct sts as [|st sts].
  { unfold verify_batch_c, batch_checks. destruct pfs as [|pf pfs]; [|cbn [length Nat.eqb negb fst snd]; apply Nat.le_0_l].
    destruct ts as [|t ts]; cbn [length Nat.eqb negb fst snd cret]; apply Nat.le_0_l. }
  pose proof (C118_cost E L u fuel md st sts pfs ts Hm) as Hc. cbv zeta in Hc. inversion Hp as [|? ? <- _]; subst. rewrite Hk in Hc. unfold terms in Hc.
  set (cost := snd (fst (verify_batch_c u fuel md (st :: sts) pfs ts))) in *. set (one := cost_per_proof u (st_get_params st)) in *.
  set (y := (2 * N.to_nat (get_m (st_get_params st)) + 5)%nat) in *.
  set (x := (N.to_nat (get_N (st_get_params st)) + N.to_nat (get_n (st_get_params st)) * N.to_nat (get_m (st_get_params st)) + 3)%nat) in *.
  rewrite Nat.mul_add_distr_l. rewrite Nat.mul_add_distr_l in Hc. replace (length pfs * (k * y))%nat with (k * (length pfs * y))%nat by ring.
  destruct (fst (verify_batch fuel md (st :: sts) pfs ts)) as [|[]| |]; lia.
Qed.
Lemma Forall_sub {A} (P : A -> Prop) l a b : Forall P l -> Forall P (sub l a b).
Proof.
  intros H. apply Forall_forall. intros x Hx. rewrite Forall_forall in H. apply H. unfold sub in Hx.
  rewrite <- (firstn_skipn a l). apply in_or_app. right. rewrite <- (firstn_skipn (b - a) (skipn a l)). apply in_or_app. left. exact Hx.
Qed.
Lemma calls_total {E : env} (L : env_laws E) (u : units) (k : nat) fuel md (p : params E) sts (pfs : list (proof E)) (ts : list transcript) calls :
  (forall x, u_msm u x = (k * x)%nat) -> Forall made_statement sts -> Forall (fun s => st_get_params s = p) sts ->
  Forall (fun c => snd c <= length pfs)%nat calls ->
  (calls_cost u fuel md sts pfs ts calls <= list_sum (map (fun c => snd c - fst c) calls) * (cost_per_proof u p + k * (2 * N.to_nat (get_m p) + 5)) +
    length calls * (k * (N.to_nat (get_N p) + N.to_nat (get_n p) * N.to_nat (get_m p) + 3)))%nat.
Proof.
  intros Hk Hm Hp Hc. unfold calls_cost. set (one := (cost_per_proof u p + k * (2 * N.to_nat (get_m p) + 5))%nat).
  set (x := (k * (N.to_nat (get_N p) + N.to_nat (get_n p) * N.to_nat (get_m p) + 3))%nat).
  induction Hc as [|c calls Hc _ IH]; [apply Nat.le_0_l|]. cbn [map length list_sum fold_right] in *.
  pose proof (call_cost L u k fuel md p (sub sts (fst c) (snd c)) (sub pfs (fst c) (snd c)) (sub ts (fst c) (snd c)) Hk (Forall_sub _ _ _ _ Hm) (Forall_sub _ _ _ _ Hp)) as H1.
  rewrite sub_length in H1 by exact Hc. fold one x in H1. unfold list_sum in IH. rewrite Nat.mul_add_distr_r. lia.
Qed.

(** Finding a single culprit among [b] proofs costs little more than verifying two batches of that size: shared work at most
    [2 + ceil(log2 b)] times. *)
Theorem C118_single_blame : forall (E : env), env_laws E -> forall (u : units) (k : nat) fuel md (p : params E) sts (pfs : list (proof E)) (ts : list transcript),
  (forall x, u_msm u x = (k * x)%nat) -> Forall made_statement sts -> Forall (fun s => st_get_params s = p) sts ->
  let '(result, transcripts, calls) := single_blame_calls fuel md sts pfs ts in
  let b := length pfs in
  (result, transcripts) = verify_batch_with_single_blame fuel md sts pfs ts /\
  (calls_cost u fuel md sts pfs ts calls <=
    (2 * b + Nat.log2_up b) * (cost_per_proof u p + k * (2 * N.to_nat (get_m p) + 5)) +
    (1 + Nat.max 1 (Nat.log2_up b)) * (k * (N.to_nat (get_N p) + N.to_nat (get_n p) * N.to_nat (get_m p) + 3)))%nat.
Proof.
  intros E L u k fuel md p sts pfs ts Hk Hm Hp. pose proof (C41_number_of_calls E fuel md sts pfs ts) as H.
  destruct (single_blame_calls fuel md sts pfs ts) as [[r us] calls]. cbv zeta in *. destruct H as (H1 & H2 & H3 & later & H4 & H5). split; [exact H1|].
  assert (Hc : Forall (fun c => snd c <= length pfs)%nat calls).
  { rewrite H4. constructor; [cbn; lia|]. eapply Forall_impl; [|exact H5]. cbn beta. intros c Hc. lia. }
  etransitivity; [exact (calls_total L u k fuel md p sts pfs ts calls Hk Hm Hp Hc)|]. apply Nat.add_le_mono; apply Nat.mul_le_mono_r; [exact H3|exact H2].
Qed.
Print Assumptions C118_single_blame.

(** Finding all culprits costs at most as much as verifying the batch and then every proof alone. *)
Theorem C118_full_blame : forall (E : env), env_laws E -> forall (u : units) (k : nat) fuel md (p : params E) sts (pfs : list (proof E)) (ts : list transcript),
  (forall x, u_msm u x = (k * x)%nat) -> Forall made_statement sts -> Forall (fun s => st_get_params s = p) sts ->
  let '(result, transcripts, calls) := full_blame_calls fuel md sts pfs ts in
  let b := length pfs in
  (result, transcripts) = verify_batch_with_full_blame fuel md sts pfs ts /\
  (calls_cost u fuel md sts pfs ts calls <=
    2 * b * (cost_per_proof u p + k * (2 * N.to_nat (get_m p) + 5)) +
    (1 + b) * (k * (N.to_nat (get_N p) + N.to_nat (get_n p) * N.to_nat (get_m p) + 3)))%nat.
Proof.
  intros E L u k fuel md p sts pfs ts Hk Hm Hp. pose proof (C43_calls E fuel md sts pfs ts) as H.
  destruct (full_blame_calls fuel md sts pfs ts) as [[r us] calls]. cbv zeta in *. destruct H as (H1 & c & H2 & H3 & _). split; [exact H1|].
  assert (Hc : Forall (fun c => snd c <= length pfs)%nat calls).
  { rewrite H3. constructor; [cbn; lia|]. apply Forall_forall. intros x Hx. apply in_map_iff in Hx. destruct Hx as (i & <- & Hi). apply in_seq in Hi. cbn [snd]. lia. }
  assert (Hs : (list_sum (map (fun c => snd c - fst c) calls) <= 2 * length pfs)%nat).
  { rewrite H3. cbn [map list_sum fold_right fst snd].
    assert (Hone : forall a n, fold_right Nat.add 0%nat (map (fun c : nat * nat => snd c - fst c)%nat (map (fun i => (i, S i)) (seq a n))) = n).
    { intros a n. revert a. induction n as [|n IH]; intros a; [reflexivity|]. cbn [seq map fold_right fst snd]. rewrite IH. lia. }
    rewrite Hone. lia. }
  etransitivity; [exact (calls_total L u k fuel md p sts pfs ts calls Hk Hm Hp Hc)|]. apply Nat.add_le_mono; apply Nat.mul_le_mono_r; [exact Hs|].
  rewrite H3. cbn [length]. rewrite map_length, seq_length. lia.
Qed.
Print Assumptions C118_full_blame.

(** Two honest proofs over a ring of four keys ([n] = 2, [m] = 2): with multiplications in the group alone counted, the batch costs 29 terms
    and the proofs one by one cost 40. *)
Example C118_example :
  let u := mk_units 0 (fun _ => 0%nat) (fun k => k) in
  exists (sts : list (statement E0)) pfs ts, Forall made_statement sts /\ length pfs = 2%nat /\
    verify_batch_costs u OverflowPanics sts pfs ts (Ok tt) 29 /\
    Forall (fun x => verify_batch_costs u OverflowPanics [fst (fst x)] [snd (fst x)] [snd x] (Ok tt) 20) (combine (combine sts pfs) ts).
Proof.
  intros u. pose (st := x_statement P0 T0 2).
  assert (Hm : Forall made_statement [st; st]) by (repeat constructor; apply x_statement_made).
  assert (Hm1 : Forall made_statement [st]) by (repeat constructor; apply x_statement_made).
  assert (H1 : one_ring [st; st]) by (intros a b [<-|[<-|[]]] [<-|[<-|[]]]; split; reflexivity).
  assert (Hv : all_valid [st; st] [x_proof P0 T0 2 1; x_proof P0 T0 2 2] [x_transcript 1; x_transcript 2]).
  { intros i s pf t (Ha & Hb & Hc). destruct i as [|[|i]]; cbn [nth_error] in Ha, Hb, Hc.
    - injection Ha as <-. injection Hb as <-. injection Hc as <-. apply x_valid; [lia|exact x_check_2_1].
    - injection Ha as <-. injection Hb as <-. injection Hc as <-. apply x_valid; [lia|exact x_check_2_2].
    - destruct i; discriminate. }
  assert (Hcost : forall sts (pfs : list (proof E0)) ts, Forall made_statement (st :: sts) -> one_ring (st :: sts) ->
    length (st :: sts) = length pfs -> length (st :: sts) = length ts ->
    all_valid (st :: sts) pfs ts -> fits OverflowPanics (st_get_params st) (N.of_nat (length pfs)) ->
    verify_batch_costs u OverflowPanics (st :: sts) pfs ts (Ok tt) (11 + length pfs * 9)).
  { intros sts pfs ts Ha Hb Hl1 Hl2 Hc Hd.
    destruct (C25_batch_completeness E0 L0 OverflowPanics st sts pfs ts Ha Hb Hl1 Hl2 Hc Hd) as [_ H].
    destruct (H (E0_weights_terminate 4)) as [ts' (fuel & H' & _)]. exists fuel.
    pose proof (C118_cost E0 L0 u fuel OverflowPanics st sts pfs ts Ha) as Hk. cbv zeta in Hk. rewrite H' in Hk. cbn [fst] in Hk.
    rewrite <- (C118_same_verifier E0 u) in H'. injection H' as H' _.
    split; [|discriminate]. destruct (fst (verify_batch_c u fuel OverflowPanics (st :: sts) pfs ts)) as [r0 c0]. cbn [fst snd] in H', Hk. rewrite H', Hk. f_equal.
    unfold cost_per_proof, terms. change (u_mul u) with 0%nat. change (u_inv u) with (fun _ : nat => 0%nat). change (u_msm u) with (fun k : nat => k).
    cbv beta. change (get_n (st_get_params st)) with 2%N. change (get_m (st_get_params st)) with 2%N. change (get_N (st_get_params st)) with 4%N. lia. }
  exists [st; st], [x_proof P0 T0 2 1; x_proof P0 T0 2 2], [x_transcript 1; x_transcript 2].
  split; [exact Hm|]. split; [reflexivity|]. split.
  - apply (Hcost [st] [x_proof P0 T0 2 1; x_proof P0 T0 2 2] [x_transcript 1; x_transcript 2] Hm H1 eq_refl eq_refl Hv). apply (x_fits P0 T0 2). cbn. lia.
  - cbn [combine]. repeat constructor; cbn [fst snd].
    + apply (Hcost [] [x_proof P0 T0 2 1] [x_transcript 1] Hm1); try reflexivity.
      * intros a b [<-|[]] [<-|[]]; split; reflexivity.
      * intros i s pf t (Ha & Hb & Hc). destruct i as [|i]; [|destruct i; discriminate]. apply (Hv 0%nat). split; [exact Ha|]. split; [exact Hb|exact Hc].
      * apply (x_fits P0 T0 2). cbn. lia.
    + apply (Hcost [] [x_proof P0 T0 2 2] [x_transcript 2] Hm1); try reflexivity.
      * intros a b [<-|[]] [<-|[]]; split; reflexivity.
      * intros i s pf t (Ha & Hb & Hc). destruct i as [|i]; [|destruct i; discriminate]. apply (Hv 1%nat). split; [exact Ha|]. split; [exact Hb|exact Hc].
      * apply (x_fits P0 T0 2). cbn. lia.
Qed.
