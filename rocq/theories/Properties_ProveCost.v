(** Property C122: what proving costs. *)
From Verif Require Import SpecPlain ProverCost PlainFacts ProverFacts ProverApi Examples.

Section Counting.
Context {E : env} (v : prover_units).

(** proof.rs lines 179-214: [r * G] (line 207) and [r * J] (line 212) *)
Definition prove_checks_c (tm : timing) (w : witness E) (st : statement E) : counted unit :=
  if negb (params_eqb (w_get_params w) (st_get_params st))
  then cerr (InvalidParameter "witness and statement parameters did not match")
  else
    let r := w_get_r w in
    let l := w_get_l w in
    let M := get_keys (st_get_input_set st) in
    let p := st_get_params st in
    let J := st_get_J st in
    cbind (cfree (select_key tm M l)) (fun M_l =>
    tick (v_point v)
    (if negb (peqb E M_l (pmul E r (get_G p))) then cerr (InvalidParameter "`M[l] != r * G`")
     else tick (v_point v)
     (if negb (peqb E (pmul E r J) (get_U p)) then cerr (InvalidParameter "`r * J != U`")
      else cret tt))).

(** parameters.rs lines 149-179 *)
Definition commit_matrix_c (p : params E) (matrix : list (list scalar)) (mask : scalar) (tm : timing) (reason : string) : counted (pt E) :=
  commit_c v (p_n p) (p_m p) (p_CommitmentG p) (p_CommitmentH p) matrix mask tm reason.

(** proof.rs lines 219-368; [Y] takes a multiplication of [J] for each entry (line 368). *)
Definition prove_first_message_c (tm : timing) (w : witness E) (st : statement E) (g : trng) : counted (first_message E) :=
  let l := w_get_l w in
  let M := get_keys (st_get_input_set st) in
  let p := st_get_params st in
  let J := st_get_J st in
  let (r_A, g) := draw (E := E) g in
  let (a, g) := draw_rows (E := E) (N.to_nat (get_m p)) (N.to_nat (get_n p)) g in
  cbind (cfree (mapM balance_row a)) (fun a =>
  cbind (commit_matrix_c p a r_A tm "unable to compute `A`") (fun A =>
  let (r_B, g) := draw (E := E) g in
  cbind (cfree (decompose_index tm (get_n p) (get_m p) l)) (fun l_decomposed =>
  cbind (cfree (sigma_matrix tm (get_n p) (get_m p) l_decomposed)) (fun sigma =>
  cbind (commit_matrix_c p sigma r_B tm "unable to compute `B`") (fun B =>
  let (r_C, g) := draw (E := E) g in
  cbind (a_sigma_matrix_c v (get_n p) (get_m p) a sigma) (fun a_sigma =>
  cbind (commit_matrix_c p a_sigma r_C tm "unable to compute `C`") (fun C =>
  let (r_D, g) := draw (E := E) g in
  cbind (a_square_matrix_c v (get_n p) (get_m p) a) (fun a_square =>
  cbind (commit_matrix_c p a_square r_D tm "unable to compute `D`") (fun D =>
  let (rho, g) := draws (E := E) (N.to_nat (get_m p)) g in
  cbind (p_vector_c v (get_n p) (get_m p) a sigma) (fun pv =>
  cbind (X_vector_c v tm pv M (get_G p) rho) (fun X =>
  let Y := map (fun rh => pmul E rh J) rho in
  tick (length rho * v_point v)
  (cret (mk_fm A B C D X Y a sigma r_A r_B r_C r_D rho))))))))))))).

(** transcript.rs lines 44-93 *)
Definition prove_commit_c {R} (ro : rng_ops R) (t : transcript) (w : option (witness E)) (rng : R)
    (p : params E) (A B C D : pt E) (X Y : list (pt E)) : counted (list scalar) * transcript * R :=
  let t := absorb_first_message t A B C D X Y in
  let (g, rng) := build_transcript_rng ro t w rng in
  let (xi_bytes, t) := challenge_bytes (E := E) t (b_ "xi") 64 in
  (challenge_powers_c (powers_units v) (get_m p) (scalar_from_wide xi_bytes), t, rng).

(** proof.rs lines 373-402 *)
Definition prove_response_c (p : params E) (r : scalar) (fm : first_message E) (xi_powers : list scalar) : counted (proof E) :=
  cbind (f_matrix_c v (get_n p) (get_m p) (fm_a fm) (fm_sigma fm) xi_powers) (fun f =>
  cbind (cfree (index xi_powers 1)) (fun xi =>
  let z_A := (fm_r_A fm + xi * fm_r_B fm)%sc in
  let z_C := (xi * fm_r_C fm + fm_r_D fm)%sc in
  tick (2 * v_mul v)
  (cbind (z_response_c v (get_m p) r (fm_rho fm) xi_powers) (fun z =>
  cret (mk_proof (fm_A fm) (fm_B fm) (fm_C fm) (fm_D fm) (fm_X fm) (fm_Y fm) f z_A z_C z))))).

(** proof.rs lines 172-403 *)
Definition prove_internal_c {R} (ro : rng_ops R) (w : witness E) (st : statement E) (rng : R) (t : transcript)
    (tm : timing) : counted (proof E) * transcript * R :=
  let checks := prove_checks_c tm w st in
  match fst checks with
  | Err e => ((Err e, snd checks), t, rng)
  | Panic => ((Panic, snd checks), t, rng)
  | OutOfFuel => ((OutOfFuel, snd checks), t, rng)
  | Ok _ =>
      let '(t, g, rng) := pt_new ro t st rng (Some w) in
      let first := prove_first_message_c tm w st g in
      let spent := (snd checks + snd first)%nat in
      match fst first with
      | Err e => ((Err e, spent), t, rng)
      | Panic => ((Panic, spent), t, rng)
      | OutOfFuel => ((OutOfFuel, spent), t, rng)
      | Ok fm =>
          let '(powers, t, rng) :=
            prove_commit_c ro t (Some w) rng (st_get_params st) (fm_A fm) (fm_B fm) (fm_C fm) (fm_D fm) (fm_X fm) (fm_Y fm) in
          (tick spent (cbind powers (fun xi_powers => prove_response_c (st_get_params st) (w_get_r w) fm xi_powers)), t, rng)
      end
  end.

(** * Specification: the costs *)

(** The first message: four commitments to [n * m] entries, [m] multiscalar multiplications over the whole ring and [G], [m] multiples of
    the linking tag; [3 * n * m] multiplications for the matrices and [2 * (m - 1) * (m + 1)] for the polynomial of each ring member. *)
Definition first_message_cost (p : params E) (tm : timing) : nat :=
  let n := N.to_nat (get_n p) in let m := N.to_nat (get_m p) in let k := N.to_nat (get_N p) in
  4 * v_msm v tm (n * m + 1) + m * v_msm v tm (k + 1) + m * v_point v +
  (3 * (n * m) + k * (2 * (m - 1) * (m + 1))) * v_mul v.
(** The challenge powers and the response. *)
Definition response_cost (p : params E) : nat :=
  let n := N.to_nat (get_n p) in let m := N.to_nat (get_m p) in
  ((m + 1) + m * (n - 1) + m + 3) * v_mul v.

(** * The same results *)
Lemma prove_checks_c_result tm w st : fst (prove_checks_c tm w st) = prove_checks tm w st.
Proof.
  unfold prove_checks_c, prove_checks. destruct (negb _); [reflexivity|]. cbv zeta. rewrite fst_cbind. cbn [cfree fst].
  destruct (select_key _ _ _) as [M_l| | |]; cbn [obind]; try reflexivity. rewrite fst_tick. destruct (negb _); [reflexivity|].
  rewrite fst_tick. destruct (negb _); reflexivity.
Qed.
Lemma prove_first_message_c_result tm w st g : fst (prove_first_message_c tm w st g) = prove_first_message tm w st g.
Proof.
  unfold prove_first_message_c, prove_first_message, commit_matrix_c, commit_matrix. destruct (draw g) as [r_A g1]. destruct (draw_rows _ _ g1) as [a g2].
  rewrite fst_cbind. cbn [cfree fst]. destruct (mapM balance_row a) as [a'| | |]; cbn [obind]; try reflexivity.
  rewrite fst_cbind, commit_c_result. destruct (omap_err _ _) as [A| | |]; cbn [obind]; try reflexivity. destruct (draw g2) as [r_B g3].
  rewrite fst_cbind. cbn [cfree fst]. destruct (decompose_index _ _ _ _) as [ld| | |]; cbn [obind]; try reflexivity.
  rewrite fst_cbind. cbn [cfree fst]. destruct (sigma_matrix _ _ _ _) as [sigma| | |]; cbn [obind]; try reflexivity.
  rewrite fst_cbind, commit_c_result. destruct (omap_err _ _) as [B| | |]; cbn [obind]; try reflexivity. destruct (draw g3) as [r_C g4].
  rewrite fst_cbind, a_sigma_matrix_c_result. destruct (a_sigma_matrix _ _ _ _) as [asg| | |]; cbn [obind]; try reflexivity.
  rewrite fst_cbind, commit_c_result. destruct (omap_err _ _) as [C| | |]; cbn [obind]; try reflexivity. destruct (draw g4) as [r_D g5].
  rewrite fst_cbind, a_square_matrix_c_result. destruct (a_square_matrix _ _ _) as [asq| | |]; cbn [obind]; try reflexivity.
  rewrite fst_cbind, commit_c_result. destruct (omap_err _ _) as [D| | |]; cbn [obind]; try reflexivity. destruct (draws _ g5) as [rho g6].
  rewrite fst_cbind, p_vector_c_result. destruct (p_vector _ _ _ _) as [pv| | |]; cbn [obind]; try reflexivity.
  rewrite fst_cbind, X_vector_c_result. destruct (X_vector _ _ _ _ _) as [X| | |]; reflexivity.
Qed.
Lemma prove_response_c_result p r fm xs : fst (prove_response_c p r fm xs) = prove_response p r fm xs.
Proof.
  unfold prove_response_c, prove_response. rewrite fst_cbind, f_matrix_c_result. destruct (f_matrix _ _ _ _ _) as [f| | |]; cbn [obind]; try reflexivity.
  rewrite fst_cbind. cbn [cfree fst]. destruct (index xs 1) as [xi| | |]; cbn [obind]; try reflexivity.
  rewrite fst_tick, fst_cbind, z_response_c_result. destruct (z_response _ _ _ _); reflexivity.
Qed.
End Counting.

(** ** C122: the prover that counts is the prover, in both modes. *)
Theorem C122_same_prover : forall (E : env) (v : prover_units) (R : Type) (ro : rng_ops R) (w : witness E) (st : statement E) (rng : R) (t : transcript),
  (forall tm, let '(r, t', rng') := prove_internal_c v ro w st rng t tm in (fst r, t', rng') = prove_internal ro w st rng t tm) /\
  prove_internal ro w st rng t ConstantTime = prove_with_rng ro w st rng t /\
  prove_internal ro w st rng t VariableTime = prove_with_rng_vartime ro w st rng t.
Proof.
  intros E v R ro w st rng t. split; [|split; reflexivity]. intros tm. unfold prove_internal_c, prove_internal. cbv zeta. rewrite prove_checks_c_result.
  destruct (prove_checks tm w st) as [u| | |]; try reflexivity. destruct (pt_new _ _ _ _ _) as [[t1 g1] rng1].
  rewrite prove_first_message_c_result. destruct (prove_first_message tm w st g1) as [fm| | |]; try reflexivity.
  unfold prove_commit_c, pt_commit. destruct (build_transcript_rng _ _ _ _) as [g2 rng2]. destruct (challenge_bytes _ _ _) as [xb t2].
  cbv zeta. rewrite fst_tick, fst_cbind, challenge_powers_c_result. destruct (challenge_powers _ _) as [xs| | |]; cbn [obind]; try reflexivity.
  rewrite prove_response_c_result. reflexivity.
Qed.
Print Assumptions C122_same_prover.

Section Costs.
Context {E : env} (L : env_laws E) (v : prover_units).

Lemma prove_checks_cost tm (w : witness E) (st : statement E) r : prove_checks tm w st = r ->
  match r with
  | Ok _ | Err (InvalidParameter "`r * J != U`") => snd (prove_checks_c v tm w st) = (2 * v_point v)%nat
  | Err (InvalidParameter "`M[l] != r * G`") => snd (prove_checks_c v tm w st) = v_point v
  | _ => snd (prove_checks_c v tm w st) = 0%nat
  end.
Proof.
  intros <-. unfold prove_checks_c, prove_checks. destruct (negb _); [reflexivity|]. cbv zeta.
  assert (Hs : (exists k, select_key tm (get_keys (st_get_input_set st)) (w_get_l w) = Ok k) \/ select_key tm (get_keys (st_get_input_set st)) (w_get_l w) = Panic).
  { unfold select_key, index. destruct tm; [left; eexists; reflexivity|]. destruct (nth_error _ _); [left; eexists; reflexivity|right; reflexivity]. }
  destruct Hs as [[k Hk]|Hk]; rewrite Hk, cbind_free; cbn [obind]; [|reflexivity]. rewrite snd_tick.
  destruct (negb _); [cbn; lia|]. rewrite snd_tick. destruct (negb _); cbn; lia.
Qed.
Ltac cinv H x Hx Hc := let K := fresh "K" in destruct (cbind_ok_inv _ _ _ H) as (x & Hx & K & Hc); clear H; rename K into H; rewrite Hc; clear Hc.
Lemma prove_first_message_cost tm (w : witness E) (st : statement E) g fm : good_statement st -> (w_l w < get_N (st_params st))%N ->
  fst (prove_first_message_c v tm w st g) = Ok fm ->
  snd (prove_first_message_c v tm w st g) = first_message_cost v (st_get_params st) tm /\ length (fm_rho fm) = N.to_nat (get_m (st_get_params st)).
Proof.
  intros Hg Hl. pose proof (gs_params st Hg) as Hp. pose proof (gp_n _ Hp) as Hn. pose proof (gp_m _ Hp) as Hm. pose proof (gp_pow _ Hp) as Hb.
  unfold prove_first_message_c, first_message_cost, st_get_params, commit_matrix_c. rewrite (good_N _ Hp) in *. unfold get_n, get_m.
  set (p := st_params st) in *. set (n := N.to_nat (p_n p)). set (m := N.to_nat (p_m p)).
  destruct (draw g) as [r_A g1]. pose proof (@draw_rows_shape E m n g1) as Ha. destruct (draw_rows m n g1) as [a0 g2]. cbn [fst] in Ha.
  rewrite (balance_rows _ n a0 ltac:(unfold n; lia) Ha). pose proof (balance_shape _ _ _ Ha) as Hsa. rewrite cbind_free.
  set (a := map balance a0) in *. intros H.
  cinv H A HA Hc. rewrite (commit_cost _ _ _ _ _ _ _ _ _ _ HA), (concat_shape_length _ _ _ Hsa). destruct (draw g2) as [r_B g3].
  unfold w_get_l in *. rewrite decompose_index_spec in * by (assumption || lia). rewrite cbind_free in *.
  rewrite sigma_matrix_spec in *. rewrite cbind_free in *. fold n m in H |- *.
  pose proof (mkmat_shape m n (sigma_at (p_n p) (w_l w))) as Hs.
  cinv H B HB Hc. rewrite (commit_cost _ _ _ _ _ _ _ _ _ _ HB), (concat_shape_length _ _ _ Hs). destruct (draw g3) as [r_C g4].
  cinv H asg Hasg Hc. rewrite (a_sigma_matrix_cost _ _ _ _ _ _ Hasg). rewrite a_sigma_matrix_c_result, a_sigma_spec in Hasg by assumption. injection Hasg as <-.
  fold n m in H |- *.
  cinv H C HC Hc. rewrite (commit_cost _ _ _ _ _ _ _ _ _ _ HC), (concat_shape_length m n) by apply mkmat_shape. destruct (draw g4) as [r_D g5].
  cinv H asq Hasq Hc. rewrite (a_square_matrix_cost _ _ _ _ _ Hasq). rewrite a_square_matrix_c_result, a_square_spec in Hasq by assumption. injection Hasq as <-.
  fold n m in H |- *.
  cinv H D HD Hc. rewrite (commit_cost _ _ _ _ _ _ _ _ _ _ HD), (concat_shape_length m n) by apply mkmat_shape.
  pose proof (@draws_length E m g5) as Hrho. destruct (draws m g5) as [rho g6]. cbn [fst] in Hrho.
  cinv H pv Hpv Hc. rewrite (p_vector_cost _ _ _ _ _ _ Hpv). rewrite p_vector_c_result, p_vector_spec in Hpv by (assumption || lia). injection Hpv as Hpv.
  assert (Hlen : length pv = N.to_nat (p_n p ^ p_m p)).
  { rewrite <- Hpv, map_length, seq_length. reflexivity. }
  cinv H X HX Hc. rewrite (X_vector_cost _ _ _ _ _ _ _ HX), Hlen, Hrho. rewrite fst_tick in H. injection H as <-. cbn [fm_rho tick cret snd].
  fold n m. split; [|exact Hrho]. generalize (v_msm v tm (N.to_nat (p_n p ^ p_m p) + 1)). rewrite (Nat.mul_comm n m). generalize (v_msm v tm (m * n + 1)).
  set (k := N.to_nat (p_n p ^ p_m p)). intros x y. ring.
Qed.
End Costs.

(** Every call of a prover with a statement and a witness made by the API costs exactly this, by the kind of its result: nothing depends
    on the secrets, on the random values or on the ring, and the two modes differ only in the multiscalar multiplications. *)
Theorem C122_cost : forall (E : env), env_laws E -> forall (v : prover_units) (R : Type) (ro : rng_ops R) (w : witness E) (st : statement E) (rng : R)
    (t : transcript) (tm : timing), made_witness w -> made_statement st ->
  let p := st_get_params st in
  let cost := snd (fst (fst (prove_internal_c v ro w st rng t tm))) in
  match fst (fst (prove_internal ro w st rng t tm)) with
  | Ok _ => cost = (2 * v_point v + first_message_cost v p tm + response_cost v p)%nat
  | Err InvalidChallenge => cost = (2 * v_point v + first_message_cost v p tm + v_mul v)%nat
  | Err (InvalidParameter reason) =>
      (reason = "witness and statement parameters did not match"%string /\ cost = 0%nat) \/
      (reason = "`M[l] != r * G`"%string /\ cost = v_point v) \/
      (reason = "`r * J != U`"%string /\ cost = (2 * v_point v)%nat)
  | _ => False
  end.
Proof.
  intros E L v R ro w st rng t tm Hw Hst p cost. pose proof (made_statement_good L st Hst) as Hg. destruct (made_witness_index w Hw) as [_ Hl].
  pose proof (gs_params st Hg) as Hp. pose proof (gp_m _ Hp) as Hm.
  destruct (prove_cases L ro w st rng t tm Hw Hst) as (_ & _ & _ & H4 & H5).
  pose proof (proj1 (C122_same_prover E v R ro w st rng t) tm) as Hsame.
  unfold cost. unfold prove_internal_c in *. cbv zeta in *. unfold prove_internal in *. rewrite prove_checks_c_result in *.
  destruct (prove_checks_cases L tm w st Hg Hl) as [(Hq & Hr & H3)|[(Hq & H3)|[(Hq & Hr & H3)|(Hq & Hr & Hr' & H3)]]]; rewrite H3 in *; cbn [fst snd].
  all: pose proof (prove_checks_cost v tm w st _ H3) as Hc; cbn beta iota in Hc.
  2:{ left. split; [reflexivity|exact Hc]. }
  2:{ right; left. split; [reflexivity|exact Hc]. }
  2:{ right; right. split; [reflexivity|exact Hc]. }
  rewrite Hc. rewrite Hq in Hl. destruct (pt_new _ _ _ _ _) as [[t1 g1] rng1].
  rewrite prove_first_message_c_result in *. pose proof (prove_first_message_spec L tm w st g1 Hg Hl) as Hf. rewrite Hf in *.
  rewrite <- (prove_first_message_c_result v) in Hf. destruct (prove_first_message_cost v tm w st g1 _ Hg Hl Hf) as [Hfc Hrho]. rewrite Hfc.
  set (fm := honest_fm _ _ _) in *. unfold prove_commit_c, pt_commit in *. destruct (build_transcript_rng _ _ _ _) as [g2 rng2].
  destruct (challenge_bytes _ _ _) as [xb t2]. cbn [fst snd] in *. rewrite snd_tick. fold p in Hrho, H4, H5 |- *.
  pose proof (challenge_powers_cost (powers_units v) (get_m p) (scalar_from_wide xb) (good_m_u32 _ Hp)) as Hpc. unfold steps in Hpc.
  pose proof (challenge_powers_c_result (powers_units v) (get_m p) (scalar_from_wide xb)) as Hpr.
  destruct (seqb (scalar_from_wide xb) s0) eqn:Hx.
  - apply seqb_eq in Hx. rewrite Hx in *. rewrite challenge_powers_zero in * by (exact (good_m_u32 _ Hp) || (change (get_m p) with (p_m (st_params st)); lia)).
    cbn [obind]. unfold cbind. rewrite Hpr. cbn [snd]. clear Hpc.
    assert (Hz : snd (challenge_powers_c (powers_units v) (get_m p) s0) = v_mul v).
    { unfold challenge_powers_c, checked_add, checked in *. destruct (get_m p + 1 <? usize_bound)%N; [|discriminate]. cbn [ok_or] in *.
      rewrite cbind_free in *. destruct (N.to_nat (get_m p + 1)) as [|[|k]] eqn:Hk; [change (get_m p) with (p_m (st_params st)) in Hk; lia..|].
      cbn [powers_loop_c] in *. rewrite (proj2 (seqb_neq s1 s0)) in * by exact s1_neq_s0. rewrite snd_tick.
      rewrite (proj2 (seqb_eq (s1 * s0)%sc s0)) by ring. cbn [u_mul powers_units]. unfold cbind. cbn. lia. }
    rewrite Hz. lia.
  - apply seqb_neq in Hx. rewrite challenge_powers_ok in * by (exact Hx || exact (good_m_u32 _ Hp)). rewrite Hpr in Hpc.
    cbn [obind]. unfold cbind. rewrite Hpr. cbn [fst snd]. rewrite Hpc.
    assert (Hok : exists pf, prove_response p (w_get_r w) fm (powers (scalar_from_wide xb) (S (N.to_nat (get_m p)))) = Ok pf).
    { eexists. apply prove_response_spec; [exact Hg|..]; apply coins_shape. }
    destruct Hok as [pf Hok]. change (N.to_nat (get_m p)) with (N.to_nat (p_m p)) in *. rewrite Hok. rewrite <- (prove_response_c_result v) in Hok. unfold prove_response_c in *.
    destruct (cbind_ok_inv _ _ _ Hok) as (f & Hff & Hok2 & ->). rewrite (f_matrix_cost _ _ _ _ _ _ _ Hff).
    destruct (cbind_ok_inv _ _ _ Hok2) as (xi & _ & Hok3 & ->). rewrite fst_tick in Hok3. rewrite snd_tick.
    destruct (cbind_ok_inv _ _ _ Hok3) as (z & Hzz & _ & ->). rewrite (z_response_cost _ _ _ _ _ _ Hzz), Hrho, powers_length.
    unfold response_cost. change (get_m p) with (p_m p). rewrite Nat.min_l by lia. cbn [cfree cret snd powers_units u_mul]. ring.
Qed.
Print Assumptions C122_cost.

(** So what a call costs tells nothing about its witness beyond the kind of result. *)
Theorem C122_cost_reveals_nothing : forall (E : env), env_laws E -> forall (v : prover_units) (R R' : Type) (ro : rng_ops R) (ro' : rng_ops R')
    (w w' : witness E) (st st' : statement E) (rng : R) (rng' : R') (t t' : transcript) (tm : timing),
  made_witness w -> made_statement st -> made_witness w' -> made_statement st' ->
  get_n (st_get_params st) = get_n (st_get_params st') -> get_m (st_get_params st) = get_m (st_get_params st') ->
  match fst (fst (prove_internal ro w st rng t tm)), fst (fst (prove_internal ro' w' st' rng' t' tm)) with
  | Ok _, Ok _ => True | Err e, Err e' => e = e' | _, _ => False end ->
  snd (fst (fst (prove_internal_c v ro w st rng t tm))) = snd (fst (fst (prove_internal_c v ro' w' st' rng' t' tm))).
Proof.
  intros E L v R R' ro ro' w w' st st' rng rng' t t' tm Hw Hst Hw' Hst' Hn Hm H.
  pose proof (C122_cost E L v R ro w st rng t tm Hw Hst) as H1. pose proof (C122_cost E L v R' ro' w' st' rng' t' tm Hw' Hst') as H2. cbv zeta in *.
  assert (Hf : first_message_cost v (st_get_params st) tm = first_message_cost v (st_get_params st') tm).
  { unfold first_message_cost, get_N. unfold get_n, get_m in *. rewrite Hn, Hm. reflexivity. }
  assert (Hr : response_cost v (st_get_params st) = response_cost v (st_get_params st')).
  { unfold response_cost. rewrite Hn, Hm. reflexivity. }
  destruct (fst (fst (prove_internal ro w st rng t tm))) as [pf|e| |], (fst (fst (prove_internal ro' w' st' rng' t' tm))) as [pf'|e'| |]; try contradiction.
  - congruence.
  - subst e'. destruct e; try contradiction; try congruence.
    destruct H1 as [[-> ->]|[[-> ->]|[-> ->]]], H2 as [[Hd ->]|[[Hd ->]|[Hd ->]]]; try reflexivity; discriminate.
Qed.
Print Assumptions C122_cost_reveals_nothing.

(** A proof over a ring of four keys ([n] = 2, [m] = 2) takes 46 multiplications of scalars, four multiplications of a point (two in the
    checks and the two entries of [Y]) and six multiscalar multiplications with five terms each. *)
Example C122_example : exists (w : witness E0) (st : statement E0) pf, made_witness w /\ made_statement st /\
  fst (fst (prove_with_rng counter w st 5%N (x_transcript 1))) = Ok pf /\
  forall v, snd (fst (fst (prove_internal_c v counter w st 5%N (x_transcript 1) ConstantTime))) =
    (46 * v_mul v + 4 * v_point v + 6 * v_msm v ConstantTime 5)%nat.
Proof.
  destruct (x_proved P0 T0 2 1 ltac:(lia) (proj1 (x_check_ok P0 T0 2 1 x_check_2_1))) as [_ H].
  pose proof (x_witness_made P0 T0 2 ltac:(lia)) as Hw. pose proof (x_statement_made P0 T0 2) as Hs.
  exists (x_witness P0 T0 2), (x_statement P0 T0 2), (x_proof P0 T0 2 1). split; [exact Hw|]. split; [exact Hs|].
  split; [rewrite H; reflexivity|]. intros v.
  pose proof (C122_cost E0 L0 v _ counter _ _ 5%N (x_transcript 1) ConstantTime Hw Hs) as Hc. cbv zeta in Hc.
  change (prove_internal counter (x_witness P0 T0 2) (x_statement P0 T0 2) 5%N (x_transcript 1) ConstantTime)
    with (prove_with_rng counter (x_witness P0 T0 2) (x_statement P0 T0 2) 5%N (x_transcript 1)) in Hc. rewrite H in Hc. cbn [fst] in Hc. rewrite Hc.
  unfold first_message_cost, response_cost. change (get_n (st_get_params (x_statement P0 T0 2))) with 2%N.
  change (get_m (st_get_params (x_statement P0 T0 2))) with 2%N. change (get_N (st_get_params (x_statement P0 T0 2))) with 4%N.
  change (N.to_nat 2 * N.to_nat 2 + 1)%nat with 5%nat. change (N.to_nat 4 + 1)%nat with 5%nat. lia.
Qed.
