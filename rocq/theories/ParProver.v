(** Model of src/parallel/proof.rs, part 1: the proof type and the prover. *)
From Verif Require Export ParTranscript.

Section Prover.
Context {E : env}.

(** parallel/proof.rs lines 36-51.  The fields are private, but the derived serde implementation builds values
    with vectors of any length, so no shape invariant is attached. *)
Record proof := mk_proof {
  pf_A : pt E; pf_B : pt E; pf_C : pt E; pf_D : pt E;
  pf_X : list (pt E);
  pf_X1 : list (pt E);
  pf_Y : list (pt E);
  pf_f : list (list scalar);
  pf_z_A : scalar; pf_z_C : scalar; pf_z : scalar; pf_z1 : scalar }.

(** parallel/proof.rs lines 198-212: both keys at the witness index.  In constant time the loop runs over the two
    vectors zipped together; otherwise both are indexed. *)
Definition select_keys (tm : timing) (M M1 : list (pt E)) (l : N) : outcome proof_error (pt E * pt E) :=
  match tm with
  | ConstantTime =>
      let zipped := combine M M1 in
      Ok (select_ct (map fst zipped) l, select_ct (map snd zipped) l)
  | VariableTime =>
      let* M_l := index M (N.to_nat l) in
      let* M1_l := index M1 (N.to_nat l) in
      Ok (M_l, M1_l)
  end.

(** parallel/proof.rs lines 180-226: the checks that come before any transcript operation *)
Definition prove_checks (tm : timing) (w : witness E) (st : statement E) : outcome proof_error unit :=
  if negb (params_eqb (w_get_params w) (st_get_params st))
  then Err (InvalidParameter "witness and statement parameters did not match")
  else
    let r := w_get_r w in
    let r1 := w_get_r1 w in
    let l := w_get_l w in
    let M := get_keys (st_get_input_set st) in
    let M1 := get_auxiliary_keys (st_get_input_set st) in
    let p := st_get_params st in
    let offset := st_get_offset st in
    let J := st_get_J st in
    let* (M_l, M1_l) := select_keys tm M M1 l in
    if negb (peqb E M_l (pmul E r (get_G p))) then Err (InvalidParameter "`M[l] != r * G`")
    else if negb (peqb E (psub M1_l offset) (pmul E r1 (get_G1 p)))
    then Err (InvalidParameter "`M1[l] - offset != r1 * G1`")
    else if negb (peqb E (pmul E r J) (get_U p)) then Err (InvalidParameter "`r * J != U`")
    else Ok tt.

(** parallel/proof.rs lines 383-399: the vector [X1] *)
Definition X1_vector (tm : timing) (p : list (list scalar)) (M1 : list (pt E)) (G1 offset : pt E) (rho1 : list scalar)
    : outcome proof_error (list (pt E)) :=
  mapM (fun jr => let minus_offset := popp E offset in
                  let* col := p_column p (fst jr) in
                  let p_sum := ssum col in
                  msm tm ((col ++ [snd jr]) ++ [p_sum]) ((M1 ++ [G1]) ++ [minus_offset]))
       (combine (seq 0 (length rho1)) rho1).

(** Everything computed between [ProofTranscript::new] and [commit].  (The local variables of parallel/proof.rs lines 228-402.) *)
Record first_message := mk_fm {
  fm_A : pt E; fm_B : pt E; fm_C : pt E; fm_D : pt E;
  fm_X : list (pt E); fm_X1 : list (pt E); fm_Y : list (pt E);
  fm_a : list (list scalar); fm_sigma : list (list scalar);
  fm_r_A : scalar; fm_r_B : scalar; fm_r_C : scalar; fm_r_D : scalar;
  fm_rho : list scalar; fm_rho1 : list scalar }.

(** parallel/proof.rs lines 228-402.  Random values are drawn from the transcript generator in the order
    [r_A], [a] (row by row), [r_B], [r_C], [r_D], [rho], [rho1]. *)
Definition prove_first_message (tm : timing) (w : witness E) (st : statement E) (g : trng)
    : outcome proof_error first_message :=
  let l := w_get_l w in
  let M := get_keys (st_get_input_set st) in
  let M1 := get_auxiliary_keys (st_get_input_set st) in
  let p := st_get_params st in
  let offset := st_get_offset st in
  let J := st_get_J st in
  let (r_A, g) := draw (E := E) g in
  let (a, g) := draw_rows (E := E) (N.to_nat (get_m p)) (N.to_nat (get_n p)) g in
  let* a := mapM balance_row a in
  let* A := omap_err (fun _ => InvalidParameter "unable to compute `A`") (commit_matrix p a r_A tm) in
  let (r_B, g) := draw (E := E) g in
  let* l_decomposed := decompose_index tm (get_n p) (get_m p) l in
  let* sigma := sigma_matrix tm (get_n p) (get_m p) l_decomposed in
  let* B := omap_err (fun _ => InvalidParameter "unable to compute `B`") (commit_matrix p sigma r_B tm) in
  let (r_C, g) := draw (E := E) g in
  let* a_sigma := a_sigma_matrix (get_n p) (get_m p) a sigma in
  let* C := omap_err (fun _ => InvalidParameter "unable to compute `C`") (commit_matrix p a_sigma r_C tm) in
  let (r_D, g) := draw (E := E) g in
  let* a_square := a_square_matrix (get_n p) (get_m p) a in
  let* D := omap_err (fun _ => InvalidParameter "unable to compute `D`") (commit_matrix p a_square r_D tm) in
  let (rho, g) := draws (E := E) (N.to_nat (get_m p)) g in
  let (rho1, g) := draws (E := E) (N.to_nat (get_m p)) g in
  let* pv := p_vector (get_n p) (get_m p) a sigma in
  let* X := X_vector tm pv M (get_G p) rho in
  let* X1 := X1_vector tm pv M1 (get_G1 p) offset rho1 in
  let Y := map (fun rh => pmul E rh J) rho in
  Ok (mk_fm A B C D X X1 Y a sigma r_A r_B r_C r_D rho rho1).

(** parallel/proof.rs lines 406-442 *)
Definition prove_response (p : params E) (r r1 : scalar) (fm : first_message) (xi_powers : list scalar)
    : outcome proof_error proof :=
  let* f := f_matrix (get_n p) (get_m p) (fm_a fm) (fm_sigma fm) xi_powers in
  let* xi := index xi_powers 1 in
  let z_A := (fm_r_A fm + xi * fm_r_B fm)%sc in
  let z_C := (xi * fm_r_C fm + fm_r_D fm)%sc in
  let* z := z_response (get_m p) r (fm_rho fm) xi_powers in
  let* z1 := z_response (get_m p) r1 (fm_rho1 fm) xi_powers in
  Ok (mk_proof (fm_A fm) (fm_B fm) (fm_C fm) (fm_D fm) (fm_X fm) (fm_X1 fm) (fm_Y fm) f z_A z_C z z1).

(** parallel/proof.rs lines 172-443.  Returns the result, the caller's transcript and the external generator. *)
Definition prove_internal {R} (ro : rng_ops R) (w : witness E) (st : statement E) (rng : R) (t : transcript)
    (tm : timing) : outcome proof_error proof * transcript * R :=
  match prove_checks tm w st with
  | Err e => (Err e, t, rng)
  | Panic => (Panic, t, rng)
  | OutOfFuel => (OutOfFuel, t, rng)
  | Ok _ =>
      let '(t, g, rng) := pt_new ro t st rng (Some w) in
      match prove_first_message tm w st g with
      | Err e => (Err e, t, rng)
      | Panic => (Panic, t, rng)
      | OutOfFuel => (OutOfFuel, t, rng)
      | Ok fm =>
          let '(powers, t, _, rng) :=
            pt_commit ro t (Some w) rng (st_get_params st) (fm_A fm) (fm_B fm) (fm_C fm) (fm_D fm) (fm_X fm) (fm_X1 fm) (fm_Y fm) in
          (let* xi_powers := powers in prove_response (st_get_params st) (w_get_r w) (w_get_r1 w) fm xi_powers, t, rng)
      end
  end.

(** parallel/proof.rs lines 160-168 *)
Definition prove_with_rng {R} (ro : rng_ops R) (w : witness E) (st : statement E) (rng : R) (t : transcript) :=
  prove_internal ro w st rng t ConstantTime.
(** parallel/proof.rs lines 120-128 *)
Definition prove_with_rng_vartime {R} (ro : rng_ops R) (w : witness E) (st : statement E) (rng : R) (t : transcript) :=
  prove_internal ro w st rng t VariableTime.

End Prover.
Arguments proof : clear implicits.
Arguments first_message : clear implicits.
