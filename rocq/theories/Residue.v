(** What is wiped from memory, and what a call of the prover leaves there (src/witness.rs, src/proof.rs).

    Modelled: the fields of a witness and the local variables of [prove_internal].  A variable of a type that overwrites itself when it
    goes out of scope ([Zeroizing]) leaves nothing; the others leave their contents.  Not modelled: unnamed temporaries, the variables
    of the convolution loop (they are computed from [a], [sigma] and public values), registers, copies made by the compiler, and the state
    of the transcript generator. *)
From Verif Require Export Prover.
Local Open Scope N_scope.

Section Residue.
Context {E : env}.

(** witness.rs lines 16-22: the derived [zeroize] overwrites all fields but [params]; dropping a witness calls it. *)
Definition witness_zeroize (w : witness E) : witness E := mk_witness (w_params w) 0 s0.

(** The variables of proof.rs lines 219-350 that are not wiped, in the order of the code.  [rho] (line 296) is. *)
Record residue := mk_residue {
  left_r_A : scalar;
  left_a : list (list scalar);
  left_r_B : scalar;
  left_digits : list N;
  left_sigma : list (list scalar);
  left_r_C : scalar;
  left_a_sigma : list (list scalar);
  left_r_D : scalar;
  left_a_square : list (list scalar);
  left_p : list (list scalar) }.

(** proof.rs lines 219-368, keeping these variables *)
Definition prove_first_message_left (tm : timing) (w : witness E) (st : statement E) (g : trng)
    : outcome proof_error (first_message E * residue) :=
  let l := w_get_l w in
  let M := get_keys (st_get_input_set st) in
  let p := st_get_params st in
  let J := st_get_J st in
  let (r_A, g) := draw (E := E) g in
  let (a, g) := draw_rows (E := E) (N.to_nat (get_m p)) (N.to_nat (get_n p)) g in
  let* a := mapM balance_row a in
  let* A := omap_err (fun _ => InvalidParameter "unable to compute `A`") (commit_matrix p a r_A tm) in
  let (r_B, g) := draw (E := E) g in
  let* l_decomposed := decompose_index tm (get_n p) (get_m p) l in
  let* sigma := sigma_matrix tm (get_n p) (get_m p) l_decomposed in
  let* B := omap_err (fun _ => InvalidParameter "unable to compute `B`") (commit_matrix p sigma r_B tm) in
  let (r_C, g) := draw (E := E) g in
  let* a_sigma := a_sigma_matrix (get_n p) (get_m p) a sigma in
  let* C := omap_err (fun _ => InvalidParameter "unable to compute `C`") (commit_matrix p a_sigma r_C tm) in
  let (r_D, g) := draw (E := E) g in
  let* a_square := a_square_matrix (get_n p) (get_m p) a in
  let* D := omap_err (fun _ => InvalidParameter "unable to compute `D`") (commit_matrix p a_square r_D tm) in
  let (rho, g) := draws (E := E) (N.to_nat (get_m p)) g in
  let* pv := p_vector (get_n p) (get_m p) a sigma in
  let* X := X_vector tm pv M (get_G p) rho in
  let Y := map (fun rh => pmul E rh J) rho in
  Ok (mk_fm A B C D X Y a sigma r_A r_B r_C r_D rho, mk_residue r_A a r_B l_decomposed sigma r_C a_sigma r_D a_square pv).

(** proof.rs lines 172-403, keeping them *)
Definition prove_left {R} (ro : rng_ops R) (w : witness E) (st : statement E) (rng : R) (t : transcript)
    (tm : timing) : outcome proof_error (proof E * residue) * transcript * R :=
  match prove_checks tm w st with
  | Err e => (Err e, t, rng)
  | Panic => (Panic, t, rng)
  | OutOfFuel => (OutOfFuel, t, rng)
  | Ok _ =>
      let '(t, g, rng) := pt_new ro t st rng (Some w) in
      match prove_first_message_left tm w st g with
      | Err e => (Err e, t, rng)
      | Panic => (Panic, t, rng)
      | OutOfFuel => (OutOfFuel, t, rng)
      | Ok (fm, res) =>
          let '(powers, t, _, rng) :=
            pt_commit ro t (Some w) rng (st_get_params st) (fm_A fm) (fm_B fm) (fm_C fm) (fm_D fm) (fm_X fm) (fm_Y fm) in
          (let* xi_powers := powers in
           let* pf := prove_response (st_get_params st) (w_get_r w) fm xi_powers in Ok (pf, res), t, rng)
      end
  end.

End Residue.
Arguments residue : clear implicits.
