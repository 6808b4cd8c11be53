(** The constant-time and variable-time provers of src/parallel/proof.rs with the trace of what they reveal; see [LeakCore.v]. *)
From Verif Require Export LeakCore ParProver.

Section ParLeak.
Context {E : env}.
Notation traced := (traced (E := E)).

(** parallel/proof.rs lines 197-211 ([select_keys]) *)
Definition t_select_keys (tm : timing) (M M1 : list (pt E)) (l : N) : traced (outcome proof_error (pt E * pt E)) :=
  match tm with
  | ConstantTime =>
      (Extent (length (combine M M1)) ::
       concat (map (fun _ => [Routine "usize::ct_eq" []; Routine "RistrettoPoint::conditional_assign" [];
                              Routine "usize::ct_eq" []; Routine "RistrettoPoint::conditional_assign" []]) (combine M M1)),
       select_keys ConstantTime M M1 l)
  | VariableTime => tout (t_index M (N.to_nat l)) (fun M_l => tout (t_index M1 (N.to_nat l)) (fun M1_l => tret (Ok (M_l, M1_l))))
  end.

(** parallel/proof.rs lines 180-226 ([prove_checks]): a comparison of parameters, the selection of the keys, three scalar multiplications
    and comparisons of points.  The parameters are public, so the comparison is one event (the derived [==] stops at the first field
    that differs). *)
Definition point_check : list (event E) := [Routine "Scalar * RistrettoPoint" []; Routine "RistrettoPoint ==" []].
Definition t_prove_checks (tm : timing) (w : witness E) (st : statement E) : traced (outcome proof_error unit) :=
  tout (t_check (negb (params_eqb (w_get_params w) (st_get_params st)))
                (InvalidParameter "witness and statement parameters did not match")) (fun _ =>
  let r := w_get_r w in
  let l := w_get_l w in
  let r1 := w_get_r1 w in
  let M := get_keys (st_get_input_set st) in
  let M1 := get_auxiliary_keys (st_get_input_set st) in
  let p := st_get_params st in
  let offset := st_get_offset st in
  let J := st_get_J st in
  tout (t_select_keys tm M M1 l) (fun keys =>
  let (M_l, M1_l) := keys in
  tbind (emit point_check) (fun _ =>
  tout (t_check (negb (peqb E M_l (pmul E r (get_G p)))) (InvalidParameter "`M[l] != r * G`")) (fun _ =>
  tbind (emit point_check) (fun _ =>
  tout (t_check (negb (peqb E (psub M1_l offset) (pmul E r1 (get_G1 p)))) (InvalidParameter "`M1[l] - offset != r1 * G1`")) (fun _ =>
  tbind (emit point_check) (fun _ =>
  t_check (negb (peqb E (pmul E r J) (get_U p))) (InvalidParameter "`r * J != U`")))))))).

(** [params.commit_matrix(..).map_err(..)?] *)
Definition t_commit (p : params E) (mat : list (list scalar)) (mask : scalar) (tm : timing) (reason : string) : traced (outcome proof_error (pt E)) :=
  tbind (t_commit_matrix_with (p_n p) (p_m p) (p_CommitmentG p) (p_CommitmentH p) mat mask tm) (fun o =>
    ([Branch (is_ok o)], omap_err (fun _ => InvalidParameter reason) o)).

(** parallel/proof.rs lines 383-399 ([X1_vector]) *)
Definition t_X1_vector (tm : timing) (p : list (list scalar)) (M1 : list (pt E)) (G1 offset : pt E) (rho1 : list scalar)
    : traced (outcome proof_error (list (pt E))) :=
  t_mapM (fun jr => let minus_offset := popp E offset in
                    tout (t_p_column p (fst jr)) (fun col =>
                    let p_sum := ssum col in
                    tbind (emit [Extent (length col)]) (fun _ =>
                    (t_msm tm ((col ++ [snd jr]) ++ [p_sum]) ((M1 ++ [G1]) ++ [minus_offset]),
                     msm tm ((col ++ [snd jr]) ++ [p_sum]) ((M1 ++ [G1]) ++ [minus_offset])))))
       (combine (seq 0 (length rho1)) rho1).

(** [Scalar::random(transcript.as_mut_rng())] *)
Definition drawn : event E := Routine "Scalar::random" [].

(** parallel/proof.rs lines 228-402 ([prove_first_message]) *)
Definition t_prove_first_message (tm : timing) (w : witness E) (st : statement E) (g : trng) : traced (outcome proof_error (first_message E)) :=
  let l := w_get_l w in
  let M := get_keys (st_get_input_set st) in
  let M1 := get_auxiliary_keys (st_get_input_set st) in
  let p := st_get_params st in
  let offset := st_get_offset st in
  let J := st_get_J st in
  let (r_A, g) := draw (E := E) g in
  let (a, g) := draw_rows (E := E) (N.to_nat (get_m p)) (N.to_nat (get_n p)) g in
  tbind (emit (drawn :: Extent (length a) :: concat (map (fun row => Extent (length row) :: map (fun _ => drawn) row) a))) (fun _ =>
  tout (t_mapM t_balance_row a) (fun a =>
  tout (t_commit p a r_A tm "unable to compute `A`") (fun A =>
  let (r_B, g) := draw (E := E) g in
  tbind (emit [drawn]) (fun _ =>
  tout (t_decompose_index tm (get_n p) (get_m p) l) (fun l_decomposed =>
  tout (t_sigma_matrix tm (get_n p) (get_m p) l_decomposed) (fun sigma =>
  tout (t_commit p sigma r_B tm "unable to compute `B`") (fun B =>
  let (r_C, g) := draw (E := E) g in
  tbind (emit [drawn]) (fun _ =>
  tout (t_a_sigma_matrix (get_n p) (get_m p) a sigma) (fun a_sigma =>
  tout (t_commit p a_sigma r_C tm "unable to compute `C`") (fun C =>
  let (r_D, g) := draw (E := E) g in
  tbind (emit [drawn]) (fun _ =>
  tout (t_a_square_matrix (get_n p) (get_m p) a) (fun a_square =>
  tout (t_commit p a_square r_D tm "unable to compute `D`") (fun D =>
  let (rho, g) := draws (E := E) (N.to_nat (get_m p)) g in
  tbind (emit (Extent (length rho) :: map (fun _ => drawn) rho)) (fun _ =>
  let (rho1, g) := draws (E := E) (N.to_nat (get_m p)) g in
  tbind (emit (Extent (length rho1) :: map (fun _ => drawn) rho1)) (fun _ =>
  tout (t_p_vector (get_n p) (get_m p) a sigma) (fun pv =>
  tout (t_X_vector tm pv M (get_G p) rho) (fun X =>
  tout (t_X1_vector tm pv M1 (get_G1 p) offset rho1) (fun X1 =>
  let Y := map (fun rh => pmul E rh J) rho in
  tbind (emit (Extent (length rho) :: map (fun _ => Routine "Scalar * RistrettoPoint" []) rho)) (fun _ =>
  tret (Ok (mk_fm A B C D X X1 Y a sigma r_A r_B r_C r_D rho rho1))))))))))))))))))))).

(** Merlin: the label and the message are absorbed; their lengths show *)
Definition absorbed (label msg : bytes) : event E := Routine "Transcript::append_message" [length label; length msg].
Definition absorbed_points (label : bytes) (ps : list (pt E)) : list (event E) :=
  Extent (length ps) :: map (fun p => absorbed label (compress E p)) ps.
(** parallel/transcript.rs lines 136-152 ([build_transcript_rng]) *)
Definition rekeyed (label key : bytes) : event E := Routine "TranscriptRngBuilder::rekey_with_witness_bytes" [length label; length key].
Definition rng_events (w : option (witness E)) : list (event E) :=
  match w with
  | Some w => [Branch true; rekeyed (b_ "l") (le_bytes 4 (w_get_l w)); rekeyed (b_ "r") (scalar_to_bytes (w_get_r w));
               rekeyed (b_ "r1") (scalar_to_bytes (w_get_r1 w)); Routine "finalize" []]
  | None => [Branch false; Routine "finalize" []]
  end.
(** parallel/transcript.rs lines 26-46 ([pt_new]) *)
Definition t_pt_new {R} (ro : rng_ops R) (t : transcript) (st : statement E) (rng : R) (w : option (witness E)) : traced (transcript * trng * R) :=
  ([absorbed (b_ "dom-sep") TRANSCRIPT_PARALLEL_PROOF; absorbed (b_ "version") (le_bytes 8 VERSION); absorbed (b_ "statement") (st_get_hash st)]
     ++ rng_events w, pt_new ro t st rng w).
(** parallel/transcript.rs lines 49-101 ([pt_commit]) *)
Definition t_pt_commit {R} (ro : rng_ops R) (t : transcript) (w : option (witness E)) (rng : R)
    (p : params E) (A B C D : pt E) (X X1 Y : list (pt E)) : traced (outcome proof_error (list scalar) * transcript * trng * R) :=
  let t := absorb_first_message t A B C D X X1 Y in
  let (g, rng) := build_transcript_rng ro t w rng in
  let (xi_bytes, t) := challenge_bytes (E := E) t (b_ "xi") 64 in
  let xi := scalar_from_wide xi_bytes in
  tbind (emit ([absorbed (b_ "A") (compress E A); absorbed (b_ "B") (compress E B); absorbed (b_ "C") (compress E C); absorbed (b_ "D") (compress E D)]
               ++ absorbed_points (b_ "X") X ++ absorbed_points (b_ "X1") X1 ++ absorbed_points (b_ "Y") Y ++ rng_events w ++ [Routine "Transcript::challenge_bytes" [length xi_bytes]])) (fun _ =>
  tbind (t_challenge_powers (get_m p) xi) (fun powers => tret (powers, t, g, rng))).

(** parallel/proof.rs lines 406-442 ([prove_response]) *)
Definition t_prove_response (p : params E) (r r1 : scalar) (fm : first_message E) (xi_powers : list scalar) : traced (outcome proof_error (proof E)) :=
  tout (t_f_matrix (get_n p) (get_m p) (fm_a fm) (fm_sigma fm) xi_powers) (fun f =>
  tout (t_index xi_powers 1) (fun xi =>
  let z_A := (fm_r_A fm + xi * fm_r_B fm)%sc in
  let z_C := (xi * fm_r_C fm + fm_r_D fm)%sc in
  tout (t_z_response (get_m p) r (fm_rho fm) xi_powers) (fun z =>
  tout (t_z_response (get_m p) r1 (fm_rho1 fm) xi_powers) (fun z1 =>
  tret (Ok (mk_proof (fm_A fm) (fm_B fm) (fm_C fm) (fm_D fm) (fm_X fm) (fm_X1 fm) (fm_Y fm) f z_A z_C z z1)))))).

(** parallel/proof.rs lines 172-443 ([prove_internal]) *)
Definition t_prove_internal {R} (ro : rng_ops R) (w : witness E) (st : statement E) (rng : R) (t : transcript)
    (tm : timing) : traced (outcome proof_error (proof E) * transcript * R) :=
  tbind (t_prove_checks tm w st) (fun checks =>
  match checks with
  | Err e => tret (Err e, t, rng)
  | Panic => tret (Panic, t, rng)
  | OutOfFuel => tret (OutOfFuel, t, rng)
  | Ok _ =>
      tbind (t_pt_new ro t st rng (Some w)) (fun s =>
      let '(t, g, rng) := s in
      tbind (t_prove_first_message tm w st g) (fun first =>
      match first with
      | Err e => tret (Err e, t, rng)
      | Panic => tret (Panic, t, rng)
      | OutOfFuel => tret (OutOfFuel, t, rng)
      | Ok fm =>
          tbind (t_pt_commit ro t (Some w) rng (st_get_params st) (fm_A fm) (fm_B fm) (fm_C fm) (fm_D fm) (fm_X fm) (fm_X1 fm) (fm_Y fm)) (fun s =>
          let '(powers, t, _, rng) := s in
          tbind (tout (tret powers) (fun xi_powers => t_prove_response (st_get_params st) (w_get_r w) (w_get_r1 w) fm xi_powers)) (fun result =>
          tret (result, t, rng)))
      end))
  end).

(** parallel/proof.rs lines 160-168 and 120-128: what running the two provers reveals *)
Definition leak_prove_with_rng {R} (ro : rng_ops R) (w : witness E) (st : statement E) (rng : R) (t : transcript) : list (event E) :=
  leakage (t_prove_internal ro w st rng t ConstantTime).
Definition leak_prove_with_rng_vartime {R} (ro : rng_ops R) (w : witness E) (st : statement E) (rng : R) (t : transcript) : list (event E) :=
  leakage (t_prove_internal ro w st rng t VariableTime).

(** * Erasure *)
Lemma t_select_keys_erase tm M M1 l : value (t_select_keys tm M M1 l) = select_keys tm M M1 l.
Proof.
  destruct tm; [reflexivity|]. unfold t_select_keys, select_keys. rewrite tout_value. apply obind_ext; [reflexivity|]. intros a _.
  rewrite tout_value. reflexivity.
Qed.
Lemma t_X1_vector_erase tm p M1 G1 offset rho1 : value (t_X1_vector tm p M1 G1 offset rho1) = X1_vector tm p M1 G1 offset rho1.
Proof. apply t_mapM_value. intros jr. cbv zeta. rewrite tout_value, t_p_column_erase. reflexivity. Qed.
Lemma t_prove_checks_erase tm w st : value (t_prove_checks tm w st) = prove_checks tm w st.
Proof.
  unfold t_prove_checks, prove_checks. rewrite tout_value. unfold t_check at 1. cbn [value snd].
  destruct (negb _); [reflexivity|]. cbn [obind]. rewrite tout_value, t_select_keys_erase. apply obind_ext; [reflexivity|]. intros [M_l M1_l] _.
  rewrite tbind_value, tout_value. unfold t_check at 1. cbn [value snd]. destruct (negb _); [reflexivity|]. cbn [obind].
  rewrite tbind_value, tout_value. unfold t_check at 1. cbn [value snd]. destruct (negb _); [reflexivity|]. cbn [obind].
  rewrite tbind_value. reflexivity.
Qed.
Lemma t_commit_erase p mat mask tm reason :
  value (t_commit p mat mask tm reason) = omap_err (fun _ => InvalidParameter reason) (commit_matrix p mat mask tm).
Proof. unfold t_commit. rewrite tbind_value, t_commit_matrix_with_erase. reflexivity. Qed.
Lemma t_prove_first_message_erase tm w st g : value (t_prove_first_message tm w st g) = prove_first_message tm w st g.
Proof.
  unfold t_prove_first_message, prove_first_message.
  destruct (draw g) as [r_A g1]. destruct (draw_rows _ _ g1) as [a g2]. rewrite tbind_value.
  rewrite tout_value, (t_mapM_value t_balance_row balance_row) by reflexivity. apply obind_ext; [reflexivity|]. intros a' _.
  rewrite tout_value, t_commit_erase. apply obind_ext; [reflexivity|]. intros A _. destruct (draw g2) as [r_B g3].
  rewrite tbind_value, tout_value, t_decompose_index_erase. apply obind_ext; [reflexivity|]. intros ld _.
  rewrite tout_value, t_sigma_matrix_erase. apply obind_ext; [reflexivity|]. intros sigma _.
  rewrite tout_value, t_commit_erase. apply obind_ext; [reflexivity|]. intros B _. destruct (draw g3) as [r_C g4].
  rewrite tbind_value, tout_value, t_a_sigma_matrix_erase. apply obind_ext; [reflexivity|]. intros asg _.
  rewrite tout_value, t_commit_erase. apply obind_ext; [reflexivity|]. intros C _. destruct (draw g4) as [r_D g5].
  rewrite tbind_value, tout_value, t_a_square_matrix_erase. apply obind_ext; [reflexivity|]. intros asq _.
  rewrite tout_value, t_commit_erase. apply obind_ext; [reflexivity|]. intros D _. destruct (draws _ g5) as [rho g6].
  rewrite tbind_value. destruct (draws _ g6) as [rho1 g7].
  rewrite tbind_value, tout_value, t_p_vector_erase. apply obind_ext; [reflexivity|]. intros pv _.
  rewrite tout_value, t_X_vector_erase. apply obind_ext; [reflexivity|]. intros X _.
  rewrite tout_value, t_X1_vector_erase. apply obind_ext; [reflexivity|]. intros X1 _. rewrite tbind_value. reflexivity.
Qed.
Lemma t_pt_commit_erase {R} (ro : rng_ops R) t w rng p A B C D X X1 Y :
  value (t_pt_commit ro t w rng p A B C D X X1 Y) = pt_commit ro t w rng p A B C D X X1 Y.
Proof.
  unfold t_pt_commit, pt_commit. destruct (build_transcript_rng _ _ _ _) as [g rng']. destruct (challenge_bytes _ _ _) as [xb t'].
  rewrite !tbind_value, t_challenge_powers_erase. reflexivity.
Qed.
Lemma t_prove_response_erase p r r1 fm xs : value (t_prove_response p r r1 fm xs) = prove_response p r r1 fm xs.
Proof.
  unfold t_prove_response, prove_response. rewrite tout_value, t_f_matrix_erase. apply obind_ext; [reflexivity|]. intros f _.
  rewrite tout_value. apply obind_ext; [reflexivity|]. intros xi _. rewrite tout_value, t_z_response_erase. apply obind_ext; [reflexivity|]. intros z _.
  rewrite tout_value, t_z_response_erase. reflexivity.
Qed.
Lemma t_prove_internal_erase {R} (ro : rng_ops R) w st rng t tm :
  value (t_prove_internal ro w st rng t tm) = prove_internal ro w st rng t tm.
Proof.
  unfold t_prove_internal, prove_internal. rewrite tbind_value, t_prove_checks_erase.
  destruct (prove_checks tm w st) as [u| | |]; try reflexivity. rewrite tbind_value.
  change (value (t_pt_new ro t st rng (Some w))) with (pt_new ro t st rng (Some w)).
  destruct (pt_new ro t st rng (Some w)) as [[t1 g1] rng1]. rewrite tbind_value, t_prove_first_message_erase.
  destruct (prove_first_message tm w st g1) as [fm| | |]; try reflexivity. rewrite tbind_value, t_pt_commit_erase.
  destruct (pt_commit _ _ _ _ _ _ _ _ _ _ _ _) as [[[powers t2] g2] rng2]. rewrite tbind_value, tout_value.
  cbn [value snd tret]. destruct powers as [xs| | |]; try reflexivity. cbn [obind]. rewrite t_prove_response_erase. reflexivity.
Qed.

End ParLeak.
