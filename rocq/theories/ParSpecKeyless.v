(** Independent specification vocabulary: Parallel Triptych proofs made without the signing keys.

    The keys enter a proof only through the pairs [(rho_j * G, rho_j * J)] and the points [rho1_j * G1] for [j > 0].  [keyless_proof]
    takes these from somebody else and knows the position [l] but neither the keys nor the discrete logarithms of the points. *)
From Verif Require Export ParSpecZK.

Section ParSpecKeyless.
Context {E : env}.

(** The masked digits that belong to the response [f] for position [l] and challenge [xi]. *)
Definition masks_of (n : N) (l : N) (xi : scalar) (f : list (list scalar)) (j i : nat) : scalar :=
  (mat (complete xi f) j i - sigma_at n l j i * xi)%sc.
(** Coefficient [j] of the polynomial of ring position [k]. *)
Definition coefficient_of (p : params E) (l : N) (xi : scalar) (f : list (list scalar)) (k j : nat) : scalar :=
  nth j (poly_prod (position_factors (get_n p) (N.to_nat (get_m p)) (masks_of (get_n p) l xi f) (sigma_at (get_n p) l) k)) s0.
Definition keyless_proof (st : statement E) (l : N) (xi : scalar) (B C : pt E) (f : list (list scalar)) (z_A z_C z z1 : scalar)
    (pairs : list (pt E * pt E)) (points1 : list (pt E)) : proof E :=
  let p := st_get_params st in
  let M := get_keys (st_get_input_set st) in
  let M1 := get_auxiliary_keys (st_get_input_set st) in
  simulate p M M1 (st_get_offset st) (st_get_J st) xi
    (mk_view B C
       (map (fun x => padd E (lincomb (map (fun k => coefficient_of p l xi f k (fst x)) (seq 0 (length M))) M) (fst (snd x)))
            (combine (seq 1 (length pairs)) pairs))
       (map (fun x => padd E (lincomb (map (fun k => coefficient_of p l xi f k (fst x)) (seq 0 (length M))) (shifted M1 (st_get_offset st))) (snd x))
            (combine (seq 1 (length points1)) points1))
       (map snd pairs) f z_A z_C z z1).

End ParSpecKeyless.
