(** Independent specification vocabulary, part 5: simulation of parallel Triptych proofs. *)
From Verif Require Export ParSpec.

Section ParSpecZK.
Context {E : env}.

(** The part of a proof a simulator chooses freely: everything but [A], [D] and the first elements of [X], [X1]
    and [Y]. *)
Record view := mk_view {
  v_B : pt E; v_C : pt E; v_X : list (pt E); v_X1 : list (pt E); v_Y : list (pt E);
  v_f : list (list scalar); v_z_A : scalar; v_z_C : scalar; v_z : scalar; v_z1 : scalar }.

(** The simulator solves the five equations for the rest.  It does not take a witness. *)
Definition simulate (p : params E) (M M1 : list (pt E)) (offset J : pt E) (xi : scalar) (v : view) : proof E :=
  let m := N.to_nat (get_m p) in
  let F := complete xi (v_f v) in
  let commit := com (get_CommitmentG p) (get_CommitmentH p) in
  mk_proof
    (psub (commit F (v_z_A v)) (pmul E xi (v_B v)))
    (v_B v)
    (v_C v)
    (psub (commit (map (map (fun x => x * (xi - x))%sc) F) (v_z_C v)) (pmul E xi (v_C v)))
    (psub (psub (lincomb (map (code_product (get_n p) m (mat F)) (seq 0 (length M))) M) (pmul E (v_z v) (get_G p)))
          (lincomb (map (spow xi) (seq 1 (m - 1))) (v_X v)) :: v_X v)
    (psub (psub (lincomb (map (code_product (get_n p) m (mat F)) (seq 0 (length M))) (shifted M1 offset))
                (pmul E (v_z1 v) (get_G1 p)))
          (lincomb (map (spow xi) (seq 1 (m - 1))) (v_X1 v)) :: v_X1 v)
    (psub (psub (pmul E (spow xi m) (get_U p)) (pmul E (v_z v) J))
          (lincomb (map (spow xi) (seq 1 (m - 1))) (v_Y v)) :: v_Y v)
    (v_f v) (v_z_A v) (v_z_C v) (v_z v) (v_z1 v).

(** What is left of a proof. *)
Definition view_of (pf : proof E) : view :=
  mk_view (pf_B pf) (pf_C pf) (tl (pf_X pf)) (tl (pf_X1 pf)) (tl (pf_Y pf)) (pf_f pf) (pf_z_A pf) (pf_z_C pf) (pf_z pf) (pf_z1 pf).

(** Coins, taken apart: the first column of [a], which the prover overwrites, the rest of [a], the masks, [rho] and [rho1]. *)
Definition assemble (first_column : list scalar) (a' : list (list scalar)) (r_A r_B r_C r_D : scalar)
    (rho_0 : scalar) (rho' : list scalar) (rho1_0 : scalar) (rho1' : list scalar) : coins :=
  mk_coins r_A (map (fun x => fst x :: snd x) (combine first_column a')) r_B r_C r_D (rho_0 :: rho') (rho1_0 :: rho1').

End ParSpecZK.
Arguments view : clear implicits.
