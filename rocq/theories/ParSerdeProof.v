(** Model of src/parallel/proof.rs, part 5: the derived [Serialize] and [Deserialize] instances. *)
From Verif Require Export ParProver Serde.
Local Open Scope string_scope.

(** parallel/proof.rs lines 39-52: the fields, in the order of declaration *)
Definition field_names : list string := ["A"; "B"; "C"; "D"; "X"; "X1"; "Y"; "f"; "z_A"; "z_C"; "z"; "z1"].

Section ParSerdeProof.
Context {E : env}.

(** a point field of parallel/proof.rs lines 38-45 *)
Definition point_tree (P : pt E) : tree := bytes_tree (compress E P).
(** a scalar field of parallel/proof.rs lines 46-50 *)
Definition scalar_tree (s : scalar) : tree := bytes_tree (scalar_to_bytes s).

(** parallel/proof.rs line 36: what [Serialize] writes... *)
Definition proof_fields (pf : proof E) : list (string * tree) :=
  [("A", point_tree (pf_A pf)); ("B", point_tree (pf_B pf)); ("C", point_tree (pf_C pf)); ("D", point_tree (pf_D pf));
   ("X", vec_tree point_tree (pf_X pf)); ("X1", vec_tree point_tree (pf_X1 pf)); ("Y", vec_tree point_tree (pf_Y pf)); ("f", vec_tree (vec_tree scalar_tree) (pf_f pf));
   ("z_A", scalar_tree (pf_z_A pf)); ("z_C", scalar_tree (pf_z_C pf)); ("z", scalar_tree (pf_z pf)); ("z1", scalar_tree (pf_z1 pf))].
(** parallel/proof.rs line 36: derive(Serialize) *)
Definition serialize (s : style) (pf : proof E) : tree := struct_tree s (proof_fields pf).

(** ... and what [Deserialize] reads: no check of any dimension.  (parallel/proof.rs line 36.) *)
Definition deserialize (lo : leftovers) (v : tree) : outcome serde_error (proof E) :=
  let* vs := des_struct lo field_names v in
  match vs with
  | [vA; vB; vC; vD; vX; vX1; vY; vf; vz_A; vz_C; vz; vz1] =>
      let* A := des_point lo vA in
      let* B := des_point lo vB in
      let* C := des_point lo vC in
      let* D := des_point lo vD in
      let* X := des_vec (des_point lo) vX in
      let* X1 := des_vec (des_point lo) vX1 in
      let* Y := des_vec (des_point lo) vY in
      let* f := des_vec (des_vec (des_scalar lo)) vf in
      let* z_A := des_scalar lo vz_A in
      let* z_C := des_scalar lo vz_C in
      let* z := des_scalar lo vz in
      let* z1 := des_scalar lo vz1 in
      Ok (mk_proof A B C D X X1 Y f z_A z_C z z1)
  | _ => Err SerdeError
  end.

End ParSerdeProof.
