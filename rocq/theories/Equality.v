(** Model of the derived [PartialEq] of src/statement.rs and src/proof.rs; that of src/parameters.rs is [params_eqb] in [Params.v].
    A derived [==] compares the fields in order.  [Arc<Vec<T>>], [Vec<T>] and slices compare lengths and elements. *)
From Verif Require Export Prover.
Local Open Scope bool_scope.

(** the comparison of the vectors in proof.rs lines 38-52 *)
Fixpoint list_eqb {A} (eqb : A -> A -> bool) (a b : list A) : bool :=
  match a, b with
  | [], [] => true
  | x :: a', y :: b' => eqb x y && list_eqb eqb a' b'
  | _, _ => false
  end.

Section Equality.
Context {E : env}.
(** statement.rs line 16 *)
Definition input_set_eqb (s s' : input_set E) : bool := pts_eqb (is_M s) (is_M s') && bytes_eqb (is_hash s) (is_hash s').
(** statement.rs line 100 *)
Definition statement_eqb (st st' : statement E) : bool :=
  params_eqb (st_params st) (st_params st') && input_set_eqb (st_input_set st) (st_input_set st') &&
  peqb E (st_J st) (st_J st') && bytes_eqb (st_hash st) (st_hash st').
(** proof.rs line 39 *)
Definition proof_eqb (pf pf' : proof E) : bool :=
  peqb E (pf_A pf) (pf_A pf') && peqb E (pf_B pf) (pf_B pf') && peqb E (pf_C pf) (pf_C pf') && peqb E (pf_D pf) (pf_D pf') &&
  pts_eqb (pf_X pf) (pf_X pf') && pts_eqb (pf_Y pf) (pf_Y pf') && list_eqb (list_eqb seqb) (pf_f pf) (pf_f pf') &&
  seqb (pf_z_A pf) (pf_z_A pf') && seqb (pf_z_C pf) (pf_z_C pf') && seqb (pf_z pf) (pf_z pf').
End Equality.
