(** Independent specification vocabulary, part 1: arithmetic and linear algebra.  Nothing here refers to the model of the
    code; the theorems of the Properties files are stated with these definitions, with those of [SpecPlain.v] and
    [ParSpec.v], and with the functions of the API. *)
From Verif Require Export Env.

(** * Ring index encoding *)

(** Digit [j] of [v] in base [n]. *)
Definition base_digit (n v : N) (j : nat) : N := ((v / n ^ N.of_nat j) mod n)%N.
(** Digit [j] of the modular Gray code of [v]: the difference, modulo [n], of adjacent base-[n] digits. *)
Definition gray_digit (n v : N) (j : nat) : N := ((base_digit n v j + (n - base_digit n v (S j))) mod n)%N.
(** The [m] Gray digits of [v], least significant first. *)
Definition gray_code (n : N) (m : nat) (v : N) : list N := map (gray_digit n v) (seq 0 m).

(** The parameter pairs the protocol allows. *)
Definition valid_nm (n m : N) : Prop := (2 <= n /\ 2 <= m /\ n ^ m < 2 ^ 32)%N.

(** * Scalars *)

Fixpoint spow (x : scalar) (k : nat) : scalar := match k with O => s1 | S k' => (x * spow x k')%sc end.
(** [1, x, .., x^(k-1)] *)
Definition powers (x : scalar) (k : nat) : list scalar := map (spow x) (seq 0 k).
(** Inner product. *)
Definition sdot (a b : list scalar) : scalar := ssum (map (fun xy => fst xy * snd xy)%sc (combine a b)).

(** * Matrices of scalars *)

(** Entry [(j, i)]: row [j], column [i]. *)
Definition mat (f : list (list scalar)) (j i : nat) : scalar := nth i (nth j f []) s0.
(** [m] rows of [n] entries. *)
Definition shape {A} (m n : nat) (f : list (list A)) : Prop := length f = m /\ Forall (fun row => length row = n) f.
(** The matrix with a given entry function. *)
Definition mkmat (m n : nat) (h : nat -> nat -> scalar) : list (list scalar) :=
  map (fun j => map (h j) (seq 0 n)) (seq 0 m).
(** The product, over the [m] rows, of the entries selected by the Gray digits of [k]. *)
Definition code_product (n : N) (m : nat) (F : nat -> nat -> scalar) (k : nat) : scalar :=
  sprod (map (fun j => F j (N.to_nat (gray_digit n (N.of_nat k) j))) (seq 0 m)).
(** The first column, which a proof does not contain, is the one that makes every row sum to [xi]. *)
Definition complete (xi : scalar) (f : list (list scalar)) : list (list scalar) :=
  map (fun row => (xi - ssum row)%sc :: row) f.

(** * What an honest prover computes *)

(** The first entry of a row is replaced by minus the sum of the others. *)
Definition balance (row : list scalar) : list scalar := match row with [] => [] | _ :: rest => sopp (ssum rest) :: rest end.
(** The 0/1 matrix that marks the Gray digits of [l]. *)
Definition sigma_at (n l : N) (j i : nat) : scalar := if Nat.eqb i (N.to_nat (gray_digit n l j)) then s1 else s0.
(** Coefficients, lowest degree first, of [(a + s x) * c]... *)
Definition lin_mul (a s : scalar) (c : list scalar) : list scalar :=
  map (fun xy => fst xy + snd xy)%sc
      (combine (map (fun y => a * y)%sc c ++ [s0]) (s0 :: map (fun y => s * y)%sc c)).
(** ... and of a product of linear factors. *)
Definition poly_prod (factors : list (scalar * scalar)) : list scalar :=
  fold_left (fun c f => lin_mul (fst f) (snd f) c) factors [s1].
(** The factors [a_j + s_j x] selected by the Gray digits of ring position [k]. *)
Definition position_factors (n : N) (m : nat) (A S_ : nat -> nat -> scalar) (k : nat) : list (scalar * scalar) :=
  map (fun j => (A j (N.to_nat (gray_digit n (N.of_nat k) j)), S_ j (N.to_nat (gray_digit n (N.of_nat k) j)))) (seq 0 m).

(** * Commitments: generators [CG] for the entries, row by row, and [CH] for the mask. *)
Definition com {E : env} (CG : list (pt E)) (CH : pt E) (F : list (list scalar)) (mask : scalar) : pt E :=
  padd E (lincomb (concat F) CG) (pmul E mask CH).

(** * Batch weights: groups of [k] scalars read from a generator, skipping every group that contains zero. *)
Inductive next_weights {E : env} (k : nat) : trng -> list scalar -> trng -> Prop :=
| nw_take g ws g' : draws (E := E) k g = (ws, g') -> ~ In s0 ws -> next_weights k g ws g'
| nw_skip g ws g' ws' g'' :
    draws (E := E) k g = (ws, g') -> In s0 ws -> next_weights k g' ws' g'' -> next_weights k g ws' g''.
(** One group per proof. *)
Inductive batch_weights {E : env} (k : nat) : nat -> trng -> list (list scalar) -> Prop :=
| bw_nil g : batch_weights k 0 g []
| bw_cons b g ws g' rest :
    next_weights (E := E) k g ws g' -> batch_weights k b g' rest -> batch_weights k (S b) g (ws :: rest).
(** The weight loop terminates: from every generator state, some group of [k] draws contains no zero. *)
Definition weights_terminate {E : env} (k : nat) : Prop := forall g, exists ws g', next_weights (E := E) k g ws g'.

(** * Sums of points *)
Definition psum {E : env} (l : list (pt E)) : pt E := fold_right (padd E) (pid E) l.

(** * Contiguous parts of a batch *)
Definition sub {A} (l : list A) (a b : nat) : list A := firstn (b - a) (skipn a l).
(** [a, b) is cut into contiguous parts that all satisfy [R]. *)
Inductive parts (R : nat -> nat -> Prop) : nat -> nat -> Prop :=
| parts_nil a : parts R a a
| parts_snoc a b c : parts R a b -> (b < c)%nat -> R b c -> parts R a c.
