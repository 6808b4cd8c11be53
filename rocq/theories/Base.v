(** Basic vocabulary shared by the whole model: results of Rust functions, bytes,
    machine integers, and the slice operations that can panic. *)
From Coq Require Export Init.Byte Strings.Byte Strings.String.
From Coq Require Export List Bool Arith NArith ZArith Lia.
Export ListNotations.
From Coq Require Export ZifyBool ZifyNat ZifyN.
#[global] Open Scope list_scope.

(** * Results

    A Rust function returning [Result<A, E>] ends in one of three ways: [Ok], [Err], or a
    panic (slice index out of range, overflow check, failed assertion).  [OutOfFuel] is not a
    behaviour of the code: it marks a loop whose iteration bound in the model was too small
    (only the two [while] loops of src/proof.rs lines 447 and 720 need one), and every theorem
    either excludes it or shows it cannot occur. *)
Inductive outcome (E A : Type) : Type :=
| Ok (a : A)
| Err (e : E)
| Panic
| OutOfFuel.
Arguments Ok {E A} _.
Arguments Err {E A} _.
Arguments Panic {E A}.
Arguments OutOfFuel {E A}.

(** the `?` operator, as in proof.rs line 371; a panic propagates like an error *)
Definition obind {E A B} (x : outcome E A) (f : A -> outcome E B) : outcome E B :=
  match x with
  | Ok a => f a
  | Err e => Err e
  | Panic => Panic
  | OutOfFuel => OutOfFuel
  end.

(** [opt.ok_or(e)?].  (Rust core, as in gray.rs line 33 and proof.rs lines 241-247.) *)
Definition ok_or {E A} (x : option A) (e : E) : outcome E A :=
  match x with Some a => Ok a | None => Err e end.

(** [map_err].  (Rust core, as in proof.rs lines 233-235.) *)
Definition omap_err {E E' A} (f : E -> E') (x : outcome E A) : outcome E' A :=
  match x with
  | Ok a => Ok a
  | Err e => Err (f e)
  | Panic => Panic
  | OutOfFuel => OutOfFuel
  end.

Declare Scope outcome_scope.
Delimit Scope outcome_scope with outcome.
Notation "'let*' x ':=' a 'in' b" := (obind a (fun x => b))
  (at level 200, x pattern, a at level 100, b at level 200) : outcome_scope.
#[global] Open Scope outcome_scope.

(** [iter.map(f).collect::<Result<Vec<_>, _>>()], and any [map] whose closure can panic:
    stops at the first failure.  (Rust core, as in proof.rs lines 928-933.) *)
Fixpoint mapM {E A B} (f : A -> outcome E B) (l : list A) : outcome E (list B) :=
  match l with
  | [] => Ok []
  | x :: l' => let* y := f x in let* ys := mapM f l' in Ok (y :: ys)
  end.

(** * Slices *)

(** [v[i]]: panics when out of range.  (Rust core, as in proof.rs line 203.) *)
Definition index {E A} (l : list A) (i : nat) : outcome E A :=
  match nth_error l i with Some a => Ok a | None => Panic end.

(** [&v[a..b]]: panics unless [a <= b <= v.len()].  (Rust core, as in proof.rs lines 466-470.) *)
Definition slice {E A} (l : list A) (a b : nat) : outcome E (list A) :=
  if ((a <=? b) && (b <=? length l))%nat then Ok (firstn (b - a) (skipn a l)) else Panic.

(** [v[i] = x] on a vector: panics when out of range.  (Rust core, as in gray.rs line 67.) *)
Fixpoint set_nth {A} (l : list A) (i : nat) (x : A) : option (list A) :=
  match l, i with
  | [], _ => None
  | _ :: l', O => Some (x :: l')
  | y :: l', S i' => match set_nth l' i' x with Some r => Some (y :: r) | None => None end
  end.
(** the same with a panic: gray.rs line 67, proof.rs line 229 *)
Definition vec_set {E A} (l : list A) (i : nat) (x : A) : outcome E (list A) :=
  match set_nth l i x with Some r => Ok r | None => Panic end.

(** [Vec::resize].  (Rust alloc, as in statement.rs line 55 and proof.rs lines 314-320.) *)
Definition resize {A} (l : list A) (k : nat) (x : A) : list A :=
  firstn k l ++ repeat x (k - length l).

(** * Machine integers: [u32], [u64] and (64-bit) [usize] values are natural numbers [N],
    the width is enforced by the operations. *)
(** `u32`: the type of n, m and l (parameters.rs line 56, witness.rs line 42) *)
Definition u32_bound : N := 2 ^ 32.
(** `u64`: witness.rs line 69, proof.rs line 688 *)
Definition u64_bound : N := 2 ^ 64.
(** [usize] on a 64-bit target.  (proof.rs lines 315-316.) *)
Definition usize_bound : N := 2 ^ 64.

(** what the `checked_` operations below have in common: gray.rs line 33 *)
Definition checked (bound x : N) : option N := if (x <? bound)%N then Some x else None.
(** Rust core `checked_add`: gray.rs lines 67-68, 153, transcript.rs line 79, proof.rs lines 316, 450, 462 *)
Definition checked_add (bound a b : N) : option N := checked bound (a + b).
(** Rust core `checked_mul`: parameters.rs line 115 *)
Definition checked_mul (bound a b : N) : option N := checked bound (a * b).
(** Rust core `checked_pow`: gray.rs lines 33 and 136, parameters.rs line 93 *)
Definition checked_pow (bound a b : N) : option N := checked bound (a ^ b).
(** Rust core `checked_sub`: gray.rs line 68, proof.rs lines 475, 488, 607 *)
Definition checked_sub (a b : N) : option N := if (b <=? a)%N then Some (a - b)%N else None.
(** Rust core `checked_rem`: gray.rs lines 58 and 67 *)
Definition checked_rem (a b : N) : option N := if (b =? 0)%N then None else Some (a mod b)%N.
(** Rust core `checked_div`: gray.rs line 59 *)
Definition checked_div (a b : N) : option N := if (b =? 0)%N then None else Some (a / b)%N.
(** crypto_bigint `saturating_add`: gray.rs lines 103-104 *)
Definition saturating_add (bound a b : N) : N := if (a + b <? bound)%N then (a + b)%N else (bound - 1)%N.
(** crypto_bigint `saturating_sub`: gray.rs line 104 *)
Definition saturating_sub (a b : N) : N := (a - b)%N.

(** Plain [+], [*] on [u32]: panics on overflow when the crate is compiled with overflow
    checks (the default for debug builds), wraps otherwise (the default for release builds).  (proof.rs lines 624-636, parallel/proof.rs lines 671-686.) *)
Inductive overflow_mode := OverflowPanics | OverflowWraps.
(** one such operation, with its exact value given: proof.rs lines 624-636 *)
Definition arith32 {E} (md : overflow_mode) (x : N) : outcome E N :=
  if (x <? u32_bound)%N then Ok x
  else match md with OverflowPanics => Panic | OverflowWraps => Ok (x mod u32_bound)%N end.

(** * Bytes *)
(** byte strings: `&[u8]`, `Vec<u8>`, `[u8; k]`, as in proof.rs line 830 *)
Definition bytes := list byte.

(** the lowest byte of an integer, for `to_le_bytes` (parameters.rs line 111) *)
Definition byte_of_N (n : N) : byte :=
  match Byte.of_N (n mod 256) with Some b => b | None => x00 end.

(** [uNN::to_le_bytes] for a [k]-byte integer.  (parameters.rs lines 111-112, 127-128, proof.rs lines 831-832.) *)
Fixpoint le_bytes (k : nat) (n : N) : bytes :=
  match k with
  | O => []
  | S k' => byte_of_N n :: le_bytes k' (n / 256)
  end.

(** [uNN::from_le_bytes].  (proof.rs line 871.) *)
Fixpoint le_val (bs : bytes) : N :=
  match bs with
  | [] => 0
  | b :: r => Byte.to_N b + 256 * le_val r
  end.

(** String literals, [str::as_bytes] and [b"..."].  (parameters.rs line 127, lib.rs lines 144-167.) *)
Definition b_ (s : string) : bytes := list_byte_of_string s.

(** `==` on byte strings: proof.rs lines 571 and 578 *)
Definition bytes_eqb (a b : bytes) : bool := if list_eq_dec Byte.byte_eq_dec a b then true else false.

(** * Facts *)

Lemma byte_of_N_to_N n : Byte.to_N (byte_of_N n) = (n mod 256)%N.
Proof.
  unfold byte_of_N. destruct (Byte.of_N (n mod 256)) as [b|] eqn:E.
  - apply Byte.to_of_N in E. exact E.
  - apply Byte.of_N_None_iff in E. pose proof (N.mod_lt n 256 ltac:(lia)). lia.
Qed.

Lemma to_N_lt b : (Byte.to_N b < 256)%N.
Proof. pose proof (Byte.to_N_bounded b). lia. Qed.

Lemma byte_of_N_of_byte b : byte_of_N (Byte.to_N b) = b.
Proof.
  unfold byte_of_N. rewrite N.mod_small by apply to_N_lt. rewrite Byte.of_to_N. reflexivity.
Qed.

Lemma byte_of_N_ext a b : (a mod 256 = b mod 256)%N -> byte_of_N a = byte_of_N b.
Proof. unfold byte_of_N. intros ->. reflexivity. Qed.

Lemma le_bytes_length k n : length (le_bytes k n) = k.
Proof. revert n; induction k as [|k IH]; intros n; simpl; [reflexivity|f_equal; apply IH]. Qed.

Lemma pow256_succ k : (256 ^ N.of_nat (S k) = 256 * 256 ^ N.of_nat k)%N.
Proof. rewrite Nat2N.inj_succ, N.pow_succ_r'. reflexivity. Qed.

Lemma le_val_le_bytes k n : le_val (le_bytes k n) = (n mod 256 ^ N.of_nat k)%N.
Proof.
  revert n; induction k as [|k IH]; intros n.
  - simpl. rewrite N.mod_1_r. reflexivity.
  - cbn [le_bytes le_val]. rewrite IH, byte_of_N_to_N, pow256_succ.
    rewrite N.mod_mul_r; [reflexivity|lia|]. apply N.pow_nonzero; lia.
Qed.

Lemma le_val_le_bytes_small k n : (n < 256 ^ N.of_nat k)%N -> le_val (le_bytes k n) = n.
Proof. intros H. rewrite le_val_le_bytes. apply N.mod_small; exact H. Qed.

Lemma le_bytes_le_val bs : le_bytes (length bs) (le_val bs) = bs.
Proof.
  induction bs as [|b r IH]; [reflexivity|]. cbn [length le_bytes le_val].
  pose proof (to_N_lt b) as Hb. f_equal.
  - rewrite <- (byte_of_N_of_byte b) at 2. apply byte_of_N_ext.
    rewrite (N.mul_comm 256), N.mod_add by lia. reflexivity.
  - rewrite (N.mul_comm 256), N.div_add by lia. rewrite N.div_small, N.add_0_l by lia. exact IH.
Qed.

Lemma le_val_bound bs : (le_val bs < 256 ^ N.of_nat (length bs))%N.
Proof.
  induction bs as [|b r IH]; [simpl; lia|]. cbn [length le_val]. rewrite pow256_succ.
  pose proof (to_N_lt b). lia.
Qed.

Lemma le_bytes_inj k a b :
  (a < 256 ^ N.of_nat k)%N -> (b < 256 ^ N.of_nat k)%N -> le_bytes k a = le_bytes k b -> a = b.
Proof.
  intros Ha Hb H. rewrite <- (le_val_le_bytes_small k a Ha), <- (le_val_le_bytes_small k b Hb).
  rewrite H; reflexivity.
Qed.

Lemma bytes_eqb_eq a b : bytes_eqb a b = true <-> a = b.
Proof. unfold bytes_eqb. destruct (list_eq_dec _ a b) as [E|E]; split; intros H; congruence. Qed.

Lemma bytes_eqb_refl a : bytes_eqb a a = true.
Proof. apply bytes_eqb_eq; reflexivity. Qed.

Lemma bytes_eqb_neq a b : bytes_eqb a b = false <-> a <> b.
Proof.
  rewrite <- (bytes_eqb_eq a b). destruct (bytes_eqb a b); split; intros H; congruence.
Qed.

Lemma index_Ok {E A} (l : list A) i a : @index E A l i = Ok a <-> nth_error l i = Some a.
Proof. unfold index. destruct (nth_error l i); split; intros H; congruence. Qed.

Lemma index_nth {E A} (l : list A) i d : (i < length l)%nat -> @index E A l i = Ok (nth i l d).
Proof. intros H. unfold index. rewrite (nth_error_nth' l d H). reflexivity. Qed.

Lemma index_Panic {E A} (l : list A) i : @index E A l i = Panic <-> (length l <= i)%nat.
Proof.
  unfold index. destruct (nth_error l i) as [a|] eqn:H.
  - split; [discriminate|]. intros Hl. apply nth_error_None in Hl. congruence.
  - split; [|reflexivity]. intros _. apply nth_error_None. exact H.
Qed.

Lemma set_nth_length {A} (l : list A) : forall i x r, set_nth l i x = Some r -> length r = length l.
Proof.
  induction l as [|y l IH]; intros i x r H; destruct i as [|i]; simpl in H; try discriminate.
  - injection H as <-. reflexivity.
  - destruct (set_nth l i x) as [r'|] eqn:E; [|discriminate]. injection H as <-. simpl.
    rewrite (IH _ _ _ E). reflexivity.
Qed.

Lemma set_nth_Some {A} (l : list A) : forall i x, (i < length l)%nat -> exists r, set_nth l i x = Some r.
Proof.
  induction l as [|y l IH]; intros i x H; simpl in H; [lia|].
  destruct i as [|i]; simpl; [eexists; reflexivity|].
  destruct (IH i x ltac:(lia)) as [r Hr]. rewrite Hr. eexists; reflexivity.
Qed.

Lemma set_nth_nth {A} (l : list A) : forall i x r d j, set_nth l i x = Some r ->
  nth j r d = if Nat.eqb j i then x else nth j l d.
Proof.
  induction l as [|y l IH]; intros i x r d j H; destruct i as [|i]; simpl in H; try discriminate.
  - injection H as <-. destruct j; reflexivity.
  - destruct (set_nth l i x) as [r'|] eqn:E; [|discriminate]. injection H as <-.
    destruct j as [|j]; simpl; [reflexivity|]. apply IH. exact E.
Qed.

Lemma mapM_Ok_length {E A B} (f : A -> outcome E B) l r : mapM f l = Ok r -> length r = length l.
Proof.
  revert r; induction l as [|x l IH]; intros r H; simpl in H.
  - injection H as <-. reflexivity.
  - destruct (f x); simpl in H; try discriminate.
    destruct (mapM f l) as [ys| | |]; simpl in H; try discriminate.
    injection H as <-. simpl. f_equal. apply IH. reflexivity.
Qed.

Lemma mapM_pure {E A B} (f : A -> outcome E B) (g : A -> B) l :
  (forall x, In x l -> f x = Ok (g x)) -> mapM f l = Ok (map g l).
Proof.
  induction l as [|x l IH]; intros H; simpl; [reflexivity|].
  rewrite (H x) by (left; reflexivity). simpl. rewrite IH; [reflexivity|].
  intros y Hy. apply H. right; exact Hy.
Qed.

Lemma slice_Ok {E A} (l : list A) a b :
  (a <= b)%nat -> (b <= length l)%nat -> @slice E A l a b = Ok (firstn (b - a) (skipn a l)).
Proof. intros H1 H2. unfold slice. rewrite (proj2 (Nat.leb_le _ _) H1), (proj2 (Nat.leb_le _ _) H2). reflexivity. Qed.

Lemma resize_length {A} (l : list A) k x : length (resize l k x) = k.
Proof. unfold resize. rewrite app_length, firstn_length, repeat_length. lia. Qed.

Lemma obind_Ok {E A B} (x : outcome E A) (f : A -> outcome E B) b :
  obind x f = Ok b <-> exists a, x = Ok a /\ f a = Ok b.
Proof.
  destruct x; simpl; split; intros H; try discriminate; try (destruct H as (a' & Ha & Hb); congruence).
  eexists; split; [reflexivity|exact H].
Qed.
