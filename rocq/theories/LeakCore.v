(** What the prover's control flow and memory accesses reveal.

    Every definition here repeats a definition of [Gray.v], [Env.v] or [Core.v] and records, beside its result, the list of events
    an observer of the running program may see: the outcome of every branch, the index of every vector access, the number of
    iterations of every loop and the size of every vector built, the operands of machine divisions and of the multiscalar
    multiplication documented as running in variable time, and the name of every library routine documented as running in constant
    time together with the sizes of its arguments.  This is the usual leakage model of constant-time programming.
    The first component of a result is the trace, the second is the result of the definition that is repeated; the lemmas [.._erase]
    prove the latter.

    Trusted as constant time, as documented by their crates: scalar and point arithmetic, comparison and compression of
    curve25519-dalek, [subtle]'s [ct_eq] and [conditional_assign], [U64] arithmetic of crypto-bigint (in variable time in the divisor
    only), Merlin and the random number generators (which depend on the sizes of what is absorbed and drawn).
    Matching on [OperationTiming] is not recorded: which function was called is public. *)
From Verif Require Export Core.

Section LeakCore.
Context {E : env}.

Inductive event :=
| Branch (taken : bool)                     (* the condition of an [if], [match], [?] or [any] *)
| Access (i : nat)                          (* reading or writing element [i] of a vector *)
| Extent (k : nat)                          (* iterations of a loop, length of a vector built *)
| Divide (x y : N)                          (* machine division or remainder *)
| Routine (name : string) (sizes : list nat)  (* constant-time routine: reveals only the numbers given *)
| VartimeMsm (ss : list scalar) (ps : list (pt E)). (* [vartime_multiscalar_mul] may reveal all operands *)

(** A value and the trace of its computation. *)
Definition traced (A : Type) : Type := (list event * A)%type.
Definition leakage {A} (x : traced A) : list event := fst x.
Definition value {A} (x : traced A) : A := snd x.

Definition tret {A} (a : A) : traced A := ([], a).
Definition emit (l : list event) : traced unit := (l, tt).
(** Sequencing of total computations, of computations returning an option, and of computations with an outcome. *)
Definition tbind {A B} (x : traced A) (f : A -> traced B) : traced B :=
  (fst x ++ fst (f (snd x)), snd (f (snd x))).
Definition topt {A B} (x : traced (option A)) (f : A -> traced (option B)) : traced (option B) :=
  tbind x (fun o => match o with Some a => f a | None => tret None end).
Definition tout {Er A B} (x : traced (outcome Er A)) (f : A -> traced (outcome Er B)) : traced (outcome Er B) :=
  tbind x (fun o => match o with Ok a => f a | Err e => tret (Err e) | Panic => tret Panic | OutOfFuel => tret OutOfFuel end).

Definition is_some {A} (o : option A) : bool := match o with Some _ => true | None => false end.
(** [?] on an option, and [ok_or(e)?] *)
Definition t_try {A} (o : option A) : traced (option A) := ([Branch (is_some o)], o).
Definition t_ok_or {Er A} (x : traced (option A)) (e : Er) : traced (outcome Er A) :=
  tbind x (fun o => ([Branch (is_some o)], ok_or o e)).
(** [if c { return Err(e) }] *)
Definition t_check {Er} (c : bool) (e : Er) : traced (outcome Er unit) := ([Branch c], if c then Err e else Ok tt).
(** [v[i]] and [v[i] = x] *)
Definition t_index {Er A} (l : list A) (i : nat) : traced (outcome Er A) := ([Access i], index l i).
Definition t_set {Er A} (l : list A) (i : nat) (x : A) : traced (outcome Er (list A)) := ([Access i], vec_set l i x).
(** [iter.map(f).collect()] *)
Fixpoint t_each {Er A B} (f : A -> traced (outcome Er B)) (l : list A) : traced (outcome Er (list B)) :=
  match l with
  | [] => tret (Ok [])
  | x :: l' => tout (f x) (fun y => tout (t_each f l') (fun ys => tret (Ok (y :: ys))))
  end.
Definition t_mapM {Er A B} (f : A -> traced (outcome Er B)) (l : list A) : traced (outcome Er (list B)) :=
  tbind (emit [Extent (length l)]) (fun _ => t_each f l).

Local Open Scope N_scope.

(** * gray.rs *)
Definition t_rem (a b : N) : traced (option N) := ([Branch (b =? 0); Divide a b], checked_rem a b).
Definition t_div (a b : N) : traced (option N) := ([Branch (b =? 0); Divide a b], checked_div a b).

(** gray.rs lines 54-60 ([base_loop]) *)
Fixpoint t_base_loop (base : N) (k : nat) (v : N) : traced (option (list N)) :=
  match k with
  | O => tret (Some [])
  | S k' => topt (t_rem v base) (fun r => topt (t_div v base) (fun q => topt (t_base_loop base k' q) (fun ds => tret (Some (r :: ds)))))
  end.

(** gray.rs lines 62-69 ([gray_loop]) *)
Fixpoint gray_loop_events (base shift : N) (rev_base : list N) : list event :=
  match rev_base with
  | [] => []
  | b :: rest =>
      Access (length rest) ::
      match checked_add u32_bound b shift with
      | None => [Branch false]
      | Some t =>
          Branch true :: Branch (base =? 0) :: Divide t base ::
          match checked_rem t base with
          | None => []
          | Some d =>
              match checked_add u32_bound shift base with
              | None => [Branch false]
              | Some s =>
                  Branch true ::
                  match checked_sub s d with
                  | None => [Branch false]
                  | Some shift' => Branch true :: gray_loop_events base shift' rest
                  end
              end
          end
      end
  end.
Definition t_gray_loop (base shift : N) (rev_base : list N) (digits : list N) : traced (option (list N)) :=
  (gray_loop_events base shift rev_base, gray_loop base shift rev_base digits).

(** gray.rs lines 43-72 ([decompose_vartime]) *)
Definition t_decompose_vartime (base digits v : N) : traced (option (list N)) :=
  tbind (emit [Branch (base <=? 1); Branch (digits =? 0); Extent (N.to_nat digits)]) (fun _ =>
  if (base <=? 1) || (digits =? 0) then tret None
  else topt (t_base_loop base (N.to_nat digits) v) (fun base_N => t_gray_loop base 0 (rev base_N) [])).

(** gray.rs lines 89-96 ([base_loop_ct]): the division is in constant time in the dividend *)
Fixpoint t_base_loop_ct (base : N) (k : nat) (v : N) : traced (list N) :=
  match k with
  | O => tret []
  | S k' => tbind (emit [Routine "U64::div_rem" [N.to_nat base]]) (fun _ =>
            tbind (t_base_loop_ct base k' (v / base)) (fun ds => tret ((v mod base) :: ds)))
  end.

(** gray.rs lines 98-105 ([gray_loop_ct]) *)
Fixpoint t_gray_loop_ct (base shift : N) (rev_base : list N) (digits : list N) : traced (list N) :=
  match rev_base with
  | [] => tret digits
  | b :: rest =>
      tbind (emit [Access (length rest); Routine "U64::saturating_add" []; Routine "U64::rem" [N.to_nat base];
                   Routine "U64::saturating_add" []; Routine "U64::saturating_sub" []]) (fun _ =>
      let d := (saturating_add u64_bound b shift) mod base in
      let shift' := saturating_sub (saturating_add u64_bound shift base) d in
      t_gray_loop_ct base shift' rest (d :: digits))
  end.

(** gray.rs lines 107-111 ([all_u32]): whether a digit fits is a branch *)
Fixpoint t_all_u32 (l : list N) : traced (option (list N)) :=
  match l with
  | [] => tret (Some [])
  | x :: r => topt (t_try (checked u32_bound x)) (fun x' => topt (t_all_u32 r) (fun r' => tret (Some (x' :: r'))))
  end.

(** gray.rs lines 74-112 ([decompose]) *)
Definition t_decompose (base digits v : N) : traced (option (list N)) :=
  tbind (emit [Branch (base <=? 1); Branch (digits =? 0); Branch (base =? 0); Extent (N.to_nat digits)]) (fun _ =>
  if (base <=? 1) || (digits =? 0) then tret None
  else tbind (t_base_loop_ct base (N.to_nat digits) v) (fun base_N =>
       tbind (t_gray_loop_ct base 0 (rev base_N) []) (fun digits => t_all_u32 digits))).

(** gray.rs lines 28-41 ([gray_new]) *)
Definition t_gray_new (base digits : N) : traced (option gray_iter) :=
  ([Branch (base <=? 1); Branch (digits =? 0); Branch (is_some (checked_pow u32_bound base digits)); Extent (N.to_nat digits)],
   gray_new base digits).

(** gray.rs lines 129-157 ([gray_next]).  The iterator works in variable time, on public values only; its events are those of
    [decompose_vartime] on the position, preceded by the position and followed by the change found. *)
Definition t_gray_next (it : gray_iter) : traced (option (nat * N * N) * gray_iter) :=
  (Branch (g_i it =? 0) :: Access (N.to_nat (g_i it)) :: fst (t_decompose_vartime (g_N it) (g_M it) (g_i it)) ++
   match fst (gray_next it) with Some (i, old, new) => [Branch true; Access i; Access (N.to_nat old); Access (N.to_nat new)] | None => [Branch false] end,
   gray_next it).

(** * util.rs lines 22-38 ([delta]) *)
Definition t_delta (x y : N) (tm : timing) : traced scalar :=
  (match tm with
   | ConstantTime => [Routine "u32::ct_eq" []; Routine "Scalar::conditional_assign" []]
   | VariableTime => [Branch (x =? y)]
   end, delta x y tm).

(** * parameters.rs lines 149-179 / parallel/parameters.rs lines 167-197
    [any] stops at the first row of a wrong size; here the sizes of all rows are compared, which they are if none is wrong. *)
Definition t_msm (tm : timing) (ss : list scalar) (ps : list (pt E)) : list event :=
  match tm with
  | ConstantTime => [Routine "RistrettoPoint::multiscalar_mul" [length ss; length ps]]
  | VariableTime => [VartimeMsm ss ps]
  end.
Definition t_commit_matrix_with (n m : N) (CG : list (pt E)) (CH : pt E)
    (matrix : list (list scalar)) (mask : scalar) (tm : timing) : traced (outcome parameter_error (pt E)) :=
  tout (t_check (negb (N.of_nat (length matrix) =? m)) (PE_InvalidParameter "matrix did not have `m` rows")) (fun _ =>
  tbind (emit (map (fun row => Branch (negb (N.of_nat (length row) =? n))) matrix)) (fun _ =>
  tout (t_check (existsb (fun row => negb (N.of_nat (length row) =? n)) matrix) (PE_InvalidParameter "matrix did not have `n` columns")) (fun _ =>
  let scalars := concat matrix ++ [mask] in
  let points := CG ++ [CH] in
  (t_msm tm scalars points,
   match tm with ConstantTime => multiscalar_mul scalars points | VariableTime => vartime_multiscalar_mul scalars points end)))).

(** * transcript.rs lines 78-92 / parallel/transcript.rs lines 86-100 ([powers_loop], [challenge_powers]) *)
Fixpoint t_powers_loop (k : nat) (xi xi_power : scalar) : traced (outcome proof_error (list scalar)) :=
  match k with
  | O => tret (Ok [])
  | S k' =>
      tout (t_check (seqb xi_power s0) InvalidChallenge) (fun _ =>
      tout (t_powers_loop k' xi (xi_power * xi)%sc) (fun rest => tret (Ok (xi_power :: rest))))
  end.
Definition t_challenge_powers (m : N) (xi : scalar) : traced (outcome proof_error (list scalar)) :=
  tout (t_ok_or (tret (checked_add usize_bound m 1)) (InvalidParameter "challenge power count overflowed `usize`")) (fun count =>
  tbind (emit [Extent (N.to_nat count)]) (fun _ => t_powers_loop (N.to_nat count) xi s1)).

(** * proof.rs: the prover *)

(** proof.rs lines 196-205 / parallel/proof.rs lines 200-211 ([select_key]) *)
Definition t_select_key (tm : timing) (M : list (pt E)) (l : N) : traced (outcome proof_error (pt E)) :=
  match tm with
  | ConstantTime =>
      (Extent (length M) :: concat (map (fun _ => [Routine "usize::ct_eq" []; Routine "RistrettoPoint::conditional_assign" []]) M),
       Ok (select_ct M l))
  | VariableTime => t_index M (N.to_nat l)
  end.

(** proof.rs lines 228-230 / parallel/proof.rs lines 239-241 ([balance_row]) *)
Definition t_balance_row (row : list scalar) : traced (outcome proof_error (list scalar)) :=
  ([Extent (length row); Access 0], balance_row row).

(** proof.rs lines 239-250 / parallel/proof.rs lines 250-261 ([decompose_index]) *)
Definition t_decompose_index (tm : timing) (n m l : N) : traced (outcome proof_error (list N)) :=
  match tm with
  | ConstantTime => t_ok_or (t_decompose n m l) (InvalidParameter "`l` decomposition failed")
  | VariableTime => t_ok_or (t_decompose_vartime n m l) (InvalidParameter "`l` decomposition failed")
  end.

(** proof.rs lines 251-257 / parallel/proof.rs lines 262-268 ([sigma_matrix]) *)
Definition t_sigma_matrix (tm : timing) (n m : N) (l_decomposed : list N) : traced (outcome proof_error (list (list scalar))) :=
  t_mapM (fun j => tout (t_index l_decomposed j) (fun lj =>
                   tbind (emit [Extent (N.to_nat n)]) (fun _ =>
                   (concat (map (fun i => Access j :: fst (t_delta lj (N.of_nat i) tm)) (range n)),
                    Ok (map (fun i => snd (t_delta lj (N.of_nat i) tm)) (range n)))))) (range m).

Definition t_index2 (mat : list (list scalar)) (j i : nat) : traced (outcome proof_error scalar) :=
  tout (t_index mat j) (fun row => t_index row i).

(** proof.rs lines 265-273 / parallel/proof.rs lines 276-284 ([a_sigma_matrix]) *)
Definition t_a_sigma_matrix (n m : N) (a sigma : list (list scalar)) : traced (outcome proof_error (list (list scalar))) :=
  t_mapM (fun j => t_mapM (fun i => tout (t_index2 a j i) (fun aji => tout (t_index2 sigma j i) (fun sji =>
                                    tret (Ok (aji * (s1 - s2 * sji))%sc)))) (range n)) (range m).

(** proof.rs lines 282-288 / parallel/proof.rs lines 293-299 ([a_square_matrix]) *)
Definition t_a_square_matrix (n m : N) (a : list (list scalar)) : traced (outcome proof_error (list (list scalar))) :=
  t_mapM (fun j => t_mapM (fun i => tout (t_index2 a j i) (fun aji => tret (Ok ((- aji) * aji)%sc))) (range n)) (range m).

(** proof.rs lines 326-347 / parallel/proof.rs lines 342-363 ([convolve], [convolve_all]) *)
Definition t_convolve (a sigma : list (list scalar)) (k_decomposed : list N) (j : nat) (coefficients : list scalar)
    : traced (outcome proof_error (list scalar)) :=
  tout (t_index k_decomposed j) (fun kj =>
  tout (t_index2 a j (N.to_nat kj)) (fun a_jk =>
  tbind (emit [Extent (length coefficients)]) (fun _ =>
  let degree_0_portion := map (fun c => (a_jk * c)%sc) coefficients in
  tout (([Extent (length coefficients)], rotate_right1 coefficients) : traced _) (fun shifted_coefficients =>
  tout (t_index2 sigma j (N.to_nat kj)) (fun sigma_jk =>
  tbind (emit [Extent (length shifted_coefficients)]) (fun _ =>
  let degree_1_portion := map (fun c => (sigma_jk * c)%sc) shifted_coefficients in
  tret (Ok (map (fun xy => (fst xy + snd xy)%sc) (combine degree_0_portion degree_1_portion))))))))).

Fixpoint t_convolve_all (a sigma : list (list scalar)) (k_decomposed : list N) (js : list nat) (coefficients : list scalar)
    : traced (outcome proof_error (list scalar)) :=
  match js with
  | [] => tret (Ok coefficients)
  | j :: js' => tout (t_convolve a sigma k_decomposed j coefficients) (fun c => t_convolve_all a sigma k_decomposed js' c)
  end.

(** proof.rs lines 312-347 / parallel/proof.rs lines 328-363 ([poly_coefficients]) *)
Definition t_poly_coefficients (m : N) (a sigma : list (list scalar)) (k_decomposed : list N)
    : traced (outcome proof_error (list scalar)) :=
  tout (t_ok_or (tret (checked_add usize_bound m 1)) (InvalidParameter "polynomial degree overflowed")) (fun count =>
  tbind (emit [Extent (N.to_nat count)]) (fun _ =>
  let coefficients := repeat s0 (N.to_nat count) in
  tout (t_index k_decomposed 0) (fun k0 =>
  tout (t_index2 a 0 (N.to_nat k0)) (fun a0 =>
  tout (t_set coefficients 0 a0) (fun coefficients =>
  tout (t_index2 sigma 0 (N.to_nat k0)) (fun sigma0 =>
  tout (t_set coefficients 1 sigma0) (fun coefficients =>
  tbind (emit [Extent (N.to_nat m - 1)]) (fun _ =>
  t_convolve_all a sigma k_decomposed (seq 1 (N.to_nat m - 1)) coefficients)))))))).

(** proof.rs lines 305-350 / parallel/proof.rs lines 321-366 ([p_loop]) *)
Fixpoint t_p_loop (fuel : nat) (m : N) (a sigma : list (list scalar)) (it : gray_iter) (k_decomposed : list N)
    : traced (outcome proof_error (list (list scalar))) :=
  match fuel with
  | O => tret OutOfFuel
  | S fuel' =>
      tbind (t_gray_next it) (fun next =>
      match next with
      | (None, _) => tret (Ok [])
      | (Some (gray_index, _, gray_new), it') =>
          tout (t_set k_decomposed gray_index gray_new) (fun k_decomposed =>
          tout (t_poly_coefficients m a sigma k_decomposed) (fun coefficients =>
          tout (t_p_loop fuel' m a sigma it' k_decomposed) (fun rest => tret (Ok (coefficients :: rest)))))
      end)
  end.

(** proof.rs lines 302-350 / parallel/proof.rs lines 318-366 ([p_vector]) *)
Definition t_p_vector (n m : N) (a sigma : list (list scalar)) : traced (outcome proof_error (list (list scalar))) :=
  tbind (emit [Extent (N.to_nat (pow_u32 n m)); Extent (N.to_nat m)]) (fun _ =>
  tout (t_ok_or (t_gray_new n m) (InvalidParameter "coefficient decomposition failed")) (fun it =>
  t_p_loop (S (N.to_nat (pow_u32 n m))) m a sigma it (repeat 0 (N.to_nat m)))).

(** [p.iter().map(|p| &p[j])] ([p_column]) *)
Definition t_p_column (p : list (list scalar)) (j : nat) : traced (outcome proof_error (list scalar)) :=
  t_mapM (fun row => t_index row j) p.

(** proof.rs lines 352-365 / parallel/proof.rs lines 368-381 ([X_vector]) *)
Definition t_X_vector (tm : timing) (p : list (list scalar)) (M : list (pt E)) (G : pt E) (rho : list scalar)
    : traced (outcome proof_error (list (pt E))) :=
  t_mapM (fun jr => tout (t_p_column p (fst jr)) (fun col =>
                    (t_msm tm (col ++ [snd jr]) (M ++ [G]), msm tm (col ++ [snd jr]) (M ++ [G]))))
       (combine (seq 0 (length rho)) rho).

(** proof.rs lines 373-380 / parallel/proof.rs lines 406-413 ([f_matrix]) *)
Definition t_f_matrix (n m : N) (a sigma : list (list scalar)) (xi_powers : list scalar)
    : traced (outcome proof_error (list (list scalar))) :=
  t_mapM (fun j => t_mapM (fun i => tout (t_index2 sigma j i) (fun sji =>
                                    tout (t_index xi_powers 1) (fun xi =>
                                    tout (t_index2 a j i) (fun aji =>
                                    tret (Ok (sji * xi + aji)%sc))))) (seq 1 (N.to_nat n - 1))) (range m).

(** proof.rs lines 385-389 / parallel/proof.rs lines 418-427 ([z_response]) *)
Definition t_z_response (m : N) (r : scalar) (rho xi_powers : list scalar) : traced (outcome proof_error scalar) :=
  tout (t_index xi_powers (N.to_nat m)) (fun xi_m =>
  tbind (emit [Extent (length (combine rho xi_powers))]) (fun _ =>
  tret (Ok (r * xi_m - ssum (map (fun rx => fst rx * snd rx) (combine rho xi_powers)))%sc))).

(** * Erasure: the second components are the definitions of the model *)
Local Open Scope nat_scope.

Lemma tbind_value {A B} (x : traced A) (f : A -> traced B) : value (tbind x f) = value (f (value x)).
Proof. reflexivity. Qed.
Lemma topt_value {A B} (x : traced (option A)) (f : A -> traced (option B)) :
  value (topt x f) = match value x with Some a => value (f a) | None => None end.
Proof. unfold topt. rewrite tbind_value. destruct (value x); reflexivity. Qed.
Lemma tout_value {Er A B} (x : traced (outcome Er A)) (f : A -> traced (outcome Er B)) :
  value (tout x f) = obind (value x) (fun a => value (f a)).
Proof. unfold tout. rewrite tbind_value. destruct (value x); reflexivity. Qed.
Lemma obind_ext {Er A B} (x y : outcome Er A) (f g : A -> outcome Er B) :
  x = y -> (forall a, y = Ok a -> f a = g a) -> obind x f = obind y g.
Proof. intros -> H. destruct y; simpl; [apply H; reflexivity|reflexivity..]. Qed.
Lemma t_ok_or_value {Er A} (x : traced (option A)) (e : Er) : value (t_ok_or x e) = ok_or (value x) e.
Proof. reflexivity. Qed.
Lemma t_each_value {Er A B} (f : A -> traced (outcome Er B)) (g : A -> outcome Er B) l :
  (forall a, value (f a) = g a) -> value (t_each f l) = mapM g l.
Proof.
  intros H. induction l as [|a l IH]; [reflexivity|]. cbn [t_each mapM]. rewrite tout_value, H.
  apply obind_ext; [reflexivity|]. intros y _. rewrite tout_value, IH. reflexivity.
Qed.
Lemma t_mapM_value {Er A B} (f : A -> traced (outcome Er B)) (g : A -> outcome Er B) l :
  (forall a, value (f a) = g a) -> value (t_mapM f l) = mapM g l.
Proof. intros H. unfold t_mapM. rewrite tbind_value. apply t_each_value. exact H. Qed.

Lemma t_base_loop_erase base k v : value (t_base_loop base k v) = base_loop base k v.
Proof.
  revert v. induction k as [|k IH]; intros v; [reflexivity|]. cbn [t_base_loop base_loop].
  rewrite topt_value. cbn [t_rem value snd]. destruct (checked_rem v base) as [r|]; [|reflexivity].
  rewrite topt_value. cbn [t_div value snd]. destruct (checked_div v base) as [q|]; [|reflexivity].
  rewrite topt_value, IH. destruct (base_loop base k q); reflexivity.
Qed.
Lemma t_gray_loop_erase base shift rb ds : value (t_gray_loop base shift rb ds) = gray_loop base shift rb ds.
Proof. reflexivity. Qed.
Lemma t_decompose_vartime_erase base digits v : value (t_decompose_vartime base digits v) = decompose_vartime base digits v.
Proof.
  unfold t_decompose_vartime, decompose_vartime. rewrite tbind_value. destruct (_ || _); [reflexivity|].
  rewrite topt_value, t_base_loop_erase. destruct (base_loop base (N.to_nat digits) v); [|reflexivity]. apply t_gray_loop_erase.
Qed.
Lemma t_base_loop_ct_erase base k v : value (t_base_loop_ct base k v) = base_loop_ct base k v.
Proof.
  revert v. induction k as [|k IH]; intros v; [reflexivity|]. cbn [t_base_loop_ct base_loop_ct].
  rewrite !tbind_value, IH. reflexivity.
Qed.
Lemma t_gray_loop_ct_erase base shift rb ds : value (t_gray_loop_ct base shift rb ds) = gray_loop_ct base shift rb ds.
Proof.
  revert shift ds. induction rb as [|b rb IH]; intros shift ds; [reflexivity|]. cbn [t_gray_loop_ct gray_loop_ct].
  rewrite tbind_value. apply IH.
Qed.
Lemma t_all_u32_erase l : value (t_all_u32 l) = all_u32 l.
Proof.
  induction l as [|x l IH]; [reflexivity|]. cbn [t_all_u32 all_u32]. rewrite topt_value. cbn [t_try value snd].
  destruct (checked u32_bound x); [|reflexivity]. rewrite topt_value, IH. destruct (all_u32 l); reflexivity.
Qed.
Lemma t_decompose_erase base digits v : value (t_decompose base digits v) = decompose base digits v.
Proof.
  unfold t_decompose, decompose. rewrite tbind_value. destruct (_ || _); [reflexivity|].
  rewrite !tbind_value, t_all_u32_erase, t_gray_loop_ct_erase, t_base_loop_ct_erase. reflexivity.
Qed.

Ltac erase := repeat (rewrite tbind_value || (rewrite tout_value; apply obind_ext; [|intros ? _])).

Lemma t_commit_matrix_with_erase n m CG CH mat mask tm :
  value (t_commit_matrix_with n m CG CH mat mask tm) = commit_matrix_with n m CG CH mat mask tm.
Proof.
  unfold t_commit_matrix_with, commit_matrix_with. rewrite tout_value. unfold t_check at 1. cbn [value snd].
  destruct (negb _); [reflexivity|]. cbn [obind]. rewrite tbind_value, tout_value. unfold t_check. cbn [value snd].
  destruct (existsb _ _); reflexivity.
Qed.
Lemma t_powers_loop_erase k xi p : value (t_powers_loop k xi p) = powers_loop k xi p.
Proof.
  revert p. induction k as [|k IH]; intros p; [reflexivity|]. cbn [t_powers_loop powers_loop].
  rewrite tout_value. unfold t_check. cbn [value snd]. destruct (seqb p s0); [reflexivity|]. cbn [obind].
  rewrite tout_value, IH. reflexivity.
Qed.
Lemma t_challenge_powers_erase m xi : value (t_challenge_powers m xi) = challenge_powers m xi.
Proof.
  unfold t_challenge_powers, challenge_powers. rewrite tout_value. apply obind_ext; [reflexivity|]. intros c _.
  rewrite tbind_value. apply t_powers_loop_erase.
Qed.
Lemma t_select_key_erase tm M l : value (t_select_key tm M l) = select_key tm M l.
Proof. destruct tm; reflexivity. Qed.
Lemma t_decompose_index_erase tm n m l : value (t_decompose_index tm n m l) = decompose_index tm n m l.
Proof.
  destruct tm; unfold t_decompose_index, decompose_index; rewrite t_ok_or_value.
  - rewrite t_decompose_erase. reflexivity.
  - rewrite t_decompose_vartime_erase. reflexivity.
Qed.
Lemma t_sigma_matrix_erase tm n m ds : value (t_sigma_matrix tm n m ds) = sigma_matrix tm n m ds.
Proof.
  unfold t_sigma_matrix, sigma_matrix. apply t_mapM_value. intros j. erase; reflexivity.
Qed.
Lemma t_index2_erase mat j i : value (t_index2 mat j i) = index2 mat j i.
Proof. unfold t_index2, index2. erase; reflexivity. Qed.
Lemma t_a_sigma_matrix_erase n m a sigma : value (t_a_sigma_matrix n m a sigma) = a_sigma_matrix n m a sigma.
Proof.
  unfold t_a_sigma_matrix, a_sigma_matrix. apply t_mapM_value. intros j. apply t_mapM_value. intros i.
  erase; apply t_index2_erase || reflexivity.
Qed.
Lemma t_a_square_matrix_erase n m a : value (t_a_square_matrix n m a) = a_square_matrix n m a.
Proof.
  unfold t_a_square_matrix, a_square_matrix. apply t_mapM_value. intros j. apply t_mapM_value. intros i.
  erase; apply t_index2_erase || reflexivity.
Qed.
Lemma t_convolve_erase a sigma kd j c : value (t_convolve a sigma kd j c) = convolve a sigma kd j c.
Proof. unfold t_convolve, convolve. erase; apply t_index2_erase || reflexivity. Qed.
Lemma t_convolve_all_erase a sigma kd js c : value (t_convolve_all a sigma kd js c) = convolve_all a sigma kd js c.
Proof.
  revert c. induction js as [|j js IH]; intros c; [reflexivity|]. cbn [t_convolve_all convolve_all].
  rewrite tout_value, t_convolve_erase. apply obind_ext; [reflexivity|]. intros c' _. apply IH.
Qed.
Lemma t_poly_coefficients_erase m a sigma kd : value (t_poly_coefficients m a sigma kd) = poly_coefficients m a sigma kd.
Proof.
  unfold t_poly_coefficients, poly_coefficients. erase; first [apply t_convolve_all_erase|apply t_index2_erase|reflexivity].
Qed.
Lemma t_p_loop_erase fuel m a sigma it kd : value (t_p_loop fuel m a sigma it kd) = p_loop fuel m a sigma it kd.
Proof.
  revert it kd. induction fuel as [|fuel IH]; intros it kd; [reflexivity|]. cbn [t_p_loop p_loop]. rewrite tbind_value.
  change (value (t_gray_next it)) with (gray_next it). destruct (gray_next it) as [[[[i old] new]|] it']; [|reflexivity].
  rewrite tout_value. apply obind_ext; [reflexivity|]. intros kd' _.
  rewrite tout_value, t_poly_coefficients_erase. apply obind_ext; [reflexivity|]. intros c _.
  rewrite tout_value, IH. reflexivity.
Qed.
Lemma t_p_vector_erase n m a sigma : value (t_p_vector n m a sigma) = p_vector n m a sigma.
Proof.
  unfold t_p_vector, p_vector. rewrite tbind_value, tout_value. apply obind_ext; [reflexivity|]. intros it _. apply t_p_loop_erase.
Qed.
Lemma t_p_column_erase p j : value (t_p_column p j) = p_column p j.
Proof. apply t_mapM_value. reflexivity. Qed.
Lemma t_X_vector_erase tm p M G rho : value (t_X_vector tm p M G rho) = X_vector tm p M G rho.
Proof. apply t_mapM_value. intros jr. rewrite tout_value, t_p_column_erase. reflexivity. Qed.
Lemma t_f_matrix_erase n m a sigma xs : value (t_f_matrix n m a sigma xs) = f_matrix n m a sigma xs.
Proof.
  unfold t_f_matrix, f_matrix. apply t_mapM_value. intros j. apply t_mapM_value. intros i.
  erase; apply t_index2_erase || reflexivity.
Qed.
Lemma t_z_response_erase m r rho xs : value (t_z_response m r rho xs) = z_response m r rho xs.
Proof. unfold t_z_response, z_response. erase; reflexivity. Qed.

End LeakCore.
Arguments event : clear implicits.
