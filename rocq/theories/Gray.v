(** Model of src/gray.rs: Gray code decomposition and the Gray iterator. *)
From Verif Require Export Env.
Local Open Scope N_scope.

(** gray.rs lines 54-60: [k] iterations of "push [v % N], then [v = v / N]". *)
Fixpoint base_loop (base : N) (k : nat) (v : N) : option (list N) :=
  match k with
  | O => Some []
  | S k' =>
      match checked_rem v base, checked_div v base with
      | Some r, Some q => match base_loop base k' q with Some ds => Some (r :: ds) | None => None end
      | _, _ => None
      end
  end.

(** gray.rs lines 62-69: the loop over [i] in [(0..M).rev()].  [rev_base] is [base_N] from the last
    index down; the vector cells [digits[i]] are each written once, so the model conses them. *)
Fixpoint gray_loop (base shift : N) (rev_base : list N) (digits : list N) : option (list N) :=
  match rev_base with
  | [] => Some digits
  | b :: rest =>
      match checked_add u32_bound b shift with
      | None => None
      | Some t =>
          match checked_rem t base with
          | None => None
          | Some d =>
              match checked_add u32_bound shift base with
              | None => None
              | Some s =>
                  match checked_sub s d with
                  | None => None
                  | Some shift' => gray_loop base shift' rest (d :: digits)
                  end
              end
          end
      end
  end.

(** gray.rs lines 43-72 *)
Definition decompose_vartime (base digits v : N) : option (list N) :=
  if (base <=? 1) || (digits =? 0) then None
  else match base_loop base (N.to_nat digits) v with
       | None => None
       | Some base_N => gray_loop base 0 (rev base_N) []
       end.

(** gray.rs lines 89-96: constant-time base decomposition on [U64] values. *)
Fixpoint base_loop_ct (base : N) (k : nat) (v : N) : list N :=
  match k with
  | O => []
  | S k' => (v mod base) :: base_loop_ct base k' (v / base)
  end.

(** gray.rs lines 98-105, saturating [U64] arithmetic. *)
Fixpoint gray_loop_ct (base shift : N) (rev_base : list N) (digits : list N) : list N :=
  match rev_base with
  | [] => digits
  | b :: rest =>
      let d := (saturating_add u64_bound b shift) mod base in
      let shift' := saturating_sub (saturating_add u64_bound shift base) d in
      gray_loop_ct base shift' rest (d :: digits)
  end.

(** gray.rs lines 107-111: every digit must fit in [u32]. *)
Fixpoint all_u32 (l : list N) : option (list N) :=
  match l with
  | [] => Some []
  | x :: r => match checked u32_bound x, all_u32 r with Some x', Some r' => Some (x' :: r') | _, _ => None end
  end.

(** gray.rs lines 74-112 *)
Definition decompose (base digits v : N) : option (list N) :=
  if (base <=? 1) || (digits =? 0) then None
  else all_u32 (gray_loop_ct base 0 (rev (base_loop_ct base (N.to_nat digits) v)) []).

(** gray.rs lines 9-17 *)
Record gray_iter := mk_gray { g_N : N; g_M : N; g_i : N; g_last : list N }.

(** gray.rs lines 28-41 *)
Definition gray_new (base digits : N) : option gray_iter :=
  if (base <=? 1) || (digits =? 0) then None
  else match checked_pow u32_bound base digits with
       | None => None
       | Some _ => Some (mk_gray base digits 0 (repeat 0 (N.to_nat digits)))
       end.

(** [iter.zip().position(|(last, next)| last != next)], gray.rs lines 144-148 *)
Fixpoint first_diff (a b : list N) : option nat :=
  match a, b with
  | x :: a', y :: b' => if x =? y then match first_diff a' b' with Some i => Some (S i) | None => None end else Some O
  | _, _ => None
  end.

(** gray.rs lines 129-157: [next] returns the item and the new iterator state.  A [None] leaves the
    state as it was. *)
Definition gray_next (it : gray_iter) : option (nat * N * N) * gray_iter :=
  if g_i it =? 0 then (Some (O, 0, 0), mk_gray (g_N it) (g_M it) 1 (g_last it))
  else
    match checked_pow u32_bound (g_N it) (g_M it) with
    | None => (None, it)
    | Some total =>
        if g_i it =? total then (None, it)
        else
          match decompose_vartime (g_N it) (g_M it) (g_i it) with
          | None => (None, it)
          | Some next =>
              match first_diff (g_last it) next with
              | None => (None, it)
              | Some idx =>
                  match nth_error (g_last it) idx, nth_error next idx with
                  | Some old, Some new =>
                      match checked_add u32_bound (g_i it) 1 with
                      | None => (None, it)
                      | Some i' => (Some (idx, old, new), mk_gray (g_N it) (g_M it) i' next)
                      end
                  | _, _ => (None, it) (* unreachable: [idx] is a position of both vectors *)
                  end
              end
          end
    end.
