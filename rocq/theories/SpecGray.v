(** Independent specification vocabulary, part 6: running the Gray iterator. *)
From Verif Require Export Gray Spec.

(** An item says: digit [index] goes from [old] to [new]. *)
Definition item : Type := nat * N * N.

(** Calling [next] repeatedly returns these items, and ends in this state. *)
Inductive yields : gray_iter -> list item -> gray_iter -> Prop :=
| yields_nil it : yields it [] it
| yields_cons it x it1 items it2 : gray_next it = (Some x, it1) -> yields it1 items it2 -> yields it (x :: items) it2.

(** Digits with digit [i] replaced by [d]. *)
Fixpoint put (ds : list N) (i : nat) (d : N) : list N :=
  match ds, i with
  | [], _ => []
  | _ :: r, O => d :: r
  | x :: r, S i' => x :: put r i' d
  end.

(** The digit vector after a list of items. *)
Definition apply_items (ds : list N) (items : list item) : list N :=
  fold_left (fun ds x => put ds (fst (fst x)) (snd x)) items ds.

(** What item [k] does: one digit of the encoding of [k - 1] is incremented modulo [n], which gives the encoding of [k]. *)
Definition item_spec (n m : N) (k : N) (x : item) : Prop :=
  let '(idx, old, new) := x in
  (idx < N.to_nat m)%nat /\ old = gray_digit n (k - 1) idx /\ new = gray_digit n k idx /\
  (new = (old + 1) mod n)%N /\ forall j, j <> idx -> gray_digit n k j = gray_digit n (k - 1)%N j.
