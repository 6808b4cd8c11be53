(** Independent specification vocabulary, part 3: knowledge extraction.  Everything is an explicit function of the accepted
    proofs; nothing here refers to the model of the code. *)
From Verif Require Export RingSum.

(** * Nontrivial relations among the commitment generators: with independent generators nobody knows one. *)
Definition is_relation {E : env} (CG : list (pt E)) (CH : pt E) (cs : list scalar) : Prop :=
  length cs = length (CG ++ [CH]) /\ Exists (fun x => x <> s0) cs /\ lincomb cs (CG ++ [CH]) = pid E.

(** * Lines through two vectors: the unique [a], [b] with [v0 = a + x0 b] and [v1 = a + x1 b]. *)
Definition slope (x0 x1 : scalar) (v0 v1 : list scalar) : list scalar :=
  map (fun uv => (fst uv - snd uv) / (x0 - x1))%sc (combine v0 v1).
Definition intercept (x0 : scalar) (v0 b : list scalar) : list scalar :=
  map (fun uv => fst uv - x0 * snd uv)%sc (combine v0 b).
Definition on_line (a b : list scalar) (x : scalar) : list scalar :=
  map (fun uv => fst uv + x * snd uv)%sc (combine a b).

(** * One accepted answer to a challenge, as far as the matrix commitments are concerned: the challenge, the completed
    response matrix, and the two masks. *)
Record answer := mk_answer { an_x : scalar; an_F : list (list scalar); an_zA : scalar; an_zC : scalar }.
(** What it opens [A + x B] to... *)
Definition opening_A (an : answer) : list scalar := concat (an_F an) ++ [an_zA an].
(** ... and [x C + D]. *)
Definition opening_C (an : answer) : list scalar :=
  concat (map (map (fun y => y * (an_x an - y))%sc) (an_F an)) ++ [an_zC an].

(** The differences between each opening and the line through the first two. *)
Definition deviations (op : answer -> list scalar) (ans : list answer) : list (list scalar) :=
  match ans with
  | an0 :: an1 :: _ =>
      let b := slope (an_x an0) (an_x an1) (op an0) (op an1) in
      let a := intercept (an_x an0) (op an0) b in
      map (fun an => vsub (op an) (on_line a b (an_x an))) ans
  | _ => []
  end.
Definition nonzero_vector (v : list scalar) : bool := existsb (fun x => negb (seqb x s0)) v.

(** Entry [(j, i)] of the slope matrix of the response matrices. *)
Definition slope_entry (ans : list answer) (j i : nat) : scalar :=
  match ans with
  | an0 :: an1 :: _ => ((mat (an_F an0) j i - mat (an_F an1) j i) / (an_x an0 - an_x an1))%sc
  | _ => s0
  end.
(** The ring position whose Gray digits the slope matrix marks. *)
Definition marked (n : N) (m : nat) (b : nat -> nat -> scalar) (l : nat) : bool :=
  forallb (fun j => seqb (b j (N.to_nat (gray_digit n (N.of_nat l) j))) s1) (seq 0 m).
Definition marked_position (n : N) (m : nat) (ringsize : nat) (b : nat -> nat -> scalar) : N :=
  match find (marked n m b) (seq 0 ringsize) with Some l => N.of_nat l | None => 0%N end.

Inductive extraction (W : Type) := Witnessed (w : W) | Broken (cs : list scalar).
Arguments Witnessed {W} _.
Arguments Broken {W} _.

(** Either some opening is off the line, which is a relation among the generators, or the position is marked. *)
Definition extract_position (n : N) (m : nat) (ringsize : nat) (ans : list answer) : extraction N :=
  match find nonzero_vector (deviations opening_A ans ++ deviations opening_C ans) with
  | Some cs => Broken cs
  | None => Witnessed (marked_position n m ringsize (slope_entry ans))
  end.
(** The leading coefficient of the polynomial through the responses [zs] at the challenges [xs]. *)
Definition extract_key (xs zs : list scalar) : scalar := sdot (lag xs) zs.
