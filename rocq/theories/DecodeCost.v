(** The work done by the decoders: the parsing code of proof.rs lines 860-977 and parallel/proof.rs lines 939-1062 again, counting steps.
    A step is a call of [parse_u32], [parse_scalar] or [parse_point], an iteration of one of the [(0..k).map(..).collect()] loops, the
    storing of an element in a vector ([collect] into a [Result] reserves nothing in advance: the lower size hint of a fallible iterator is
    zero), or an iteration of the final check of row lengths. *)
From Verif Require Export Core.

Definition counted (A : Type) : Type := outcome proof_error A * nat.
Definition steps {A} (x : counted A) : nat := snd x.
Definition cret {A} (a : A) : counted A := (Ok a, 0%nat).
Definition cerr {A} (e : proof_error) : counted A := (Err e, 0%nat).
Definition cfree {A} (x : outcome proof_error A) : counted A := (x, 0%nat).
Definition tick {A} (k : nat) (x : counted A) : counted A := (fst x, (k + snd x)%nat).
Definition cbind {A B} (x : counted A) (f : A -> counted B) : counted B :=
  match fst x with
  | Ok a => (fst (f a), (snd x + snd (f a))%nat)
  | Err e => (Err e, snd x)
  | Panic => (Panic, snd x)
  | OutOfFuel => (OutOfFuel, snd x)
  end.

Section DecodeCost.
Context {E : env}.

(** proof.rs lines 861-900: one step each. *)
Definition parse_u32_c (iter : bytes) : counted (N * bytes) := tick 1 (cfree (parse_u32 iter)).
Definition parse_scalar_c (c : chunks) : counted (scalar * chunks) := tick 1 (cfree (parse_scalar c)).
Definition parse_point_c (c : chunks) : counted (pt E * chunks) := tick 1 (cfree (parse_point c)).
(** [(0..k).map(|_| parse(&mut chunks)).collect::<Result<Vec<_>, _>>()]: one step for the iteration, then those of the closure, then
    one for storing the element. *)
Fixpoint parse_many_c {A} (parse : chunks -> counted (A * chunks)) (k : nat) (c : chunks) : counted (list A * chunks) :=
  match k with
  | O => cret ([], c)
  | S k' => tick 1 (cbind (parse c) (fun xc => tick 1 (cbind (parse_many_c parse k' (snd xc)) (fun xsc => cret (fst xc :: fst xsc, snd xsc)))))
  end.

(** * Results are those of the parsers that do not count. *)
Lemma fst_cbind {A B} (x : counted A) (f : A -> counted B) : fst (cbind x f) = obind (fst x) (fun a => fst (f a)).
Proof. unfold cbind. destruct (fst x); reflexivity. Qed.
Lemma fst_tick {A} k (x : counted A) : fst (tick k x) = fst x.
Proof. reflexivity. Qed.
Lemma parse_many_c_result {A} (pc : chunks -> counted (A * chunks)) (p : chunks -> outcome proof_error (A * chunks)) :
  (forall c, fst (pc c) = p c) -> forall k c, fst (parse_many_c pc k c) = parse_many p k c.
Proof.
  intros Hp. induction k as [|k IH]; intros c; [reflexivity|]. cbn [parse_many_c parse_many]. rewrite fst_tick, fst_cbind, Hp.
  destruct (p c) as [[x c1]| | |]; cbn [obind]; try reflexivity. rewrite fst_tick, fst_cbind. cbn [snd fst]. rewrite IH.
  destruct (parse_many p k c1) as [[xs c2]| | |]; reflexivity.
Qed.

(** * Bounds *)
Definition left_over (c : chunks) : nat := length (ch_left c).
(** At most [a] steps for every chunk taken; when parsing fails, at most [a] for every chunk and [b] more. *)
Definition per_chunk {A} (a b : nat) (p : chunks -> counted (A * chunks)) : Prop :=
  forall c, match fst (p c) with
            | Ok xc => (left_over (snd xc) <= left_over c /\ steps (p c) <= a * (left_over c - left_over (snd xc)))%nat
            | _ => (steps (p c) <= a * left_over c + b)%nat
            end.
(** Parsing takes at least [k] chunks when it succeeds. *)
Definition takes {A} (k : nat) (p : chunks -> counted (A * chunks)) : Prop :=
  forall c xc, fst (p c) = Ok xc -> (left_over (snd xc) + k <= left_over c)%nat.

Lemma next_chunk_left c : match next_chunk c with Some (_, c') => left_over c = S (left_over c') | None => left_over c = 0%nat end.
Proof. unfold next_chunk, left_over. destruct (ch_left c); reflexivity. Qed.
Lemma scalar_linear : per_chunk 1 1 parse_scalar_c /\ takes 1 parse_scalar_c.
Proof.
  split.
  - intros c. unfold parse_scalar_c, parse_scalar. cbn [tick cfree fst]. pose proof (next_chunk_left c) as H.
    destruct (next_chunk c) as [[b c']|]; [|cbn; lia]. destruct (scalar_from_canonical b); cbn; lia.
  - intros c xc. unfold parse_scalar_c, parse_scalar. cbn [tick cfree fst]. pose proof (next_chunk_left c) as H.
    destruct (next_chunk c) as [[b c']|]; [|discriminate]. destruct (scalar_from_canonical b); [|discriminate]. cbn. intros He. injection He as <-. cbn. lia.
Qed.
Lemma point_linear : per_chunk 1 1 parse_point_c /\ takes 1 parse_point_c.
Proof.
  split.
  - intros c. unfold parse_point_c, parse_point. cbn [tick cfree fst]. pose proof (next_chunk_left c) as H.
    destruct (next_chunk c) as [[b c']|]; [|cbn; lia]. destruct (decompress E b); cbn; lia.
  - intros c xc. unfold parse_point_c, parse_point. cbn [tick cfree fst]. pose proof (next_chunk_left c) as H.
    destruct (next_chunk c) as [[b c']|]; [|discriminate]. destruct (decompress E b); [|discriminate]. cbn. intros He. injection He as <-. cbn. lia.
Qed.
Lemma linear_weaken {A} a b a' b' (p : chunks -> counted (A * chunks)) : (a <= a')%nat -> (b <= b')%nat -> per_chunk a b p -> per_chunk a' b' p.
Proof.
  intros Ha Hb H c. specialize (H c). destruct (fst (p c)) as [xc| | |]; [destruct H as [H1 H2]; split; [exact H1|]|..]; nia.
Qed.
Lemma many_takes {A} (p : chunks -> counted (A * chunks)) : takes 1 p -> forall k, takes k (parse_many_c p k).
Proof.
  intros Ht. induction k as [|k IH]; intros c xc; cbn [parse_many_c]; [intros H; injection H as <-; cbn; lia|].
  rewrite fst_tick, fst_cbind. destruct (fst (p c)) as [[x c1]| | |] eqn:Hp; cbn [obind]; try discriminate. rewrite fst_tick, fst_cbind. cbn [snd fst].
  destruct (fst (parse_many_c p k c1)) as [[xs c2]| | |] eqn:Hm; cbn [obind]; try discriminate. cbn. intros H. injection H as <-. cbn [snd].
  pose proof (Ht c (x, c1) Hp). pose proof (IH c1 (xs, c2) Hm). cbn [snd] in *. lia.
Qed.
Lemma takes_weaken {A} k k' (p : chunks -> counted (A * chunks)) : (k' <= k)%nat -> takes k p -> takes k' p.
Proof. intros Hk H c xc Hc. pose proof (H c xc Hc). lia. Qed.
Lemma many_linear {A} a b (p : chunks -> counted (A * chunks)) : takes 1 p -> per_chunk a b p -> forall k, per_chunk (a + 2) (b + 1) (parse_many_c p k).
Proof.
  intros Ht Hl. induction k as [|k IH]; intros c; cbn [parse_many_c]; [cbn; split; lia|]. pose proof (Hl c) as H1.
  rewrite fst_tick, fst_cbind. unfold steps, tick, cbind. cbn [fst snd].
  destruct (fst (p c)) as [[x c1]| | |] eqn:Hp; cbn [obind fst snd]; unfold steps in H1; try nia.
  pose proof (Ht c (x, c1) Hp) as Htake. cbn [snd] in *. specialize (IH c1). unfold steps in IH.
  destruct (fst (parse_many_c p k c1)) as [[xs c2]| | |]; cbn [obind fst snd cret] in *; try nia.
Qed.

(** A decoder after the chunks are set up: bounded by [a] steps per chunk and [b] more, whatever it returns. *)
Definition bounded {A} (a b : nat) (c : chunks) (x : counted A) : Prop := (steps x <= a * left_over c + b)%nat.
Lemma bind_bounded {A B} a b (p : chunks -> counted (A * chunks)) (f : A * chunks -> counted B) c :
  per_chunk a b p -> (forall x c', fst (p c) = Ok (x, c') -> bounded a b c' (f (x, c'))) -> bounded a b c (cbind (p c) f).
Proof.
  intros Hl Hf. specialize (Hl c). unfold bounded, cbind, steps in *. destruct (fst (p c)) as [[x c1]| | |] eqn:Hp; cbn [snd fst] in *; try exact Hl.
  specialize (Hf x c1 eq_refl). nia.
Qed.
Lemma bind_bounded_rows {A B} a b k (p : chunks -> counted (A * chunks)) (f : A * chunks -> counted B) c :
  per_chunk a b p -> takes k p -> (forall x c', fst (p c) = Ok (x, c') -> (steps (f (x, c')) <= k)%nat) -> bounded (a + 1) b c (cbind (p c) f).
Proof.
  intros Hl Ht Hf. specialize (Hl c). unfold bounded, cbind, steps in *. destruct (fst (p c)) as [[x c1]| | |] eqn:Hp; cbn [snd fst] in *; try lia.
  specialize (Hf x c1 eq_refl). pose proof (Ht c _ Hp) as H. cbn [snd] in H. nia.
Qed.
Lemma chunks_left bs : left_over (chunks_of bs) = (length bs / 32)%nat.
Proof.
  unfold left_over, chunks_of, SERIALIZED_BYTES. cbn [ch_left]. assert (H : forall k (bs : bytes), (k * 32 <= length bs)%nat -> length (chunks_loop k 32 bs) = k).
  { induction k as [|k IH]; intros l Hk; [reflexivity|]. cbn [chunks_loop]. destruct (Nat.leb_spec 32 (length l)) as [_|Hlt]; [|lia].
    cbn [length]. f_equal. apply IH. rewrite skipn_length. lia. }
  apply H. pose proof (Nat.mul_div_le (length bs) 32 ltac:(lia)). lia.
Qed.
Lemma parse_u32_length bs x rest : parse_u32 bs = Ok (x, rest) -> (length rest <= length bs)%nat.
Proof.
  unfold parse_u32. destruct (negb _); [discriminate|]. intros H. assert (rest = skipn 4 bs) as -> by congruence. rewrite skipn_length. lia.
Qed.
End DecodeCost.
