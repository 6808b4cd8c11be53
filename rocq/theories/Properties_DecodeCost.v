(** Property C110: decoding costs a number of steps linear in the length of its input, whatever the header claims. *)
From Verif Require Import SpecPlain DecodeCost Examples.

(** proof.rs lines 860-977, counting. *)
Definition from_bytes_c {E : env} (bs : bytes) : counted (proof E) :=
  cbind (parse_u32_c bs) (fun '(n_minus_1, iter) =>
  cbind (cfree (ok_or (checked_add u32_bound n_minus_1 1) FailedDeserialization)) (fun n =>
  if (n <? 2)%N then cerr FailedDeserialization
  else
    cbind (parse_u32_c iter) (fun '(m, iter) =>
    if (m <? 2)%N then cerr FailedDeserialization
    else
      cbind (parse_point_c (chunks_of iter)) (fun '(A, c) =>
      cbind (parse_point_c c) (fun '(B, c) =>
      cbind (parse_point_c c) (fun '(C, c) =>
      cbind (parse_point_c c) (fun '(D, c) =>
      cbind (parse_scalar_c c) (fun '(z_A, c) =>
      cbind (parse_scalar_c c) (fun '(z_C, c) =>
      cbind (parse_scalar_c c) (fun '(z, c) =>
      cbind (parse_many_c parse_point_c (N.to_nat m) c) (fun '(X, c) =>
      cbind (parse_many_c parse_point_c (N.to_nat m) c) (fun '(Y, c) =>
      cbind (parse_many_c (parse_many_c parse_scalar_c (N.to_nat n_minus_1)) (N.to_nat m) c) (fun '(f, c) =>
      if negb (Nat.eqb (length (ch_remainder c)) 0) then cerr FailedDeserialization
      else match next_chunk c with
      | Some _ => cerr FailedDeserialization
      | None =>
          if negb (N.of_nat (length X) =? m)%N || negb (N.of_nat (length Y) =? m)%N then cerr FailedDeserialization
          else if negb (N.of_nat (length f) =? m)%N then cerr FailedDeserialization
          else tick (length f)
            (if existsb (fun row => negb (N.of_nat (length row) =? n_minus_1)%N) f then cerr FailedDeserialization
             else cret (mk_proof A B C D X Y f z_A z_C z))
      end))))))))))))).

(** The decoder that counts is the decoder. *)
Theorem C110_same_decoder : forall (E : env) (bs : bytes), fst (from_bytes_c (E := E) bs) = from_bytes bs.
Proof.
  intros E bs. unfold from_bytes_c, from_bytes. unfold parse_u32_c, parse_point_c at 1 2 3 4, parse_scalar_c at 1 2 3.
  rewrite fst_cbind, fst_tick. cbn [cfree fst]. destruct (parse_u32 bs) as [[n1 it]| | |]; cbn [obind]; try reflexivity.
  rewrite fst_cbind. cbn [cfree fst]. destruct (ok_or _ _) as [n| | |]; cbn [obind]; try reflexivity. destruct (n <? 2)%N; [reflexivity|].
  rewrite fst_cbind, fst_tick. cbn [cfree fst]. destruct (parse_u32 it) as [[m it']| | |]; cbn [obind]; try reflexivity. destruct (m <? 2)%N; [reflexivity|].
  do 7 (rewrite fst_cbind, fst_tick; cbn [cfree fst]; match goal with |- obind ?x _ = obind ?x _ => destruct x as [[? ?]| | |]; cbn [obind]; [|reflexivity..] end).
  rewrite fst_cbind, (parse_many_c_result parse_point_c parse_point) by reflexivity.
  match goal with |- obind ?x _ = obind ?x _ => destruct x as [[X ?]| | |]; cbn [obind]; [|reflexivity..] end.
  rewrite fst_cbind, (parse_many_c_result parse_point_c parse_point) by reflexivity.
  match goal with |- obind ?x _ = obind ?x _ => destruct x as [[Y ?]| | |]; cbn [obind]; [|reflexivity..] end.
  rewrite fst_cbind, (parse_many_c_result (parse_many_c parse_scalar_c (N.to_nat n1)) (parse_many parse_scalar (N.to_nat n1)))
    by (intros ?; apply parse_many_c_result; reflexivity).
  match goal with |- obind ?x _ = obind ?x _ => destruct x as [[f cl]| | |]; cbn [obind]; [|reflexivity..] end.
  destruct (negb _); [reflexivity|]. destruct (next_chunk cl); [reflexivity|]. destruct (_ || _); [reflexivity|]. destruct (negb _); [reflexivity|].
  rewrite fst_tick. destruct (existsb _ f); reflexivity.
Qed.
Print Assumptions C110_same_decoder.

(** At most six steps for every 32 bytes of input, and five more. *)
Theorem C110_decoding_is_linear : forall (E : env) (bs : bytes), (steps (from_bytes_c (E := E) bs) <= 6 * (length bs / 32) + 5)%nat.
Proof.
  intros E bs. unfold from_bytes_c. unfold steps, cbind at 1. change (fst (parse_u32_c bs)) with (parse_u32 bs). change (snd (parse_u32_c bs)) with 1%nat.
  destruct (parse_u32 bs) as [[n1 it]| | |] eqn:Hu; cbn [snd]; try lia. unfold cbind at 1. cbn [cfree fst snd].
  unfold ok_or, checked_add, checked. destruct (n1 + 1 <? u32_bound)%N; cbn [snd]; [|lia].
  destruct (N.ltb_spec (n1 + 1) 2) as [Hn|Hn]; [cbn; lia|]. unfold cbind at 1. change (fst (parse_u32_c it)) with (parse_u32 it). change (snd (parse_u32_c it)) with 1%nat.
  destruct (parse_u32 it) as [[m it']| | |] eqn:Hu'; cbn [snd]; try lia. destruct (N.ltb_spec m 2) as [Hm|Hm]; [cbn; lia|].
  apply parse_u32_length in Hu, Hu'. cbn [fst].
  match goal with |- (1 + (0 + (1 + snd ?x)) <= _)%nat => assert (Hb : bounded 6 3 (chunks_of it') x) end.
  { destruct (point_linear (E := E)) as [Pl Pt]. destruct scalar_linear as [Sl St].
    assert (Pl' : per_chunk 6 3 (parse_point_c (E := E))) by (apply (linear_weaken 1 1); [lia|lia|exact Pl]).
    assert (Sl' : per_chunk 6 3 parse_scalar_c) by (apply (linear_weaken 1 1); [lia|lia|exact Sl]).
    assert (Ml : forall k, per_chunk 6 3 (parse_many_c (parse_point_c (E := E)) k)).
    { intros k. apply (linear_weaken (1 + 2) (1 + 1)); [lia|lia|]. apply many_linear; [exact Pt|exact Pl]. }
    assert (Rt : takes 1 (parse_many_c parse_scalar_c (N.to_nat n1))).
    { apply (takes_weaken (N.to_nat n1)); [lia|]. apply many_takes. exact St. }
    assert (Rl : per_chunk 5 3 (parse_many_c (parse_many_c parse_scalar_c (N.to_nat n1)) (N.to_nat m))).
    { apply (many_linear 3 2); [exact Rt|]. apply (many_linear 1 1); [exact St|exact Sl]. }
    do 4 (apply bind_bounded; [exact Pl'|intros ? ? _]). do 3 (apply bind_bounded; [exact Sl'|intros ? ? _]).
    do 2 (apply bind_bounded; [apply Ml|intros ? ? _]).
    apply (bind_bounded_rows 5 3 (N.to_nat m)); [exact Rl|apply many_takes; exact Rt|]. intros f c _.
    destruct (negb _); [cbn; lia|]. destruct (next_chunk c); [cbn; lia|]. destruct (_ || _); [cbn; lia|].
    destruct (N.eqb_spec (N.of_nat (length f)) m) as [Hf|Hf]; cbn [negb]; [|cbn; lia].
    unfold steps, tick. cbn [snd]. destruct (existsb _ f); cbn [snd cerr cret]; lia. }
  unfold bounded, steps in Hb. rewrite chunks_left in Hb.
  assert (Hd : (length it' / 32 <= length bs / 32)%nat) by (apply Nat.div_le_mono; lia). lia.
Qed.
Print Assumptions C110_decoding_is_linear.

(** A header that announces [2^32 - 1] rows of [2^32 - 2] responses, and nothing else. *)
Example C110_hostile_header : steps (from_bytes_c (E := E0) (le_bytes 4 (2 ^ 32 - 2) ++ le_bytes 4 (2 ^ 32 - 1))) = 3%nat.
Proof. reflexivity. Qed.
