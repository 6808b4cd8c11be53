(** Property C124: nobody can have asked for the challenge of a proof before it is made.  In the random oracle model this is what lets a
    proof be replaced by one made without the key (C104) whose challenge is chosen first. *)
From Verif Require Import SpecPlainSound SpecKeyless PlainFacts ProverFacts Completeness ProverApi Binding Fresh Keyless Examples.
From Verif Require Import Algebra.

(** * Specification *)

(** The same coins with other masks. *)
Definition with_masks (c : coins) (rho : list scalar) : coins := mk_coins (c_r_A c) (c_a c) (c_r_B c) (c_r_C c) (c_r_D c) rho.
(** The byte strings a generator gives when asked [k] times for 64 bytes. *)
Fixpoint reads {E : env} (k : nat) (g : trng) : list bytes :=
  match k with O => [] | S k' => fst (trng_fill (E := E) g 64) :: reads (E := E) k' (snd (trng_fill (E := E) g 64)) end.
(** The generator after the values before the masks have been read. *)
Definition before_masks {E : env} (n m : nat) (g : trng) : trng :=
  let g := snd (draw (E := E) g) in let g := snd (draw_rows (E := E) m n g) in
  snd (draw (E := E) (snd (draw (E := E) (snd (draw (E := E) g))))).

(** * Proofs *)
Section Fresh.
Context {E : env} (L : env_laws E).

Lemma draws_reads k : forall g, fst (draws (E := E) k g) = map scalar_from_wide (reads (E := E) k g).
Proof.
  induction k as [|k IH]; intros g; [reflexivity|]. cbn [draws reads map]. unfold draw.
  destruct (trng_fill (E := E) g 64) as [bs g1]. cbn [fst snd]. specialize (IH g1). destruct (draws (E := E) k g1) as [ss g2].
  cbn [fst] in IH |- *. rewrite IH. reflexivity.
Qed.
Lemma reads_answers k : forall g, answers_of k (reads (E := E) k g).
Proof.
  induction k as [|k IH]; intros g; [split; constructor|]. cbn [reads]. destruct (IH (snd (trng_fill (E := E) g 64))) as [H1 H2].
  split; [cbn [length]; lia|]. constructor; [|exact H2]. unfold trng_fill. cbn [fst]. apply (trng_prf_length E L).
Qed.
Lemma coins_masks n m g : c_rho (read_coins (E := E) n m g) = map scalar_from_wide (reads (E := E) m (before_masks (E := E) n m g)).
Proof.
  unfold read_coins, before_masks. destruct (draw (E := E) g) as [r_A g1]. cbn [snd]. destruct (draw_rows (E := E) m n g1) as [a g2]. cbn [snd].
  destruct (draw (E := E) g2) as [r_B g3]. cbn [snd]. destruct (draw (E := E) g3) as [r_C g4]. cbn [snd]. destruct (draw (E := E) g4) as [r_D g5]. cbn [snd].
  rewrite <- draws_reads. destruct (draws (E := E) m g5) as [rho g6]. reflexivity.
Qed.
Lemma with_own_masks c : with_masks c (c_rho c) = c.
Proof. destruct c. reflexivity. Qed.

Lemma relation_G (st : statement E) l r : good_statement st -> relation st l r -> get_G (st_get_params st) <> pid E.
Proof.
  intros Hg (H1 & _) Hid. apply (gs_nonid st Hg). apply (nth_error_In _ (N.to_nat l)).
  unfold get_keys, st_get_input_set in H1. rewrite H1, Hid, (pmul_0_r L). reflexivity.
Qed.

Lemma masks_injective (st : statement E) l r c xi xi' rho rho' : get_G (st_get_params st) <> pid E ->
  length rho = N.to_nat (get_m (st_get_params st)) -> length rho' = N.to_nat (get_m (st_get_params st)) ->
  pf_X (honest_proof st l r (with_masks c rho) xi) = pf_X (honest_proof st l r (with_masks c rho') xi') -> rho = rho'.
Proof.
  intros HG Hl Hl' H. unfold honest_proof in H. cbn [pf_X with_masks c_rho c_a] in H.
  apply (nth_ext _ _ s0 s0); [congruence|]. intros j Hj. rewrite Hl in Hj.
  apply (f_equal (fun l => nth j l (pid E))) in H. rewrite !nth_map_seq in H by exact Hj.
  apply (padd_cancel_l L) in H. exact (pmul_inj_l L _ _ _ HG H).
Qed.
End Fresh.

(** * Theorems *)

(** What the prover asks: the challenge of its first message, whose masks it has read last, each from 64 bytes of its generator. *)
Theorem C124_the_question_asked :
  forall (E : env), env_laws E -> forall (R : Type) (ro : rng_ops R) (w : witness E) (st : statement E) (rng rng' : R) (t t' : transcript) pf,
    made_witness w -> made_statement st -> prove_with_rng ro w st rng t = (Ok pf, t', rng') ->
    let seed := fst (rng_fill ro rng 32) in
    let m := N.to_nat (get_m (st_get_params st)) in
    let masks := reads (E := E) m (before_masks (E := E) (N.to_nat (get_n (st_get_params st))) m (prover_rng t st w seed)) in
    answers_of m masks /\
    relation st (w_get_l w) (w_get_r w) /\
    forall xi, fs_transcript t st pf =
      fs_transcript t st (honest_proof st (w_get_l w) (w_get_r w) (with_masks (prover_coins t st w seed) (map scalar_from_wide masks)) xi).
Proof.
  intros E L R ro w st rng rng' t t' pf Hw Hst H seed m masks. split; [apply (reads_answers L)|].
  destruct (prove_result L ro w st rng t pf t' rng' Hw Hst H) as (Hr & _ & Hpf & _). split; [exact Hr|]. intros xi.
  unfold masks. rewrite <- coins_masks. fold (prover_coins t st w seed).
  change (read_coins (N.to_nat (get_n (st_get_params st))) m (prover_rng t st w seed)) with (prover_coins t st w seed).
  rewrite with_own_masks. fold seed in Hpf. rewrite Hpf. reflexivity.
Qed.
Print Assumptions C124_the_question_asked.

(** Whatever [q] questions have been asked, and whatever the other coins are, the prover repeats one of them for at most [q] times
    [per_scalar ^ m] of the [(2^512)^m] values its mask bytes can have: a share of at most [q / 2^(252 m)]. *)
Theorem C124_fresh_question :
  forall (E : env), env_laws E -> forall (t : transcript) (st : statement E) (l : N) (r : scalar) (c : coins) (xi : scalar) (asked : list transcript),
    made_statement st -> relation st l r ->
    let m := get_m (st_get_params st) in
    let hit masks := answers_of (N.to_nat m) masks /\ In (fs_transcript t st (honest_proof st l r (with_masks c (map scalar_from_wide masks)) xi)) asked in
    at_most hit (N.of_nat (length asked) * per_scalar ^ m)%N /\
    has_card (answers_of (N.to_nat m)) ((2 ^ 512) ^ m)%N /\
    (N.of_nat (length asked) * per_scalar ^ m * 2 ^ (252 * m) <= N.of_nat (length asked) * (2 ^ 512) ^ m)%N.
Proof.
  intros E L t st l r c xi asked Hst Hr m hit. pose proof (made_statement_good L st Hst) as Hg. split; [|split].
  - unfold hit. generalize (at_most_hits (N.to_nat m) (fun rho => fs_transcript t st (honest_proof st l r (with_masks c rho) xi)) asked). rewrite N2Nat.id. intros Hhit. apply Hhit.
    intros ss ss' H1 H2 H. apply (fs_inj L) in H. destruct H as (_ & _ & _ & _ & _ & _ & HX & _).
    apply (masks_injective L st l r c xi xi ss ss'); try assumption. exact (relation_G L st l r Hg Hr).
  - generalize (card_answers (N.to_nat m)). rewrite N2Nat.id. intros Hc. exact Hc.
  - apply few_hits.
Qed.
Print Assumptions C124_fresh_question.

(** The same for proofs made without the key: of the lists of [m - 1 >= 1] pairs of points at most [q] lead to one of [q] questions. *)
Theorem C124_fresh_without_key :
  forall (E : env), env_laws E -> forall (t : transcript) (st : statement E) (l : N) xi B C f zA zC z (asked : list transcript),
    made_statement st ->
    (1 <= get_m (st_get_params st) - 1)%N /\
    at_most (fun pairs => length pairs = (N.to_nat (get_m (st_get_params st)) - 1)%nat /\
               In (fs_transcript t st (keyless_proof st l xi B C f zA zC z pairs)) asked)
            (N.of_nat (length asked)).
Proof.
  intros E L t st l xi B C f zA zC z asked Hst. pose proof (made_statement_good L st Hst) as Hg.
  split; [pose proof (gp_m _ (gs_params st Hg)) as Hm; change (p_m (st_params st)) with (get_m (st_get_params st)) in Hm; lia|].
  apply (at_most_injective (fun pairs => length pairs = (N.to_nat (get_m (st_get_params st)) - 1)%nat)
           (fun pairs => fs_transcript t st (keyless_proof st l xi B C f zA zC z pairs)) asked).
  intros x y Hx Hy H. apply (fs_inj L) in H. destruct H as (_ & _ & _ & _ & _ & _ & HX & HY).
  unfold keyless_proof in HX, HY. cbn [simulate pf_X pf_Y v_X v_Y] in HX, HY. injection HX as _ HX. injection HY as _ HY.
  clear Hx Hy. revert HX. generalize 1%nat. revert y HY. induction x as [|[a b] x IH]; intros [|[a' b'] y] HY k HX; try discriminate; [reflexivity|].
  cbn [map snd] in HY. injection HY as Hb HY. cbn [length seq combine map fst snd] in HX. injection HX as Ha HX. apply (padd_cancel_l L) in Ha.
  subst. f_equal. exact (IH y HY (S k) HX).
Qed.
Print Assumptions C124_fresh_without_key.

(** The hypotheses hold for the proof of [Examples.v]; its own question, if it had been asked, would be hit by its own masks, and by at
    most [per_scalar ^ m] tuples of mask bytes in all. *)
Example C124_example : exists pf t' rng', made_witness (x_witness P0 T0 2) /\ made_statement (x_statement P0 T0 2) /\
  prove_with_rng counter (x_witness P0 T0 2) (x_statement P0 T0 2) 5%N (x_transcript 1) = (Ok pf, t', rng') /\
  In (fs_transcript (x_transcript 1) (x_statement P0 T0 2) pf) [fs_transcript (x_transcript 1) (x_statement P0 T0 2) pf].
Proof.
  destruct (x_proved P0 T0 2 1 ltac:(lia) (proj1 (x_check_ok P0 T0 2 1 x_check_2_1))) as [_ H]. eexists _, _, _.
  split; [exact (x_witness_made P0 T0 2 ltac:(lia))|]. split; [exact (x_statement_made P0 T0 2)|]. split; [exact H|]. left. reflexivity.
Qed.
