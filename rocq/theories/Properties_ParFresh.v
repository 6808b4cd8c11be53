(** Property C125: for Parallel Triptych, nobody can have asked for the challenge of a proof before it is made.  In the random oracle model this is what lets a
    proof be replaced by one made without the keys (C105) whose challenge is chosen first. *)
From Verif Require Import ParSpecSound ParSpecKeyless ParFacts ParProverFacts ParCompleteness ParProverApi ParBinding Fresh ParKeyless ParExamples.
From Verif Require Import Algebra.

(** * Specification *)

(** The same coins with other masks: [m] of the first kind and then [m] of the second. *)
Definition with_masks (m : nat) (c : coins) (both : list scalar) : coins :=
  mk_coins (c_r_A c) (c_a c) (c_r_B c) (c_r_C c) (c_r_D c) (firstn m both) (skipn m both).
(** The byte strings a generator gives when asked [k] times for 64 bytes. *)
Fixpoint reads {E : env} (k : nat) (g : trng) : list bytes :=
  match k with O => [] | S k' => fst (trng_fill (E := E) g 64) :: reads (E := E) k' (snd (trng_fill (E := E) g 64)) end.
(** The generator after the values before the masks have been read. *)
Definition before_masks {E : env} (n m : nat) (g : trng) : trng :=
  let g := snd (draw (E := E) g) in let g := snd (draw_rows (E := E) m n g) in
  snd (draw (E := E) (snd (draw (E := E) (snd (draw (E := E) g))))).

(** * Proofs *)
Section Fresh.
Context {E : env} (L : env_laws E).

Lemma draws_reads k : forall g, fst (draws (E := E) k g) = map scalar_from_wide (reads (E := E) k g).
Proof.
  induction k as [|k IH]; intros g; [reflexivity|]. cbn [draws reads map]. unfold draw.
  destruct (trng_fill (E := E) g 64) as [bs g1]. cbn [fst snd]. specialize (IH g1). destruct (draws (E := E) k g1) as [ss g2].
  cbn [fst] in IH |- *. rewrite IH. reflexivity.
Qed.
Lemma reads_answers k : forall g, answers_of k (reads (E := E) k g).
Proof.
  induction k as [|k IH]; intros g; [split; constructor|]. cbn [reads]. destruct (IH (snd (trng_fill (E := E) g 64))) as [H1 H2].
  split; [cbn [length]; lia|]. constructor; [|exact H2]. unfold trng_fill. cbn [fst]. apply (trng_prf_length E L).
Qed.
Lemma draws_draws j k : forall g, fst (draws (E := E) (j + k) g) = fst (draws (E := E) j g) ++ fst (draws (E := E) k (snd (draws (E := E) j g))).
Proof.
  induction j as [|j IH]; intros g; [reflexivity|]. cbn [Nat.add draws]. destruct (draw (E := E) g) as [s g1]. specialize (IH g1).
  destruct (draws (E := E) (j + k) g1) as [ss g2]. destruct (draws (E := E) j g1) as [ss' g3]. cbn [fst snd app] in IH |- *. rewrite IH. reflexivity.
Qed.
Lemma coins_masks n m g : let c := read_coins (E := E) n m g in
  c_rho c ++ c_rho1 c = map scalar_from_wide (reads (E := E) (m + m) (before_masks (E := E) n m g)) /\ length (c_rho c) = m.
Proof.
  cbv zeta.
  unfold read_coins, before_masks. destruct (draw (E := E) g) as [r_A g1]. cbn [snd]. destruct (draw_rows (E := E) m n g1) as [a g2]. cbn [snd].
  destruct (draw (E := E) g2) as [r_B g3]. cbn [snd]. destruct (draw (E := E) g3) as [r_C g4]. cbn [snd]. destruct (draw (E := E) g4) as [r_D g5]. cbn [snd].
  rewrite <- draws_reads, draws_draws. pose proof (@draws_length E m g5) as Hl. destruct (draws (E := E) m g5) as [rho g6]. cbn [fst snd] in Hl |- *.
  destruct (draws (E := E) m g6) as [rho1 g7]. split; [reflexivity|exact Hl].
Qed.
Lemma with_own_masks m c : length (c_rho c) = m -> with_masks m c (c_rho c ++ c_rho1 c) = c.
Proof.
  destruct c as [rA a rB rC rD rho rho1]. unfold with_masks. cbn [c_r_A c_a c_r_B c_r_C c_r_D c_rho c_rho1]. intros <-.
  rewrite firstn_app, Nat.sub_diag, firstn_all, firstn_O, app_nil_r, skipn_app, Nat.sub_diag, skipn_all. reflexivity.
Qed.

Lemma relation_G (st : statement E) l r r1 : good_statement st -> relation st l r r1 -> get_G (st_get_params st) <> pid E /\ get_G1 (st_get_params st) <> pid E.
Proof.
  intros Hg (H1 & (M1_l & H2 & H3) & _). split; intros Hid.
  - apply (gs_nonid st Hg). apply (nth_error_In _ (N.to_nat l)).
    unfold get_keys, st_get_input_set in H1. rewrite H1, Hid, (pmul_0_r L). reflexivity.
  - rewrite Hid, (pmul_0_r L) in H3. apply (proj1 (psub_0 L _ _)) in H3. apply (gs_nonid1 st Hg). apply (nth_error_In _ (N.to_nat l)).
    unfold get_auxiliary_keys, st_get_input_set in H2. rewrite H2, H3. reflexivity.
Qed.

Lemma masks_injective (st : statement E) l r r1 c xi xi' both both' : get_G (st_get_params st) <> pid E -> get_G1 (st_get_params st) <> pid E ->
  let m := N.to_nat (get_m (st_get_params st)) in
  length both = (m + m)%nat -> length both' = (m + m)%nat ->
  same_first_message (honest_proof st l r r1 (with_masks m c both) xi) (honest_proof st l r r1 (with_masks m c both') xi') -> both = both'.
Proof.
  intros HG HG1 m Hl Hl' (_ & _ & _ & _ & H & H1 & _). unfold honest_proof in H, H1. cbn [pf_X pf_X1 with_masks c_rho c_rho1 c_a] in H, H1. fold m in H, H1.
  rewrite <- (firstn_skipn m both), <- (firstn_skipn m both'). f_equal.
  - apply (nth_ext _ _ s0 s0); [rewrite !firstn_length; lia|]. intros j Hj. rewrite firstn_length in Hj.
    apply (f_equal (fun l => nth j l (pid E))) in H. rewrite !nth_map_seq in H by lia.
    apply (padd_cancel_l L) in H. exact (pmul_inj_l L _ _ _ HG H).
  - apply (nth_ext _ _ s0 s0); [rewrite !skipn_length; lia|]. intros j Hj. rewrite skipn_length in Hj.
    apply (f_equal (fun l => nth j l (pid E))) in H1. rewrite !nth_map_seq in H1 by lia.
    apply (padd_cancel_l L) in H1. exact (pmul_inj_l L _ _ _ HG1 H1).
Qed.
End Fresh.

(** * Theorems *)

(** What the prover asks: the challenge of its first message, whose masks it has read last, each from 64 bytes of its generator. *)
Theorem C125_the_question_asked :
  forall (E : env), env_laws E -> forall (R : Type) (ro : rng_ops R) (w : witness E) (st : statement E) (rng rng' : R) (t t' : transcript) pf,
    made_witness w -> made_statement st -> prove_with_rng ro w st rng t = (Ok pf, t', rng') ->
    let seed := fst (rng_fill ro rng 32) in
    let m := N.to_nat (get_m (st_get_params st)) in
    let masks := reads (E := E) (m + m) (before_masks (E := E) (N.to_nat (get_n (st_get_params st))) m (prover_rng t st w seed)) in
    answers_of (m + m) masks /\
    relation st (w_get_l w) (w_get_r w) (w_get_r1 w) /\
    forall xi, fs_transcript t st pf =
      fs_transcript t st (honest_proof st (w_get_l w) (w_get_r w) (w_get_r1 w) (with_masks m (prover_coins t st w seed) (map scalar_from_wide masks)) xi).
Proof.
  intros E L R ro w st rng rng' t t' pf Hw Hst H seed m masks. split; [apply (reads_answers L)|].
  destruct (prove_result L ro w st rng t pf t' rng' Hw Hst H) as (Hr & _ & Hpf & _). split; [exact Hr|]. intros xi.
  unfold masks. destruct (coins_masks (E := E) (N.to_nat (get_n (st_get_params st))) m (prover_rng t st w seed)) as [Hc Hl]. rewrite <- Hc.
  change (read_coins (N.to_nat (get_n (st_get_params st))) m (prover_rng t st w seed)) with (prover_coins t st w seed).
  rewrite with_own_masks by exact Hl. fold seed in Hpf. rewrite Hpf. reflexivity.
Qed.
Print Assumptions C125_the_question_asked.

(** Whatever [q] questions have been asked, and whatever the other coins are, the prover repeats one of them for at most [q] times
    [per_scalar ^ (2 m)] of the [(2^512)^(2 m)] values its mask bytes can have: a share of at most [q / 2^(252 * 2 m)]. *)
Theorem C125_fresh_question :
  forall (E : env), env_laws E -> forall (t : transcript) (st : statement E) (l : N) (r r1 : scalar) (c : coins) (xi : scalar) (asked : list transcript),
    made_statement st -> relation st l r r1 ->
    let m := get_m (st_get_params st) in
    let k := (m + m)%N in
    let hit masks := answers_of (N.to_nat k) masks /\ In (fs_transcript t st (honest_proof st l r r1 (with_masks (N.to_nat m) c (map scalar_from_wide masks)) xi)) asked in
    at_most hit (N.of_nat (length asked) * per_scalar ^ k)%N /\
    has_card (answers_of (N.to_nat k)) ((2 ^ 512) ^ k)%N /\
    (N.of_nat (length asked) * per_scalar ^ k * 2 ^ (252 * k) <= N.of_nat (length asked) * (2 ^ 512) ^ k)%N.
Proof.
  intros E L t st l r r1 c xi asked Hst Hr m k hit. pose proof (made_statement_good L st Hst) as Hg. split; [|split].
  - unfold hit. generalize (at_most_hits (N.to_nat k) (fun both => fs_transcript t st (honest_proof st l r r1 (with_masks (N.to_nat m) c both) xi)) asked).
    rewrite N2Nat.id. intros Hhit. apply Hhit.
    intros ss ss' H1 H2 H. apply (fs_inj L) in H. destruct H as (_ & _ & H). destruct (relation_G L st l r r1 Hg Hr) as [HG HG1].
    unfold k in H1, H2. rewrite N2Nat.inj_add in H1, H2. exact (masks_injective L st l r r1 c xi xi ss ss' HG HG1 H1 H2 H).
  - generalize (card_answers (N.to_nat k)). rewrite N2Nat.id. intros Hc. exact Hc.
  - apply few_hits.
Qed.
Print Assumptions C125_fresh_question.

(** The same for proofs made without the keys: of the lists of [m - 1 >= 1] pairs of points and of [m - 1] points at most [q] lead to one of [q] questions. *)
Theorem C125_fresh_without_key :
  forall (E : env), env_laws E -> forall (t : transcript) (st : statement E) (l : N) xi B C f zA zC z z1 (asked : list transcript),
    made_statement st ->
    (1 <= get_m (st_get_params st) - 1)%N /\
    at_most (fun pp : list (pt E * pt E) * list (pt E) =>
               (length (fst pp) = (N.to_nat (get_m (st_get_params st)) - 1)%nat /\ length (snd pp) = (N.to_nat (get_m (st_get_params st)) - 1)%nat) /\
               In (fs_transcript t st (keyless_proof st l xi B C f zA zC z z1 (fst pp) (snd pp))) asked)
            (N.of_nat (length asked)).
Proof.
  intros E L t st l xi B C f zA zC z z1 asked Hst. pose proof (made_statement_good L st Hst) as Hg.
  split; [pose proof (gp_m _ (gs_params st Hg)) as Hm; change (p_m (st_params st)) with (get_m (st_get_params st)) in Hm; lia|].
  apply (at_most_injective (fun pp : list (pt E * pt E) * list (pt E) => length (fst pp) = (N.to_nat (get_m (st_get_params st)) - 1)%nat /\ length (snd pp) = (N.to_nat (get_m (st_get_params st)) - 1)%nat)
           (fun pp => fs_transcript t st (keyless_proof st l xi B C f zA zC z z1 (fst pp) (snd pp))) asked).
  intros [x x1] [y y1] [Hx Hx1] [Hy Hy1] H. cbn [fst snd] in Hx, Hx1, Hy, Hy1, H. apply (fs_inj L) in H. destruct H as (_ & _ & _ & _ & _ & _ & HX & HX1 & HY).
  unfold keyless_proof in HX, HX1, HY. cbn [simulate pf_X pf_X1 pf_Y v_X v_X1 v_Y] in HX, HX1, HY. injection HX as _ HX. injection HX1 as _ HX1. injection HY as _ HY.
  apply f_equal2.
  - clear Hx Hy HX1 Hx1 Hy1. revert HX. generalize 1%nat. revert y HY. induction x as [|[a b] x IH]; intros [|[a' b'] y] HY k HX; try discriminate; [reflexivity|].
    cbn [map snd] in HY. injection HY as Hb HY. cbn [length seq combine map fst snd] in HX. injection HX as Ha HX. apply (padd_cancel_l L) in Ha.
    subst. f_equal. exact (IH y HY (S k) HX).
  - rewrite Hx1, <- Hy1 in HX1. assert (Hl : length x1 = length y1) by congruence. clear - L HX1 Hl. rewrite <- Hl in HX1. revert HX1. generalize 1%nat.
    revert y1 Hl. induction x1 as [|a x IH]; intros [|a' y] Hl k HX; try discriminate; [reflexivity|].
    cbn [length seq combine map fst snd] in HX. injection HX as Ha HX. apply (padd_cancel_l L) in Ha. cbn [length] in Hl. injection Hl as Hl.
    subst. f_equal. exact (IH y Hl (S k) HX).
Qed.
Print Assumptions C125_fresh_without_key.

(** The hypotheses hold for the proof of [Examples.v]; its own question, if it had been asked, would be hit by its own masks, and by at
    most [per_scalar ^ (2 m)] tuples of mask bytes in all. *)
Example C125_example : exists pf t' rng', made_witness (x_witness P0 T0 2) /\ made_statement (x_statement P0 T0 2) /\
  prove_with_rng counter (x_witness P0 T0 2) (x_statement P0 T0 2) 5%N (x_transcript 1) = (Ok pf, t', rng') /\
  In (fs_transcript (x_transcript 1) (x_statement P0 T0 2) pf) [fs_transcript (x_transcript 1) (x_statement P0 T0 2) pf].
Proof.
  destruct (x_proved P0 T0 2 1 ltac:(lia) (proj1 (x_check_ok P0 T0 2 1 x_check_2_1))) as [_ H]. eexists _, _, _.
  split; [exact (x_witness_made P0 T0 2 ltac:(lia))|]. split; [exact (x_statement_made P0 T0 2)|]. split; [exact H|]. left. reflexivity.
Qed.
