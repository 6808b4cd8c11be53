(** Property C129: verification of Parallel Triptych is as sound as 64 bits allow.  The counterpart of C127: whoever computes weights of numbers and numbers of
    proofs in any order and any number finds a wrong proof that is accepted with a chance of about [4 n / 2^64] at most. *)
From Verif Require Import ParSpecSound SpecUniform ParFacts ParProverFacts ParVerifierFacts ParCompleteness ParVerdict ParVerifierApi ParBinding Uniform CountWeights Oracle Searcher ParExamples
  Properties_ParParams Properties_ParInputs Properties_ParProver Properties_ParVerifier Properties_ParWeights Properties_ParForger Properties_ParGrind.
From Verif Require Import CoreFacts Scalar Algebra.

(** * Specification *)

(** What a player may try: a transcript, a statement and a proof. *)
Definition attempt (E : env) : Type := (transcript * statement E * proof E)%type.
(** The proof fails some verification equation, and these weights cancel its errors. *)
Definition fooled {E : env} (x : attempt E) (ws : list scalar) : Prop :=
  let '(t, st, pf) := x in
  let p := st_get_params st in
  ~ equations p (get_keys (st_get_input_set st)) (get_auxiliary_keys (st_get_input_set st)) (st_get_offset st) (st_get_J st) pf (challenge t st pf) /\
  lincomb ws (defects p (get_keys (st_get_input_set st)) (get_auxiliary_keys (st_get_input_set st)) (st_get_offset st) (st_get_J st) pf (challenge t st pf)) = pid E.
(** What the player knows is what the hash function says. *)
Definition truthful {E : env} (what : list (known (attempt E))) : Prop :=
  (forall t st pf number, In (HasNumber (t, st, pf) number) what -> number = proof_tag t st pf) /\
  (forall number ws, In (HasWeights number ws) what -> exists g, next_weights (E := E) 5 (tag_rng number) ws g).
(** It has tried a proof: it knows the number of the proof and the weights of this number, all that the verifier uses. *)
Definition tried {E : env} (what : list (known (attempt E))) (t : transcript) (st : statement E) (pf : proof E) : Prop :=
  exists number ws, In (HasNumber (t, st, pf) number) what /\ In (HasWeights number ws) what.

(** * Proofs *)
Lemma fooled_dec {E : env} (L : env_laws E) (x : attempt E) ws : fooled x ws \/ ~ fooled x ws.
Proof.
  destruct x as [[t st] pf]. unfold fooled. destruct (pt_eq_dec L (lincomb ws (defects (st_get_params st) (get_keys (st_get_input_set st)) (get_auxiliary_keys (st_get_input_set st)) (st_get_offset st) (st_get_J st) pf (challenge t st pf))) (pid E)) as [He|He]; [|tauto].
  assert (Hd : equations (st_get_params st) (get_keys (st_get_input_set st)) (get_auxiliary_keys (st_get_input_set st)) (st_get_offset st) (st_get_J st) pf (challenge t st pf) \/ ~ equations (st_get_params st) (get_keys (st_get_input_set st)) (get_auxiliary_keys (st_get_input_set st)) (st_get_offset st) (st_get_J st) pf (challenge t st pf)).
  { destruct (Forall_dec (fun d => d = pid E) (fun d => pt_eq_dec L d (pid E)) (defects (st_get_params st) (get_keys (st_get_input_set st)) (get_auxiliary_keys (st_get_input_set st)) (st_get_offset st) (st_get_J st) pf (challenge t st pf))) as [H|H];
      [left|right; intros Hc]; [apply (defects_zero L); exact H|apply H; apply (defects_zero L); exact Hc]. }
  tauto.
Qed.
Lemma single_weighted {E : env} (L : env_laws E) p M M1 t (st : statement E) pf ws :
  weighted_defects p M M1 [st] [pf] [t] [ws] = lincomb ws (defects p M M1 (st_get_offset st) (st_get_J st) pf (challenge t st pf)).
Proof. unfold weighted_defects. cbn [combine map psum fold_right]. rewrite (padd_comm E L). apply (padd_0_l E L). Qed.
Lemma fooled_few {E : env} (L : env_laws E) (x : attempt E) : at_most (fun ws => weight_row 5 ws /\ fooled x ws) ((order - 1) ^ N.of_nat (5 - 1)).
Proof.
  destruct x as [[t st] pf]. set (p := st_get_params st). set (M := get_keys (st_get_input_set st)). set (M1 := get_auxiliary_keys (st_get_input_set st)).
  intros l Hnd Hf. destruct l as [|w l]; [apply N.le_0_l|]. remember (w :: l) as l0 eqn:Hl0.
  assert (Hn : ~ all_equations p M M1 [st] [pf] [t]).
  { rewrite Hl0 in Hf. inversion Hf as [|? ? (_ & Hn & _) _]; subst. intros Hall. apply Hn. apply Hall. left. reflexivity. }
  destruct (C115_few_tables_accept E L p M M1 [st] [pf] [t] eq_refl eq_refl Hn) as (c & Hc & Hle).
  assert (Hlen : (N.of_nat (length l0) <= c)%N).
  { rewrite <- (map_length (fun ws => [ws])). apply (card_at_most _ _ Hc).
    - clear - Hnd. induction Hnd as [|a l Ha Hnd IH]; [constructor|]. cbn [map]. constructor; [|exact IH]. intros Hi. apply in_map_iff in Hi.
      destruct Hi as (b & He & Hb). injection He as ->. exact (Ha Hb).
    - apply Forall_forall. intros ws Hin. apply in_map_iff in Hin. destruct Hin as (r & <- & Hr). rewrite Forall_forall in Hf. destruct (Hf r Hr) as ((Hl & Hz) & _ & H).
      split; [split; [split; [reflexivity|repeat constructor; exact Hl]|repeat constructor; exact Hz]|]. rewrite (single_weighted L). exact H. }
  etransitivity; [exact Hlen|]. change (N.of_nat (5 * length [pf])) with (N.succ (N.of_nat (5 - 1))) in Hle. rewrite N.pow_succ_r' in Hle.
  assert (Hpos : (0 < order - 1)%N) by reflexivity. revert Hle Hpos. generalize ((order - 1) ^ N.of_nat (5 - 1))%N. generalize (order - 1)%N. intros o b Hle Hpos. nia.
Qed.
Lemma fooled_robust {E : env} (L : env_laws E) (x : attempt E) rs : length rs = 5%nat -> Forall (weight_row 5) rs -> independent 5 rs -> ~ Forall (fooled x) rs.
Proof.
  intros Hl Hr Hi Hf. destruct x as [[t st] pf]. destruct rs as [|r rs]; [discriminate|].
  assert (Hn : ~ equations (st_get_params st) (get_keys (st_get_input_set st)) (get_auxiliary_keys (st_get_input_set st)) (st_get_offset st) (st_get_J st) pf (challenge t st pf)) by (inversion Hf as [|? ? (Hn & _) _]; exact Hn).
  apply Hn. apply (defects_zero L). apply (independent_cancel L 5 _ (r :: rs)); [reflexivity|exact Hl|exact Hr|exact Hi|]. eapply Forall_impl; [|exact Hf].
  intros ws (_ & H). exact H.
Qed.
Lemma big_5 : (2 ^ 251 * order ^ N.of_nat (5 - 1) <= (order - 1) ^ N.of_nat 5)%N.
Proof. vm_compute. discriminate. Qed.

(** * Theorems *)

(** There are [(2^64 (order - 1)^4)^n] sequences of [n] answers. *)
Theorem C129_number_of_answers : forall n, has_card (random_answers 5 n) ((2 ^ 64 * (order - 1) ^ 5) ^ N.of_nat n).
Proof. exact (card_random_answers 5). Qed.
Print Assumptions C129_number_of_answers.

(** Whatever it does, a player who gets [n] random answers succeeds on a share of at most [4 n / 2^64 + n^5 / 2^250] of them. *)
Theorem C129_sound_in_64_bits :
  forall (E : env), env_laws E -> forall (n : nat) (g : search (attempt E)),
    exists c, has_card (fun answers => random_answers 5 n answers /\ finds fooled (learns g answers)) c /\
      (c * 2 ^ 250 <= N.of_nat n * (4 * 2 ^ 186 + N.of_nat n ^ 4) * (2 ^ 64 * (order - 1) ^ 5) ^ N.of_nat n)%N.
Proof.
  intros E L n g. exact (search_bound 5 fooled (fooled_dec L) (fooled_few L) ltac:(lia) (fooled_robust L) big_5 n g).
Qed.
Print Assumptions C129_sound_in_64_bits.

(** A player who has tried a proof that is not valid but accepted by [verify] has succeeded. *)
Theorem C129_real_run :
  forall (E : env), env_laws E -> forall (what : list (known (attempt E))) md t st pf t', made_statement st -> truthful what -> tried what t st pf ->
    verify_returns md pf st t (Ok tt) t' -> ~ valid_proof t st pf -> finds fooled what.
Proof.
  intros E L what md t st pf t' Hm [Ht1 Ht2] (number & ws & H1 & H2) Hv Hn. pose proof (made_statement_good L st Hm) as Hg.
  apply verify_returns_batch in Hv. assert (Hacc : exists ts', verify_batch_returns md [st] [pf] [t] (Ok tt) ts') by (eexists; exact Hv).
  apply (verify_batch_accepts_iff L md st [] [pf] [t] Hg) in Hacc. destruct Hacc as (_ & _ & _ & Hw & _ & Hnd & wss & Hws & Hz).
  apply Forall_inv in Hw, Hnd. pose proof (Ht1 _ _ _ _ H1) as ->. destruct (Ht2 _ _ H2) as (g & Hg4).
  assert (Hb : batch_weights (E := E) 5 1 (weight_rng [st] [pf] [t]) [ws]) by (rewrite tag_rng_is; econstructor; [exact Hg4|constructor]).
  rewrite (batch_weights_fun _ _ _ _ Hws _ Hb), (single_weighted L) in Hz.
  exists (t, st, pf), (proof_tag t st pf), ws. split; [exact H1|]. split; [exact H2|]. split; [|exact Hz].
  intros He. apply Hn. split; [exact Hw|]. split; [exact (proj1 Hnd)|]. split; [exact (proj2 Hnd)|exact He].
Qed.
Print Assumptions C129_real_run.

(** The attack of C127 as a player: it asks for the weights of one number and then for the number of one proof. *)
Definition grinds {E : env} (p : params E) (s : input_set E) (offset : pt E) (t : transcript) (l : N) (K K1 : pt E) (r r1 : scalar) (c : coins) : search (attempt E) :=
  WeightsOf 0 (fun ws =>
    match statement_new p s offset (forged_tag p (nth 2 ws s0) (nth 3 ws s0) (nth 4 ws s0) K K1 offset r r1) with
    | Ok st => NumberOf (t, st, unchecked_proof t st l r r1 c) (fun _ => Finished)
    | _ => Finished
    end).
(** It succeeds on exactly one sequence of answers in [2^64], over every ring, so that the first term of the bound is right up to the factor 4. *)
Theorem C129_bound_is_reached :
  forall (E : env), env_laws E -> forall (p : params E) s offset t l K K1 r r1 c, made_params p -> made_input_set s -> N.of_nat (length (get_keys s)) = (get_n p ^ get_m p)%N ->
    ~ In (pid E) (get_keys s) -> ~ In offset (get_auxiliary_keys s) -> nth_error (get_keys s) (N.to_nat l) = Some K ->
    nth_error (get_auxiliary_keys s) (N.to_nat l) = Some K1 -> r <> s0 -> K <> pmul E r (get_G p) -> sized p c ->
    (forall st : statement E, made_statement st -> challenge t st (unchecked_proof t st l r r1 c) <> s0) ->
    exists n, has_card (fun answers => random_answers 5 2 answers /\ finds fooled (learns (grinds p s offset t l K K1 r r1 c) answers)) n /\
      (n * 2 ^ 64 = (2 ^ 64 * (order - 1) ^ 5) ^ 2)%N.
Proof.
  intros E L p s offset t l K K1 r r1 c Hp Hs Hlen Hid Ho HK HK1 Hr HKr Hc Hx.
  exists (2 ^ 64 * (order - 1) ^ 5 * (order - 1) ^ 5)%N. split.
  - apply (card_image (fun x : (N * list scalar) * list scalar => (fst (fst x) < 2 ^ 64 /\ weight_row 5 (snd (fst x)))%N /\ weight_row 5 (snd x)) _
      (fun x => [fst x; (0%N, snd x)]) (fun as_ => (nth 0 as_ (0%N, []), snd (nth 1 as_ (0%N, []))))).
    + exact (card_prod _ _ _ _ (card_one_answer 5) (card_row 5)).
    + intros [[k ws] ws'] ((Hk & Hw) & Hw'). cbn [fst snd] in *. split; [|reflexivity].
      split; [split; [reflexivity|constructor; [split; assumption|constructor; [split; [reflexivity|exact Hw']|constructor]]]|].
      destruct (C60_statement_accepted_exactly E L p s offset (forged_tag p (nth 2 ws s0) (nth 3 ws s0) (nth 4 ws s0) K K1 offset r r1) Hp) as (Hst & _).
      destruct (Hst Hlen Hid Ho) as (st & Hst1 & Hst2 & Hst3 & Hst5 & Hst4). unfold grinds. cbn [learns fst snd]. rewrite Hst1. cbn [learns fst snd].
      assert (Hm : made_statement st) by (exists p, s, offset, (forged_tag p (nth 2 ws s0) (nth 3 ws s0) (nth 4 ws s0) K K1 offset r r1); split; [exact Hp|split; [exact Hs|exact Hst1]]).
      exists (t, st, unchecked_proof t st l r r1 c), 0%N, ws. split; [right; left; reflexivity|]. split; [left; reflexivity|].
      rewrite <- Hst2 in Hc. assert (HK' : nth_error (get_keys (st_get_input_set st)) (N.to_nat l) = Some K) by (rewrite Hst3; exact HK).
      assert (HK1' : nth_error (get_auxiliary_keys (st_get_input_set st)) (N.to_nat l) = Some K1) by (rewrite Hst3; exact HK1).
      pose proof (unchecked_defects L t st l r r1 c K K1 Hm Hc HK' HK1') as Hd. cbv zeta in Hd. pose proof (spow_nonzero _ (N.to_nat (get_m (st_get_params st))) (Hx st Hm)) as Hxm.
      destruct Hw as [Hwl Hwz]. destruct ws as [|w1 [|w2 [|w3 [|w4 [|w5 [|]]]]]]; try discriminate. cbn [nth] in *.
      split.
      * intros He. apply (defects_zero L) in He. rewrite Hd in He. apply Forall_inv_tail, Forall_inv_tail, Forall_inv in He. apply (pmul_eq_0 L) in He; [|exact Hxm].
        apply (proj1 (psub_0 L _ _)) in He. rewrite Hst2 in He. exact (HKr He).
      * assert (H4 : w4 <> s0) by (intros ->; apply Hwz; cbn [In]; tauto). pose proof (forged_tag_cancels L p w3 w4 w5 K K1 offset r r1 H4 Hr) as Hcan.
        change (pmul E (sinv r) _) with (forged_tag p w3 w4 w5 K K1 offset r r1) in Hcan. rewrite <- Hst4 in Hcan. rewrite <- (single_weighted L).
        apply (unchecked_total L t st l r r1 c K K1 w1 w2 w3 w4 w5 Hm Hc HK' HK1' (Hx st Hm)). rewrite Hst2, Hst5. exact Hcan.
    + intros as_ ((Hl & Hf) & Hfind). destruct as_ as [|[k1 ws1] [|[k2 ws2] [|]]]; try discriminate. inversion Hf as [|? ? H1 H2]; subst. apply Forall_inv in H2. cbn [nth fst snd] in *.
      split; [split; [exact H1|exact (proj2 H2)]|]. assert (Hk : k2 = 0%N); [|rewrite Hk; reflexivity].
      destruct (C60_statement_accepted_exactly E L p s offset (forged_tag p (nth 2 ws1 s0) (nth 3 ws1 s0) (nth 4 ws1 s0) K K1 offset r r1) Hp) as (Hst & _).
      destruct (Hst Hlen Hid Ho) as (st & Hst1 & _). unfold grinds in Hfind. cbn [learns fst snd] in Hfind. rewrite Hst1 in Hfind. cbn [learns fst snd] in Hfind.
      destruct Hfind as (x & number & ws & [F1|[F1|[]]] & [F2|[F2|[]]] & _); congruence.
  - rewrite N.pow_2_r. generalize ((order - 1) ^ 5)%N (2 ^ 64)%N. intros. ring.
Qed.
Print Assumptions C129_bound_is_reached.

(** The forgery of C127 is a successful try; and an environment in which no challenge is zero. *)
Example C129_example : exists (what : list (known (attempt E7))) t st pf t', made_statement st /\ truthful what /\ tried what t st pf /\
  verify_returns OverflowPanics pf st t (Ok tt) t' /\ ~ valid_proof t st pf.
Proof.
  destruct (C127_any_rings E7 (toy_laws P0 forgetful) (x_params P0 forgetful) 7 _ _ _ _ _ (x_params_made P0 forgetful) y_weights
    (get_keys (x_set P0 forgetful 2)) (get_auxiliary_keys (x_set P0 forgetful 2)) (x_offset P0 forgetful) 2%N
    (x_r * s1)%sc (x_offset P0 forgetful + x_r1 * x_G1 P0 forgetful)%sc s1 s1 eq_refl eq_refl
    (x_ring_no_identity P0 forgetful 2) (x_ring1_no_offset P0 forgetful 2) eq_refl eq_refl s1_neq_s0) as (_ & Hacc).
  rewrite v_tag_is in Hacc.
  destruct (Hacc v_statement v_statement_made eq_refl eq_refl eq_refl eq_refl eq_refl OverflowPanics (x_transcript 1) y_coins y_sized y_fits v_nondegenerate) as [Hv Hok].
  destruct (Hok v_tag_number) as (t' & Ht').
  exists [HasNumber (x_transcript 1, v_statement, v_proof) 7%N; HasWeights 7%N [smk 7; smk 7; smk 7; smk 7; smk 7]], (x_transcript 1), v_statement, v_proof, t'.
  split; [exact v_statement_made|]. split; [split|].
  - intros t st pf number [H|[H|[]]]; [|discriminate]. injection H as <- <- <- <-. symmetry. exact v_tag_number.
  - intros number ws [H|[H|[]]]; [discriminate|]. injection H as <- <-. exact y_weights.
  - split; [exists 7%N, [smk 7; smk 7; smk 7; smk 7; smk 7]; split; [left; reflexivity|right; left; reflexivity]|]. split; [exact Ht'|].
    apply Hv. left. scalars_differ.
Qed.
Definition nine (t : transcript) (label : bytes) : N := 9%N.
Notation E9 := (toy nine T0).
Lemma nine_challenge t (st : statement E9) pf : challenge t st pf <> s0.
Proof.
  change (challenge t st pf) with (scalar_from_wide (le_bytes 64 9)). intros H. apply (f_equal sval) in H. vm_compute in H. discriminate.
Qed.
Lemma nine_key : nth_error (get_keys (x_set nine T0 2)) (N.to_nat 2) = Some (x_r * s1 : pt E9)%sc.
Proof. reflexivity. Qed.
Lemma nine_sized : sized (x_params nine T0) y_coins.
Proof. split; [split; [reflexivity|repeat constructor]|split; reflexivity]. Qed.
Example C129_example_reached : exists n, has_card (fun answers => random_answers 5 2 answers /\
    finds fooled (learns (grinds (x_params nine T0) (x_set nine T0 2) (x_offset nine T0) (x_transcript 1) 2 (x_r * s1)%sc (x_offset nine T0 + x_r1 * x_G1 nine T0)%sc s1 s1 y_coins) answers)) n /\
  (n * 2 ^ 64 = (2 ^ 64 * (order - 1) ^ 5) ^ 2)%N.
Proof.
  apply (C129_bound_is_reached E9 (toy_laws nine T0)); [apply x_params_made|apply x_set_made|reflexivity|apply x_ring_no_identity|apply x_ring1_no_offset|exact nine_key|reflexivity|exact s1_neq_s0| |exact nine_sized|].
  - scalars_differ.
  - intros st _. apply nine_challenge.
Qed.
