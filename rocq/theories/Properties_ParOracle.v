(** Property C121: parallel forgers who may ask for many challenges.  In the random oracle model, where every challenge is 64 fresh random bytes. *)
From Verif Require Import ParSpecSound ParFacts ParCompleteness ParVerifierApi ParSoundness Oracle ParExamples Properties_ParProver Properties_ParSoundness
  ParZK ParSpecZK Properties_ParUsage Properties_ParForger.
From Verif Require Import Algebra.

(** * Specification *)

(** A question is what enters the challenge: the caller's transcript, a statement and a first message (that of [q_message]; the rest of
    it does not matter).  The forger ends with a proof in answer to one of its questions. *)
Record question (E : env) := mk_question { q_transcript : transcript; q_statement : statement E; q_message : proof E }.
Arguments mk_question {E}.
Arguments q_transcript {E}.
Arguments q_statement {E}.
Arguments q_message {E}.
Definition forger (E : env) := game (question E) (nat * proof E).
(** The proof has the first message in question and satisfies the verification equations at the challenge. *)
Definition right_answer {E : env} (q : question E) (xi : scalar) (o : nat * proof E) : Prop :=
  let st := q_statement q in
  same_first_message (q_message q) (snd o) /\ well_shaped (st_get_params st) (snd o) /\
  equations (st_get_params st) (get_keys (st_get_input_set st)) (get_auxiliary_keys (st_get_input_set st)) (st_get_offset st) (st_get_J st) (snd o) xi.
(** The forger is free to choose transcripts, rings, offsets, tags and messages, over fixed parameters. *)
Definition over {E : env} (p : params E) (q : question E) : Prop := made_statement (q_statement q) /\ st_get_params (q_statement q) = p.
(** What is found out from runs of a forger that share a question. *)
Definition gives_away {E : env} (p : params E) (g : forger E) : Prop :=
  exists q runs, over p q /\ fork fst right_answer (S (N.to_nat (get_m p))) g q runs /\
    match extract p (map (fun run => (fst run, snd (snd run))) runs) with
    | Witnessed (l, r, r1) => relation (q_statement q) l r r1
    | Broken cs => is_relation (get_CommitmentG p) (get_CommitmentH p) cs
    end.

(** The bytes that a forger gets in a real run: the challenges of the transcripts in question. *)
Fixpoint real_answers {E : env} (g : forger E) : list bytes :=
  match g with
  | Stop _ => []
  | Ask q next =>
      let a := prf E (fs_transcript (q_transcript q) (q_statement q) (q_message q)) (b_ "xi") 64 in
      a :: real_answers (next a)
  end.

(** The forger may repeat a question and then gets independent answers, which only helps it; a forger who wants to submit a proof for
    something it has not asked can ask first. *)

(** * Proofs *)
Lemma pts_eq_dec {E : env} (L : env_laws E) (l l' : list (pt E)) : {l = l'} + {l <> l'}.
Proof. apply list_eq_dec. exact (pt_eq_dec L). Qed.
Lemma right_answer_dec {E : env} (L : env_laws E) (q : question E) xi o : right_answer q xi o \/ ~ right_answer q xi o.
Proof.
  unfold right_answer. set (pf := snd o). cbv zeta.
  destruct (answers_dec L (q_statement q) (fun _ => pf) xi) as [H|H]; [|right; intros (_ & H1 & H2); apply H; split; assumption].
  unfold same_first_message. destruct H as [H1 H2].
  destruct (pt_eq_dec L (pf_A (q_message q)) (pf_A pf)) as [E1|E1]; [|right; tauto]. destruct (pt_eq_dec L (pf_B (q_message q)) (pf_B pf)) as [E2|E2]; [|right; tauto].
  destruct (pt_eq_dec L (pf_C (q_message q)) (pf_C pf)) as [E3|E3]; [|right; tauto]. destruct (pt_eq_dec L (pf_D (q_message q)) (pf_D pf)) as [E4|E4]; [|right; tauto].
  destruct (pts_eq_dec L (pf_X (q_message q)) (pf_X pf)) as [E5|E5]; [|right; tauto]. destruct (pts_eq_dec L (pf_X1 (q_message q)) (pf_X1 pf)) as [E7|E7]; [|right; tauto].
  destruct (pts_eq_dec L (pf_Y (q_message q)) (pf_Y pf)) as [E6|E6]; [|right; tauto].
  left. split; [auto 10|]. split; assumption.
Qed.
Lemma fork_extracts {E : env} (L : env_laws E) (p : params E) (g : forger E) q runs : over p q ->
  fork fst right_answer (S (N.to_nat (get_m p))) g q runs ->
  match extract p (map (fun run => (fst run, snd (snd run))) runs) with
  | Witnessed (l, r, r1) => relation (q_statement q) l r r1
  | Broken cs => is_relation (get_CommitmentG p) (get_CommitmentH p) cs
  end.
Proof.
  intros [Hst <-] (H1 & H2 & prefix & H3).
  apply (extract_sound L (q_statement q) (map (fun run => (fst run, snd (snd run))) runs) (q_message q) (made_statement_good L _ Hst)).
  - rewrite map_length. exact H1.
  - rewrite map_map. exact H2.
  - intros xi pf Hin. apply in_map_iff in Hin. destruct Hin as ([x [i pf']] & He & Hx). injection He as <- <-.
    destruct (H3 _ _ Hx) as (a & rest & _ & _ & _ & _ & Hg & Hw & He). cbn [snd] in *. split; [exact Hg|]. split; [exact Hw|exact He].
Qed.

(** ** C121: of the sequences of [n] random answers, a forger who asks for (at most) [n] challenges wins on a fraction of at most
    [n * m / 2^252], unless [m + 1] of its winning runs, which share a question and differ in the answer to it, give away a position and
    two keys for the statement in question (or a relation between the commitment generators). *)
Theorem C121_forger :
  forall (E : env), env_laws E -> forall (p : params E) (n : nat) (g : forger E), all_questions (over p) g ->
    exists c, has_card (fun answers => answers_of n answers /\ wins fst right_answer g answers) c /\
      ((c * 2 ^ 252 <= N.of_nat n * get_m p * (2 ^ 512) ^ N.of_nat n)%N \/ gives_away p g).
Proof.
  intros E L p n g Hq. destruct (game_bound fst right_answer (right_answer_dec L) (over p) (N.to_nat (get_m p)) n g Hq) as (c & Hc & H). exists c. split; [exact Hc|].
  destruct H as [H|(q & runs & Hov & Hf)]; [left|right; exists q, runs; split; [exact Hov|]; split; [exact Hf|exact (fork_extracts L p g q runs Hov Hf)]].
  rewrite N2Nat.id in H. pose proof per_scalar_le as Hle. assert (H0 : (2 ^ 512 <> 0)%N) by discriminate.
  revert H Hle H0. generalize (N.of_nat n * get_m p)%N. generalize ((2 ^ 512) ^ N.of_nat n)%N. generalize per_scalar. generalize (2 ^ 512)%N. generalize (2 ^ 252)%N.
  intros b a w t nm H Hle H0. apply (N.mul_le_mono_pos_r _ _ a); [lia|].
  transitivity (nm * w * t * b)%N; [replace (c * b * a)%N with (c * a * b)%N by ring; apply N.mul_le_mono_r; exact H|].
  replace (nm * w * t * b)%N with (nm * t * (w * b))%N by ring. apply N.mul_le_mono_l. exact Hle.
Qed.
Print Assumptions C121_forger.

(** For false statements only a relation remains. *)
Theorem C121_false_statements :
  forall (E : env), env_laws E -> forall (p : params E) (n : nat) (g : forger E),
    all_questions (fun q => over p q /\ forall l r r1, ~ relation (q_statement q) l r r1) g ->
    exists c, has_card (fun answers => answers_of n answers /\ wins fst right_answer g answers) c /\
      ((c * 2 ^ 252 <= N.of_nat n * get_m p * (2 ^ 512) ^ N.of_nat n)%N \/
       exists q runs cs, fork fst right_answer (S (N.to_nat (get_m p))) g q runs /\
         extract p (map (fun run => (fst run, snd (snd run))) runs) = Broken cs /\ is_relation (get_CommitmentG p) (get_CommitmentH p) cs).
Proof.
  intros E L p n g Hq. assert (Hq' : all_questions (over p) g).
  { clear - Hq. induction g as [o|q next IH]; [exact I|]. destruct Hq as [[H1 _] H2]. split; [exact H1|]. intros a. apply IH. apply H2. }
  destruct (C121_forger E L p n g Hq') as (c & Hc & [H|(q & runs & Hov & Hf & He)]); exists c; (split; [exact Hc|]); [left; exact H|right].
  assert (Hno : forall l r r1, ~ relation (q_statement q) l r r1).
  { destruct Hf as (H1 & _ & prefix & H3). destruct runs as [|[xi o] runs]; [discriminate|]. destruct (H3 xi o (or_introl eq_refl)) as (a & rest & _ & _ & _ & Hn & _).
    pose proof (play_questions _ g Hq (prefix ++ a :: rest)) as Hall. rewrite Forall_forall in Hall. apply nth_error_In in Hn. exact (proj2 (Hall _ Hn)). }
  destruct (extract p _) as [[[l r] r1]|cs] eqn:Hx; [destruct (Hno l r r1 He)|]. exists q, runs, cs. split; [exact Hf|]. split; [exact Hx|exact He].
Qed.
Print Assumptions C121_false_statements.

(** A run of the forger against the hash function is one of these games: if the proof it ends with is valid for the transcript and the
    statement of a question it asked, with the first message in question, then it wins on the answers that the transcripts gave. *)
Theorem C121_real_run :
  forall (E : env), env_laws E -> forall (g : forger E) extra i pf q a,
    snd (play g (real_answers g ++ extra)) = Some (i, pf) ->
    nth_error (fst (play g (real_answers g ++ extra))) i = Some (q, a) ->
    same_first_message (q_message q) pf -> valid_proof (q_transcript q) (q_statement q) pf ->
    a = prf E (fs_transcript (q_transcript q) (q_statement q) pf) (b_ "xi") 64 /\
    wins fst right_answer g (real_answers g ++ extra) /\ answers_of (length (real_answers g)) (real_answers g).
Proof.
  intros E L g extra i pf q a Ho Hn Hsame Hv.
  assert (Hfs : fs_transcript (q_transcript q) (q_statement q) (q_message q) = fs_transcript (q_transcript q) (q_statement q) pf).
  { unfold fs_transcript. destruct Hsame as (-> & -> & -> & -> & -> & -> & ->). reflexivity. }
  assert (Ha : a = prf E (fs_transcript (q_transcript q) (q_statement q) (q_message q)) (b_ "xi") 64).
  { clear - Hn. revert i Hn. induction g as [o|q' next IH]; intros i Hn; [destruct i; discriminate|]. cbn [real_answers app] in Hn.
    rewrite (proj1 (play_cons q' next _ _)) in Hn. destruct i as [|i]; [injection Hn as <- <-; reflexivity|]. exact (IH _ i Hn). }
  split; [rewrite Ha, Hfs; reflexivity|]. split.
  - exists (i, pf), q, a. split; [exact Ho|]. split; [exact Hn|]. destruct Hv as (V1 & V2 & _ & V3). split; [exact Hsame|]. split; [exact V1|].
    rewrite Ha, Hfs. exact V3.
  - split; [reflexivity|]. clear - L. induction g as [o|q next IH]; [constructor|]. cbn [real_answers]. constructor; [apply (prf_length E L)|apply IH].
Qed.
Print Assumptions C121_real_run.

(** One question answered by [answer]. *)
Definition asks_once {E : env} (t : transcript) (st : statement E) (answer : scalar -> proof E) : forger E :=
  Ask (mk_question t st (answer s0)) (fun a => Stop (0%nat, answer (scalar_from_wide a))).
Lemma asks_once_wins {E : env} t (st : statement E) answer a rest : one_message answer ->
  wins fst right_answer (asks_once t st answer) (a :: rest) <-> answers st answer (scalar_from_wide a).
Proof.
  intros Hone. unfold wins, asks_once, answers. cbn [play fst snd]. split.
  - intros (o & q & a' & H1 & H2 & H3). injection H1 as <-. cbn [fst nth_error] in H2. injection H2 as <- <-. destruct H3 as (_ & H3 & H4). split; assumption.
  - intros [H1 H2]. eexists _, _, _. split; [reflexivity|]. cbn [fst nth_error]. split; [reflexivity|]. split; [apply Hone|]. split; assumption.
Qed.
(** The bound is of the right size: for a statement that is false because it carries the identity as its tag, somebody with keys in the
    ring who asks once wins on at least [m / l] of the answers, rounded down as the number of answers for each scalar is. *)
Theorem C121_bound_is_reached :
  forall (E : env), env_laws E -> forall (st : statement E) l r r1 M1_l t, made_statement st -> st_get_J st = pid E ->
    nth_error (get_keys (st_get_input_set st)) (N.to_nat l) = Some (pmul E r (get_G (st_get_params st))) ->
    nth_error (get_auxiliary_keys (st_get_input_set st)) (N.to_nat l) = Some M1_l ->
    psub M1_l (st_get_offset st) = pmul E r1 (get_G1 (st_get_params st)) ->
    exists answer c, one_message answer /\ all_questions (over (st_get_params st)) (asks_once t st answer) /\
      has_card (fun answers => answers_of 1 answers /\ wins fst right_answer (asks_once t st answer) answers) c /\
      (get_m (st_get_params st) * (2 ^ 512 / order) <= c)%N.
Proof.
  intros E L st l r r1 M1_l t Hst HJ Hk Hk1 Ho. set (m := get_m (st_get_params st)) in *.
  assert (Hm : (m <= order)%N).
  { pose proof (good_m_u32 _ (gs_params _ (made_statement_good L st Hst))) as Hm. change (p_m (st_params st)) with m in Hm.
    assert (Hb : (u32_bound <= order)%N) by (vm_compute; discriminate). revert Hb. generalize order. intros. lia. }
  assert (Hxs : exists xs : list scalar, NoDup xs /\ length xs = N.to_nat m).
  { destruct (CountWeights.card_list _ _ card_scalars) as (all & Hnd & Hlen & _). exists (firstn (N.to_nat m) all).
    split; [rewrite <- (firstn_skipn (N.to_nat m) all) in Hnd; exact (NoDup_front _ _ Hnd)|]. rewrite firstn_length. apply Nat.min_l.
    revert Hlen Hm. generalize order. intros o <- Hm. lia. }
  destruct Hxs as (xs & Hnd & Hlen). destruct (C113_bound_is_reached E L st l r r1 M1_l xs Hst HJ Hk Hk1 Ho Hlen) as (answer & Hone & Hans).
  destruct (card_sub_or [] (answers_of 1) (wins fst right_answer (asks_once t st answer)) _ (wins_dec fst right_answer (right_answer_dec L) _) (card_answers 1)) as (c & Hc).
  exists answer, c. split; [exact Hone|]. split; [|split; [exact Hc|]].
  - split; [split; [exact Hst|reflexivity]|]. intros a. exact I.
  - destruct (many_answers xs Hnd) as (ws & N1 & H1 & H2). rewrite Hlen, N2Nat.id in H2. etransitivity; [exact H2|].
    rewrite <- (map_length (fun a => [a])). apply (card_at_most _ c Hc).
    + clear - N1. induction N1 as [|a ws Ha N1 IH]; [constructor|]. cbn [map]. constructor; [|exact IH]. intros Hi. apply in_map_iff in Hi.
      destruct Hi as (b & He & Hb). injection He as ->. exact (Ha Hb).
    + apply Forall_forall. intros x Hx. apply in_map_iff in Hx. destruct Hx as (a & <- & Ha). destruct (H1 a Ha) as [Hl Hi].
      split; [split; [reflexivity|constructor; [exact Hl|constructor]]|]. apply (asks_once_wins t st answer a [] Hone). exact (Hans _ Hi).
Qed.
Print Assumptions C121_bound_is_reached.

(** The honest prover, seen as a forger, wins on all answers and gives away its key; and a forger for a false statement. *)
Example C121_example :
  (exists (g : forger E0), all_questions (over (st_get_params (x_statement P0 T0 2))) g /\ (forall a rest, wins fst right_answer g (a :: rest)) /\
     gives_away (st_get_params (x_statement P0 T0 2)) g) /\
  (exists (st : statement E0) l r r1 M1_l, made_statement st /\ (forall l r r1, ~ relation st l r r1) /\ st_get_J st = pid E0 /\
     nth_error (get_keys (st_get_input_set st)) (N.to_nat l) = Some (pmul E0 r (get_G (st_get_params st))) /\
     nth_error (get_auxiliary_keys (st_get_input_set st)) (N.to_nat l) = Some M1_l /\
     psub M1_l (st_get_offset st) = pmul E0 r1 (get_G1 (st_get_params st))).
Proof.
  split.
  - set (st := x_statement P0 T0 2). set (answer := fun xi => honest_proof st 2 x_r x_r1 x_coins xi).
    assert (Hone : one_message answer) by (intros xi xi'; apply honest_same_first).
    assert (Hans : forall xi, answers st answer xi).
    { intros xi. split; [exact (honest_well_shaped st 2 x_r x_r1 x_coins xi)|]. apply (honest_equations L0 st 2 x_r x_r1 x_coins xi).
      + apply (made_statement_good L0). apply x_statement_made.
      + apply (x_relation P0 T0 2). lia.
      + apply (prover_coins_good (E := E0)). }
    assert (Hov : all_questions (over (st_get_params st)) (asks_once (x_transcript 1) st answer)).
    { split; [split; [apply x_statement_made|reflexivity]|]. intros a. exact I. }
    exists (asks_once (x_transcript 1) st answer). split; [exact Hov|].
    split; [intros a rest; apply asks_once_wins; [exact Hone|apply Hans]|].
    destruct (C121_forger E0 L0 _ 1 _ Hov) as (c & Hc & [H|H]); [exfalso|exact H].
    assert (Hall : ((2 ^ 512) ^ N.of_nat 1 <= c)%N).
    { apply (at_most_card (answers_of 1) c _ (card_answers 1)). apply (at_most_sub _ (fun a => answers_of 1 a /\ wins fst right_answer (asks_once (x_transcript 1) st answer) a)); [|apply card_at_most; exact Hc].
      intros [|a [|b rest]] (Hl & Hf); try discriminate. split; [split; assumption|]. apply asks_once_wins; [exact Hone|apply Hans]. }
    change (get_m (st_get_params st)) with 2%N in H. revert H Hall. change (N.of_nat 1) with 1%N. rewrite N.pow_1_r.
    assert (Hbig : (2 < 2 ^ 252)%N) by reflexivity. revert Hbig. assert (H0 : (0 < 2 ^ 512)%N) by reflexivity. revert H0.
    generalize (2 ^ 252)%N (2 ^ 512)%N. intros u v H0 Hbig H Hall. nia.
  - destruct (with_other_tag L0 (x_params P0 T0) (x_set P0 T0 2) (x_offset P0 T0) (x_offset P0 T0) (x_J P0 T0) (pid E0) _ (x_params_made P0 T0) (x_set_made P0 T0 2) (x_ring1_no_offset P0 T0 2) (x_statement_new P0 T0 2))
      as (st & Hm & _ & Hp & Hs & HO & HJ).
    assert (Hk : nth_error (get_keys (st_get_input_set st)) (N.to_nat 2) = Some (pmul E0 x_r (get_G (st_get_params st)))).
    { rewrite Hp, Hs. exact (proj1 (x_relation P0 T0 2 ltac:(lia))). }
    destruct (proj1 (proj2 (x_relation P0 T0 2 ltac:(lia)))) as (M1_l & Hk1 & Ho).
    change (nth_error (get_auxiliary_keys (x_set P0 T0 2)) (N.to_nat 2) = Some M1_l) in Hk1. rewrite <- Hs in Hk1.
    change (psub M1_l (x_offset P0 T0) = pmul E0 x_r1 (get_G1 (x_params P0 T0))) in Ho. rewrite <- HO, <- Hp in Ho.
    exists st, 2%N, x_r, x_r1, M1_l. split; [exact Hm|]. split; [|split; [exact HJ|split; [exact Hk|split; [exact Hk1|exact Ho]]]].
    apply (C85_identity_tag_unprovable E0 L0 st Hm HJ). rewrite Hp. scalars_differ.
Qed.
