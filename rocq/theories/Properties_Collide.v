(** Property C136: finding two statements with the same hash takes about [2 ^ 128] questions. *)
From Verif Require Import SpecPlainSound SpecCollide PlainFacts Completeness Binding ProverApi VerifierApi Examples Properties_Binding.
From Verif Require Import CountWeights Algebra.

Section OneEnv.
Context {E : env} (L : env_laws E).

Lemma point_dec (P Q : pt E) : {P = Q} + {P <> Q}.
Proof. destruct (peqb E P Q) eqn:He; [left; apply (peqb_eq E L); exact He|right; intros H; apply (peqb_eq E L) in H; congruence]. Qed.
Lemma description_dec (d d' : description E) : d = d' \/ d <> d'.
Proof.
  destruct d as [p M k J], d' as [p' M' k' J']. destruct (params_dec L p p') as [->|H]; [|right; congruence].
  destruct (list_eq_dec point_dec M M') as [->|H]; [|right; congruence].
  destruct (N.eq_dec k k') as [->|H]; [|right; congruence].
  destruct (point_dec J J') as [->|H]; [left; reflexivity|right; congruence].
Qed.

Lemma ask_hash_run {O} (d : description E) (next : bytes -> game transcript O) table answers o table' :
  run transcript_dec table (ask_hash d next) answers = Some (o, table') ->
  exists hp hi h table1 answers1, lookup transcript_dec table' (query_of_params (d_params d)) = Some hp /\
    lookup transcript_dec table' (input_set_query (d_keys d) (d_unpadded d)) = Some hi /\
    lookup transcript_dec table' (statement_query hp hi (d_J d)) = Some h /\
    run transcript_dec table1 (next h) answers1 = Some (o, table').
Proof.
  intros H. unfold ask_hash in H. apply run_ask in H. destruct H as (hp & t1 & a1 & H1 & H). apply run_ask in H. destruct H as (hi & t2 & a2 & H2 & H).
  apply run_ask in H. destruct H as (h & t3 & a3 & H3 & H). exists hp, hi, h, t3, a3. auto.
Qed.
Lemma hash_both_run (g : searcher E) : forall table answers d d' h h' table',
  run transcript_dec table (hash_both g) answers = Some (((d, d'), (h, h')), table') ->
  exists hp hi hp' hi', lookup transcript_dec table' (query_of_params (d_params d)) = Some hp /\
    lookup transcript_dec table' (input_set_query (d_keys d) (d_unpadded d)) = Some hi /\
    lookup transcript_dec table' (statement_query hp hi (d_J d)) = Some h /\
    lookup transcript_dec table' (query_of_params (d_params d')) = Some hp' /\
    lookup transcript_dec table' (input_set_query (d_keys d') (d_unpadded d')) = Some hi' /\
    lookup transcript_dec table' (statement_query hp' hi' (d_J d')) = Some h'.
Proof.
  induction g as [[d1 d1']|q next IH]; intros table answers d d' h h' table' H; cbn [hash_both] in H.
  - apply ask_hash_run in H. destruct H as (hp & hi & h1 & t1 & a1 & H1 & H2 & H3 & H).
    apply ask_hash_run in H. destruct H as (hp' & hi' & h1' & t2 & a2 & H4 & H5 & H6 & H).
    cbn [run] in H. injection H as <- <- <- <- _. exists hp, hi, hp', hi'. auto 7.
  - apply run_ask in H. destruct H as (a & t1 & a1 & _ & H). exact (IH a _ _ _ _ _ _ _ H).
Qed.
Lemma hash_both_outputs (F : description E * description E -> Prop) (g : searcher E) : all_outputs F g -> all_outputs (fun o => F (fst o)) (hash_both g).
Proof. induction g as [[d d']|q next IH]; cbn; [auto|]. intros H a. apply IH. apply H. Qed.

Lemma success_is_collision (g : searcher E) answers : all_outputs (fun o => sound (fst o) /\ sound (snd o)) g -> succeeds transcript_dec g answers -> ~ NoDup answers.
Proof.
  intros Hs (d & d' & h & table & H & Hne) Hnd. pose proof (run_output _ _ _ _ _ _ _ (hash_both_outputs _ _ Hs) H) as [S1 S2]. cbn [fst snd] in S1, S2.
  destruct (hash_both_run g _ _ _ _ _ _ _ H) as (hp & hi & hp' & hi' & H1 & H2 & H3 & H4 & H5 & H6).
  assert (Hc : forall q q' a, lookup transcript_dec table q = Some a -> lookup transcript_dec table q' = Some a -> q = q').
  { intros q q' a Ha Hb. destruct (transcript_dec q q') as [He|Hq]; [exact He|]. destruct (run_collision transcript_dec _ _ _ _ q q' a H Ha Hb Hq Hnd). }
  pose proof (Hc _ _ _ H3 H6) as Hst. apply (statement_query_inj L) in Hst. destruct Hst as (<- & <- & HJ).
  pose proof (Hc _ _ _ H1 H4) as Hp. pose proof (Hc _ _ _ H2 H5) as Hi.
  destruct S1 as [M1 K1], S2 as [M2 K2]. apply (input_set_query_inj L) in Hi; [|assumption|assumption]. destruct Hi as [HM Hk].
  assert (Hpp : d_params d = d_params d').
  { destruct (params_hash_binding L _ _ M1 M2) as [Hpe|[Hpc _]]; [|exact Hpe|destruct (Hpc Hp)].
    rewrite (made_params_hash _ M1), (made_params_hash _ M2), Hp. reflexivity. }
  apply Hne. destruct d, d'. cbn in *. congruence.
Qed.
Lemma succeeds_dec (g : searcher E) answers : succeeds transcript_dec g answers \/ ~ succeeds transcript_dec g answers.
Proof.
  unfold succeeds. destruct (run transcript_dec [] (hash_both g) answers) as [[[[d d'] [h h']] table]|].
  - destruct (bytes_eq_dec h h') as [->|Hh].
    + destruct (description_dec d d') as [->|Hd].
      * right. intros (d1 & d2 & h1 & t & H & Hne). injection H as <- <- _ _ _. exact (Hne eq_refl).
      * left. exists d, d', h', table. split; [reflexivity|exact Hd].
    + right. intros (d1 & d2 & h1 & t & H & _). injection H as _ _ H1 H2 _. congruence.
  - right. intros (d1 & d2 & h1 & t & H & _). discriminate.
Qed.
End OneEnv.

(** ** Against a random oracle, [n] questions in all, the last six of which hash what was found, succeed on a fraction of at most
    [n * (n - 1) / 2 ^ 257] of all sequences of answers. *)
Theorem C136_collisions_are_rare :
  forall (E : env), env_laws E -> forall (g : searcher E) (n : nat), all_outputs (fun o => sound (fst o) /\ sound (snd o)) g ->
    exists c, has_card (fun answers => answers_of_size 32 n answers /\ succeeds transcript_dec g answers) c /\
      (2 * c * 2 ^ 256 <= N.of_nat n * (N.of_nat n - 1) * (2 ^ 256) ^ N.of_nat n)%N.
Proof.
  intros E L g n Hs. assert (Hp : (2 ^ 256 = 256 ^ N.of_nat 32)%N) by reflexivity. rewrite Hp.
  exact (birthday_bound (succeeds transcript_dec g) 32 n (succeeds_dec L g) (fun as_ => success_is_collision L g as_ Hs)).
Qed.
Print Assumptions C136_collisions_are_rare.

(** With up to [2 ^ 100] questions the fraction is at most [2 ^ - 57]. *)
Theorem C136_in_numbers :
  forall (E : env), env_laws E -> forall (g : searcher E) (n : nat), (N.of_nat n <= 2 ^ 100)%N ->
    all_outputs (fun o => sound (fst o) /\ sound (snd o)) g ->
    exists c, has_card (fun answers => answers_of_size 32 n answers /\ succeeds transcript_dec g answers) c /\ (c * 2 ^ 57 <= (2 ^ 256) ^ N.of_nat n)%N.
Proof.
  intros E L g n Hn Hs. destruct (C136_collisions_are_rare E L g n Hs) as (c & Hc & Hle). exists c. split; [exact Hc|].
  assert (Hq : (N.of_nat n * (N.of_nat n - 1) <= 2 ^ 200)%N).
  { change (2 ^ 200)%N with (2 ^ 100 * 2 ^ 100)%N. apply N.mul_le_mono; [exact Hn|]. etransitivity; [apply N.le_sub_l|exact Hn]. }
  assert (Hle2 : (c * 2 ^ 57 * 2 ^ 200 <= (2 ^ 256) ^ N.of_nat n * 2 ^ 200)%N); [|apply N.mul_le_mono_pos_r in Hle2; [exact Hle2|reflexivity]].
  clear Hc. revert Hle Hq. generalize ((2 ^ 256) ^ N.of_nat n)%N. generalize (N.of_nat n * (N.of_nat n - 1))%N. intros q t Hle Hq.
  replace (c * 2 ^ 57 * 2 ^ 200)%N with (2 * c * 2 ^ 256)%N by (rewrite <- !N.mul_assoc, (N.mul_comm 2), <- N.mul_assoc; reflexivity).
  etransitivity; [exact Hle|]. rewrite (N.mul_comm t). apply N.mul_le_mono_r. exact Hq.
Qed.
Print Assumptions C136_in_numbers.

(** A searcher confronted with the hash function that ends with two different descriptions with the same hash has played this game, with
    at most six questions more, and succeeded. *)
Theorem C136_real_run :
  forall (E : env), env_laws E -> forall (g : searcher E) d d',
    run_against (hash_of (E := E)) g = (d, d') -> d <> d' -> hash_of_description d = hash_of_description d' ->
    exists answers, (length answers <= asked (hash_of (E := E)) g + 6)%nat /\ Forall (fun a => length a = 32%nat) answers /\
      forall extra, succeeds transcript_dec g (answers ++ extra).
Proof.
  intros E L g d d' Hg Hne Hh.
  destruct (run_against_run transcript_dec (hash_of (E := E)) 32 (hash_both g) (fun q => prf_length E L q _ _) []) as (answers & table & H1 & H2 & H3 & _).
  { intros q a H. discriminate. }
  assert (Ho : run_against (hash_of (E := E)) (hash_both g) = ((d, d'), (hash_of_description d, hash_of_description d')) /\
    asked (hash_of (E := E)) (hash_both g) = (asked (hash_of (E := E)) g + 6)%nat).
  { clear - Hg. induction g as [[d1 d1']|q next IH]; cbn [run_against hash_both asked] in *.
    - injection Hg as -> ->. split; reflexivity.
    - destruct (IH _ Hg) as [I1 I2]. split; [exact I1|]. rewrite I2. reflexivity. }
  destruct Ho as [Ho Ha]. exists answers. split; [rewrite <- Ha; exact H2|]. split; [exact H1|]. intros extra.
  exists d, d', (hash_of_description d'), table. split; [|exact Hne]. rewrite (H3 extra), Ho, Hh. reflexivity.
Qed.
Print Assumptions C136_real_run.

(** ** Statements have descriptions, and each of the collisions that other properties leave open is a success. *)
Theorem C136_statements_described :
  forall (E : env), env_laws E -> forall st : statement E, made_statement st -> exists d, sound d /\ describes d st.
Proof.
  intros E L st Hm. destruct (made_statement_parts L st Hm) as [Hp Hi]. destruct (made_input_set_hash _ Hi) as (k & _ & Hk & Hh).
  exists (describe (st_get_params st) (get_keys (st_get_input_set st)) k (st_get_J st)). split; [split; [exact Hp|exact Hk]|].
  split; [reflexivity|]. split; [reflexivity|]. split; [reflexivity|]. split; [symmetry; exact Hh|]. unfold hash_of_description. cbn [d_params d_keys d_unpadded d_J].
  rewrite <- (made_params_hash _ Hp), <- Hh, (made_statement_hash L st Hm). reflexivity.
Qed.
Print Assumptions C136_statements_described.

Theorem C136_every_collision :
  forall (E : env), env_laws E -> forall st st' : statement E, made_statement st -> made_statement st' ->
    statements_collide st st' \/ params_collide (st_get_params st) (st_get_params st') \/
      input_sets_collide (st_get_input_set st) (st_get_input_set st') ->
    exists d d' : description E, sound d /\ sound d' /\ d <> d' /\ hash_of_description d = hash_of_description d'.
Proof.
  intros E L st st' Hm Hm' H. destruct (made_statement_parts L st Hm) as [Hp Hi], (made_statement_parts L st' Hm') as [Hp' Hi'].
  destruct H as [[Hne Hh]|[[Hne Hh]|(k & k' & K & K' & Hne & Hh)]].
  - destruct (C136_statements_described E L st Hm) as (d & Sd & D1 & D2 & D3 & D5 & D4).
    destruct (C136_statements_described E L st' Hm') as (d' & Sd' & D1' & D2' & D3' & D5' & D4').
    exists d, d'. split; [exact Sd|]. split; [exact Sd'|]. split.
    + intros <-. apply Hne. unfold query_of_statement. rewrite (made_params_hash _ Hp), (made_params_hash _ Hp'), <- D1, <- D1', <- D3, <- D3', <- D5, <- D5'. reflexivity.
    + rewrite D4, D4', (made_statement_hash L st Hm), (made_statement_hash L st' Hm'). exact Hh.
  - exists (describe (st_get_params st) [] 0 (st_get_J st)), (describe (st_get_params st') [] 0 (st_get_J st)).
    split; [split; [exact Hp|reflexivity]|]. split; [split; [exact Hp'|reflexivity]|]. split.
    + intros He. apply Hne. injection He as He. congruence.
    + unfold hash_of_description. cbn [d_params d_keys d_unpadded d_J]. rewrite Hh. reflexivity.
  - assert (Hu : forall s : statement E, made_statement s -> (N.of_nat (length (get_keys (st_get_input_set s))) < 2 ^ 32)%N).
    { intros s Hs. pose proof (made_statement_good L s Hs) as Hg. destruct (made_statement_parts L s Hs) as [Hps _].
      pose proof (gs_len s Hg) as Hl. rewrite (good_N _ (gs_params s Hg)) in Hl. pose proof (gp_pow _ (gs_params s Hg)) as Hpow.
      change u32_bound with (2 ^ 32)%N in Hpow. unfold get_keys, st_get_input_set. rewrite Hl. exact Hpow. }
    exists (describe (st_get_params st) (get_keys (st_get_input_set st)) k (st_get_J st)), (describe (st_get_params st) (get_keys (st_get_input_set st')) k' (st_get_J st)).
    split; [split; [exact Hp|cbn; specialize (Hu st Hm); lia]|]. split; [split; [exact Hp|cbn; specialize (Hu st' Hm'); lia]|]. split.
    + intros He. apply Hne. injection He as -> ->. reflexivity.
    + unfold hash_of_description. cbn [d_params d_keys d_unpadded d_J]. rewrite Hh. reflexivity.
Qed.
Print Assumptions C136_every_collision.

(** ** So what C55 and C56 say holds without exceptions of anyone who does not win this game. *)
Theorem C136_ring_bound :
  forall (E : env), env_laws E -> forall (st st' : statement E), made_statement st -> made_statement st' ->
    st_get_params st <> st_get_params st' \/
    (exists i, nth_error (get_keys (st_get_input_set st)) i <> nth_error (get_keys (st_get_input_set st')) i) \/
    st_get_J st <> st_get_J st' ->
    (forall t t' pf pf', fs_transcript t st pf <> fs_transcript t' st' pf') \/
    exists d d' : description E, sound d /\ sound d' /\ d <> d' /\ hash_of_description d = hash_of_description d'.
Proof.
  intros E L st st' Hm Hm' Hd. destruct (C55_ring_bound E L st st' Hm Hm' Hd) as [H|H]; [left; exact H|right].
  exact (C136_every_collision E L st st' Hm Hm' H).
Qed.
Print Assumptions C136_ring_bound.

Theorem C136_checked_against_own_statement :
  forall (E : env), env_laws E -> forall md (st0 : statement E) sts pfs ts ts',
    Forall made_statement (st0 :: sts) -> verify_batch_returns md (st0 :: sts) pfs ts (Ok tt) ts' ->
    (forall st, In st sts -> st_get_params st = st_get_params st0 /\ get_keys (st_get_input_set st) = get_keys (st_get_input_set st0)) \/
    exists d d' : description E, sound d /\ sound d' /\ d <> d' /\ hash_of_description d = hash_of_description d'.
Proof.
  intros E L md st0 sts pfs ts ts' Hm H. destruct (C56_checked_against_own_statement E L md st0 sts pfs ts ts' Hm H) as [Ha|(st & Hin & Hc)]; [left; exact Ha|right].
  inversion Hm as [|? ? Hm0 Hms]; subst. rewrite Forall_forall in Hms.
  exact (C136_every_collision E L st st0 (Hms st Hin) Hm0 (or_intror Hc)).
Qed.
Print Assumptions C136_checked_against_own_statement.

(** ** A searcher who makes no effort can be lucky. *)
Definition x_described (J : pt E0) : description E0 := describe (x_params P0 T0) (x_ring P0 T0 1) 4 J.
Example C136_example :
  let g : searcher E0 := Stop (x_described (x_J P0 T0), x_described s1) in
  env_laws E0 /\ all_outputs (fun o => sound (fst o) /\ sound (snd o)) g /\
  (exists answers, answers_of_size 32 6 answers /\ succeeds transcript_dec g answers) /\
  (exists answers, answers_of_size 32 6 answers /\ ~ succeeds transcript_dec g answers) /\
  made_statement (x_statement P0 T0 1).
Proof.
  intros g. assert (Hs : all_outputs (fun o : description E0 * description E0 => sound (fst o) /\ sound (snd o)) g).
  { split; split; try (exact (x_params_made P0 T0)); reflexivity. }
  split; [exact L0|]. split; [exact Hs|]. split; [|split].
  - destruct (run_against_run transcript_dec (fun _ => repeat x07 32) 32 (hash_both g) (fun q => repeat_length _ _) []) as (answers & table & H1 & H2 & H3 & _).
    { intros q a H. discriminate. }
    exists (answers ++ repeat (repeat x00 32) (6 - length answers)). split.
    + change (asked (fun _ : transcript => repeat x07 32) (hash_both g)) with 6%nat in H2. split.
      * rewrite app_length, repeat_length. lia.
      * apply Forall_app. split; [exact H1|]. apply Forall_forall. intros a Ha. apply repeat_spec in Ha. subst a. apply repeat_length.
    + eexists _, _, _, _. split; [apply H3|]. intros He. apply (f_equal (fun d : description E0 => sval (d_J d))) in He. change (sval (x_J P0 T0) = sval s1) in He. vm_compute in He. discriminate.
  - exists (map (fun i => le_bytes 32 (N.of_nat i)) (seq 0 6)). split.
    + split; [reflexivity|]. apply Forall_forall. intros a Ha. apply in_map_iff in Ha. destruct Ha as (i & <- & _). apply le_bytes_length.
    + intros H. apply (success_is_collision L0 g _ Hs H). vm_compute. repeat constructor; cbn; intuition discriminate.
  - exact (x_statement_made P0 T0 1).
Qed.
Print Assumptions C136_example.
