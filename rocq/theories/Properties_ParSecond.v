(** Property C139, parallel protocol: finding another statement with the hash of a given one takes about [2 ^ 254] questions. *)
From Verif Require Import ParSpecSound ParSpecSecond Repeats ParFacts ParCompleteness ParBinding ParProverApi ParVerifierApi ParExamples Properties_ParBinding Properties_ParCollide.
From Verif Require Import CountWeights Algebra.

Section OneEnv.
Context {E : env} (L : env_laws E).

Lemma hash_found_run {O} (g : second_searcher E) (next : description E -> bytes -> game transcript O) : forall table answers o table',
  run transcript_dec table (hash_found g next) answers = Some (o, table') ->
  exists d' hp hi h table1 answers1, lookup transcript_dec table' (query_of_params (d_params d')) = Some hp /\
    lookup transcript_dec table' (input_set_query (d_keys d') (d_auxiliary_keys d') (d_unpadded d')) = Some hi /\
    lookup transcript_dec table' (statement_query hp hi (d_offset d') (d_J d')) = Some h /\
    run transcript_dec table1 (next d' h) answers1 = Some (o, table').
Proof.
  induction g as [d'|q rest IH]; intros table answers o table' H; cbn [hash_found] in H.
  - apply ask_hash_run in H. exists d'. exact H.
  - apply run_ask in H. destruct H as (a & t1 & a1 & _ & H). exact (IH a _ _ _ _ H).
Qed.
(** The outputs of a game satisfy what all outputs of the searcher satisfy. *)
Lemma second_outputs (F : description E -> Prop) d (g : second_searcher E) : all_outputs F g -> all_outputs (fun o => F (fst o)) (second_game d g).
Proof.
  intros H p i h. revert H. induction g as [d'|q rest IH]; cbn; [intros H _ _ h'; exact H|]. intros H a. apply IH. apply H.
Qed.

(** The given description is hashed first, by at most three answers. *)
Lemma run_step {Q O} (eqd : forall q q' : Q, {q = q'} + {q <> q'}) base answers0 q (next : bytes -> game Q O) answers r :
  map snd base = rev answers0 -> run eqd base (Ask q next) answers = Some r ->
  exists base' answers0' a rest, map snd base' = rev answers0' /\ answers0' ++ rest = answers0 ++ answers /\ (length answers0' <= S (length answers0))%nat /\
    lookup eqd base' q = Some a /\ (forall q' b, lookup eqd base q' = Some b -> lookup eqd base' q' = Some b) /\ run eqd base' (next a) rest = Some r.
Proof.
  intros Hb H. cbn [run] in H. destruct (lookup eqd base q) as [a|] eqn:Hq.
  - exists base, answers0, a, answers. repeat split; auto.
  - destruct answers as [|a rest]; [discriminate|]. exists ((q, a) :: base), (answers0 ++ [a]), a, rest. split; [cbn [map snd]; rewrite Hb, rev_app_distr; reflexivity|].
    split; [rewrite <- app_assoc; reflexivity|]. split; [rewrite app_length; cbn; lia|]. split; [cbn [lookup]; destruct (eqd q q); congruence|].
    split; [|exact H]. intros q' b Hq'. cbn [lookup]. destruct (eqd q q'); congruence.
Qed.

Lemma second_is_repeat d (g : second_searcher E) answers : sound d -> all_outputs sound g -> finds_second transcript_dec d g answers -> early_repeat 3 answers.
Proof.
  intros [M1 K1] Hs (d' & h & table & H & Hne). pose proof (run_output _ _ _ _ _ _ _ (second_outputs _ d _ Hs) H) as [M2 K2]. cbn [fst] in M2, K2.
  unfold second_game, ask_hash in H.
  destruct (run_step transcript_dec [] [] _ _ _ _ eq_refl H) as (b1 & n1 & hp & r1 & B1 & R1 & L1 & Q1 & _ & H1). clear H.
  destruct (run_step transcript_dec b1 n1 _ _ _ _ B1 H1) as (b2 & n2 & hi & r2 & B2 & R2 & L2 & Q2 & X2 & H2). clear H1.
  destruct (run_step transcript_dec b2 n2 _ _ _ _ B2 H2) as (b3 & n3 & h3 & r3 & B3 & R3 & L3 & Q3 & X3 & H3). clear H2.
  rewrite R2 in R3. rewrite R1 in R3. cbn [app length] in *. assert (Hl : (length n3 <= 3)%nat) by lia.
  rewrite <- R3.
  assert (Hc : forall q q' a, lookup transcript_dec b3 q = Some a -> lookup transcript_dec table q' = Some a -> q = q' \/ early_repeat 3 (n3 ++ r3)).
  { intros q q' a Ha Hb. destruct (transcript_dec q q') as [He|Hq]; [left; exact He|right]. exact (run_early transcript_dec _ _ _ _ _ _ q q' a 3 B3 Hl H3 Ha Hb Hq). }
  destruct (hash_found_run g _ _ _ _ _ H3) as (d1 & hp' & hi' & h' & t' & a' & P1 & P2 & P3 & H4). cbn [run] in H4. injection H4 as E1 E2 E3 _. subst d1 h3 h'.
  destruct (Hc _ _ _ Q3 P3) as [Hst|Hr]; [|exact Hr]. apply (statement_query_inj L) in Hst. destruct Hst as (<- & <- & HO & HJ).
  destruct (Hc _ _ _ (X3 _ _ (X2 _ _ Q1)) P1) as [Hp|Hr]; [|exact Hr]. destruct (Hc _ _ _ (X3 _ _ Q2) P2) as [Hi|Hr]; [|exact Hr].
  apply (input_set_query_inj L) in Hi; [|assumption|assumption]. destruct Hi as (HM & HM1 & Hk).
  assert (Hpp : d_params d = d_params d').
  { destruct (params_hash_binding L _ _ M1 M2) as [Hpe|[Hpc _]]; [|exact Hpe|destruct (Hpc Hp)].
    rewrite (made_params_hash _ M1), (made_params_hash _ M2), Hp. reflexivity. }
  exfalso. apply Hne. destruct d, d'. cbn in *. congruence.
Qed.
Lemma finds_second_dec d (g : second_searcher E) answers : finds_second transcript_dec d g answers \/ ~ finds_second transcript_dec d g answers.
Proof.
  unfold finds_second. destruct (run transcript_dec [] (second_game d g) answers) as [[[d' [h h']] table]|].
  - destruct (bytes_eq_dec h h') as [->|Hh].
    + destruct (description_dec L d' d) as [->|Hd].
      * right. intros (d1 & h1 & t & H & Hne). injection H as <- _ _. exact (Hne eq_refl).
      * left. exists d', h', table. split; [reflexivity|exact Hd].
    + right. intros (d1 & h1 & t & H & _). injection H as _ H1 H2 _. congruence.
  - right. intros (d1 & h1 & t & H & _). discriminate.
Qed.
End OneEnv.

(** ** Against a random oracle, [n] questions in all succeed on a fraction of at most [3 * (n - 1) / 2 ^ 256] of all sequences of answers. *)
Theorem C139_second_preimages_are_rare :
  forall (E : env), env_laws E -> forall (d : description E) (g : second_searcher E) (n : nat), sound d -> all_outputs sound g ->
    exists c, has_card (fun answers => answers_of_size 32 n answers /\ finds_second transcript_dec d g answers) c /\
      (c * 2 ^ 256 <= 3 * (N.of_nat n - 1) * (2 ^ 256) ^ N.of_nat n)%N.
Proof.
  intros E L d g n Hd Hs. assert (Hp : (2 ^ 256 = 256 ^ N.of_nat 32)%N) by reflexivity. rewrite Hp.
  exact (early_bound (finds_second transcript_dec d g) 3 32 n (finds_second_dec L d g) (fun as_ => second_is_repeat L d g as_ Hd Hs)).
Qed.
Print Assumptions C139_second_preimages_are_rare.

(** With up to [2 ^ 128] questions the fraction is at most [2 ^ - 126]. *)
Theorem C139_in_numbers :
  forall (E : env), env_laws E -> forall (d : description E) (g : second_searcher E) (n : nat), (N.of_nat n <= 2 ^ 128)%N ->
    sound d -> all_outputs sound g ->
    exists c, has_card (fun answers => answers_of_size 32 n answers /\ finds_second transcript_dec d g answers) c /\ (c * 2 ^ 126 <= (2 ^ 256) ^ N.of_nat n)%N.
Proof.
  intros E L d g n Hn Hd Hs. destruct (C139_second_preimages_are_rare E L d g n Hd Hs) as (c & Hc & Hle). exists c. split; [exact Hc|].
  assert (Hq : (3 * (N.of_nat n - 1) <= 2 ^ 130)%N).
  { change (2 ^ 130)%N with (4 * 2 ^ 128)%N. apply N.mul_le_mono; [discriminate|]. etransitivity; [apply N.le_sub_l|exact Hn]. }
  assert (Hle2 : (c * 2 ^ 126 * 2 ^ 130 <= (2 ^ 256) ^ N.of_nat n * 2 ^ 130)%N); [|apply N.mul_le_mono_pos_r in Hle2; [exact Hle2|reflexivity]].
  clear Hc. revert Hle Hq. generalize ((2 ^ 256) ^ N.of_nat n)%N. generalize (3 * (N.of_nat n - 1))%N. intros q t Hle Hq.
  replace (c * 2 ^ 126 * 2 ^ 130)%N with (c * 2 ^ 256)%N by (rewrite <- !N.mul_assoc; reflexivity).
  etransitivity; [exact Hle|]. rewrite (N.mul_comm t). apply N.mul_le_mono_r. exact Hq.
Qed.
Print Assumptions C139_in_numbers.

(** A searcher confronted with the hash function that ends with another description with the same hash has played this game, with at most
    six questions more, and succeeded.  For a statement made through the API: its description is the given one. *)
Theorem C139_real_run :
  forall (E : env), env_laws E -> forall (st st' : statement E) (d d' : description E) (g : second_searcher E), made_statement st -> made_statement st' ->
    describes d st -> describes d' st' -> run_against (hash_of (E := E)) g = d' -> st_get_hash st' = st_get_hash st -> d' <> d ->
    exists answers, (length answers <= asked (hash_of (E := E)) g + 6)%nat /\ Forall (fun a => length a = 32%nat) answers /\
      forall extra, finds_second transcript_dec d g (answers ++ extra).
Proof.
  intros E L st st' d d' g Hm Hm' (_ & _ & _ & _ & _ & _ & D) (_ & _ & _ & _ & _ & _ & D') Hg Hh Hne. rewrite <- D, <- D' in Hh.
  destruct (run_against_run transcript_dec (hash_of (E := E)) 32 (second_game d g) (fun q => prf_length E L q _ _) []) as (answers & table & H1 & H2 & H3 & _).
  { intros q a H. discriminate. }
  assert (Ho : run_against (hash_of (E := E)) (second_game d g) = (d', (hash_of_description d, hash_of_description d')) /\
    asked (hash_of (E := E)) (second_game d g) = (asked (hash_of (E := E)) g + 6)%nat).
  { unfold second_game, ask_hash. cbn [run_against asked]. fold (hash_of_description d). generalize (hash_of_description d). clear - Hg. intros h.
    induction g as [d1|q rest IH]; cbn [run_against hash_found asked ask_hash] in *.
    - subst d1. split; reflexivity.
    - destruct (IH _ Hg) as [I1 I2]. split; [exact I1|]. lia. }
  destruct Ho as [Ho Ha]. exists answers. split; [rewrite <- Ha; exact H2|]. split; [exact H1|]. intros extra.
  exists d', (hash_of_description d'), table. split; [|exact Hne]. rewrite (H3 extra), Ho, Hh. reflexivity.
Qed.
Print Assumptions C139_real_run.

(** Statements that differ in what the API shows of them have different descriptions. *)
Theorem C139_different_statements :
  forall (E : env), env_laws E -> forall (st st' : statement E) (d d' : description E), describes d st -> describes d' st' ->
    st_get_params st <> st_get_params st' \/ get_keys (st_get_input_set st) <> get_keys (st_get_input_set st') \/
    get_auxiliary_keys (st_get_input_set st) <> get_auxiliary_keys (st_get_input_set st') \/ st_get_offset st <> st_get_offset st' \/ st_get_J st <> st_get_J st' -> d' <> d.
Proof.
  intros E L st st' d d' (D1 & D2 & D21 & DO & D3 & _) (D1' & D2' & D21' & DO' & D3' & _) H ->. destruct H as [H|[H|[H|[H|H]]]]; apply H; congruence.
Qed.
Print Assumptions C139_different_statements.

(** ** A searcher who makes no effort can be lucky. *)
Example C139_example :
  let d := x_described (x_J P0 T0) in let g : second_searcher E0 := Stop (x_described s1) in
  env_laws E0 /\ sound d /\ all_outputs sound g /\
  (exists answers, answers_of_size 32 6 answers /\ finds_second transcript_dec d g answers) /\
  (exists answers, answers_of_size 32 6 answers /\ ~ finds_second transcript_dec d g answers).
Proof.
  intros d g. assert (Hd : sound d) by (split; [exact (x_params_made P0 T0)|reflexivity]).
  assert (Hs : all_outputs sound g) by (split; [exact (x_params_made P0 T0)|reflexivity]).
  split; [exact L0|]. split; [exact Hd|]. split; [exact Hs|]. split.
  - destruct (run_against_run transcript_dec (fun _ => repeat x07 32) 32 (second_game d g) (fun q => repeat_length _ _) []) as (answers & table & H1 & H2 & H3 & _).
    { intros q a H. discriminate. }
    exists (answers ++ repeat (repeat x00 32) (6 - length answers)). split.
    + change (asked (fun _ : transcript => repeat x07 32) (second_game d g)) with 6%nat in H2. split.
      * rewrite app_length, repeat_length. lia.
      * apply Forall_app. split; [exact H1|]. apply Forall_forall. intros a Ha. apply repeat_spec in Ha. subst a. apply repeat_length.
    + eexists _, _, _. split; [apply H3|]. intros He. apply (f_equal (fun d : description E0 => sval (d_J d))) in He. change (sval s1 = sval (x_J P0 T0)) in He. vm_compute in He. discriminate.
  - exists (map (fun i => le_bytes 32 (N.of_nat i)) (seq 0 6)). split.
    + split; [reflexivity|]. apply Forall_forall. intros a Ha. apply in_map_iff in Ha. destruct Ha as (i & <- & _). apply le_bytes_length.
    + intros H. apply (second_is_repeat L0 d g _ Hd Hs) in H. revert H. vm_compute. intuition discriminate.
Qed.
Print Assumptions C139_example.
