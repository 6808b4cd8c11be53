(** Properties C39 to C44: verification with blame. *)
From Verif Require Import SpecPlainSound PlainFacts ProverFacts VerifierFacts Completeness Verdict Search Blame Soundness ProverApi Binding
  VerifierApi Examples Properties_Verifier.
From Verif Require Import Algebra.
From Coq Require Import Sorting.Sorted.

Lemma outcome_fuel_dec {Er A} (r : outcome Er A) : r = OutOfFuel \/ r <> OutOfFuel.
Proof. destruct r; [right|right|right|left]; try discriminate; reflexivity. Qed.

(** ** C39 *)
Theorem C39_single_blame_agrees :
  forall (E : env) md (sts : list (statement E)) pfs ts,
    (forall ts', single_blame_returns md sts pfs ts (Ok tt) ts' <->
                 ts' = ts /\ exists ts2, verify_batch_returns md sts pfs ts (Ok tt) ts2) /\
    (forall r ts', single_blame_returns md sts pfs ts r ts' -> ts' = ts).
Proof.
  intros E md sts pfs ts. split.
  - intros ts'. apply single_blame_ok_iff.
  - intros r ts' (fuel & H & _). pose proof (single_blame_frame fuel md sts pfs ts) as Hf. rewrite H in Hf. exact Hf.
Qed.
Print Assumptions C39_single_blame_agrees.

(** ** C40 *)
Section OneRing.
Context {E : env} (L : env_laws E).

Lemma nth_error_sub {A} (l : list A) a b i : (b <= length l)%nat -> (a + i < b)%nat -> nth_error (sub l a b) i = nth_error l (a + i).
Proof.
  intros Hb Hi. unfold sub.
  rewrite <- (firstn_skipn a l) at 2. rewrite nth_error_app2 by (rewrite firstn_length; lia).
  rewrite firstn_length. replace (a + i - Nat.min a (length l))%nat with i by lia.
  rewrite <- (firstn_skipn (b - a) (skipn a l)) at 2. rewrite nth_error_app1; [reflexivity|].
  rewrite firstn_length, skipn_length. lia.
Qed.
Lemma sub_length {A} (l : list A) a b : (b <= length l)%nat -> length (sub l a b) = (b - a)%nat.
Proof. intros H. unfold sub. rewrite firstn_length, skipn_length. lia. Qed.
Lemma in_sub {A} (l : list A) a b x : In x (sub l a b) -> In x l.
Proof.
  unfold sub. intros H. rewrite <- (firstn_skipn a l). apply in_or_app. right.
  rewrite <- (firstn_skipn (b - a) (skipn a l)). apply in_or_app. left. exact H.
Qed.

Lemma accepted_one_ring md (st0 : statement E) sts pfs ts ts' : made_statement st0 -> one_ring (st0 :: sts) ->
  verify_batch_returns md (st0 :: sts) pfs ts (Ok tt) ts' ->
  all_valid (st0 :: sts) pfs ts \/ weights_cancel (st_get_params st0) (get_keys (st_get_input_set st0)) (st0 :: sts) pfs ts.
Proof.
  intros Hm H1 H. pose proof (made_statement_good L st0 Hm) as Hg.
  pose proof (proj1 (verify_batch_accepts_iff L md st0 sts pfs ts Hg) (ex_intro _ ts' H)) as (Hl1 & Hl2 & _ & Hws & _ & Hnd & _).
  destruct (accepted_or_cancel L md st0 sts pfs ts ts' Hg H) as [Hall|Hc]; [left|right; exact Hc].
  intros i st pf t Hmb.
  assert (Hpk : st_get_params st = st_get_params st0 /\ st_get_input_set st = st_get_input_set st0).
  { destruct Hmb as (Hs & _). apply nth_error_In in Hs. apply (H1 st st0 Hs). left. reflexivity. }
  destruct Hpk as [Hp Hk].
  pose proof (proj1 (forall_pfs_member _ (st0 :: sts) pfs ts Hl1 Hl2) Hws i st pf t Hmb) as Hw.
  pose proof (proj1 (forall_member (fun st pf t => nondegenerate t st pf) (st0 :: sts) pfs ts) Hnd i st pf t Hmb) as [Hx Hz].
  unfold valid_proof. rewrite Hp, Hk. split; [exact Hw|]. split; [exact Hx|]. split; [exact Hz|].
  apply Hall. apply in_member. exists i. exact Hmb.
Qed.

Context (md : overflow_mode) (sts : list (statement E)) (pfs : list (proof E)) (ts : list transcript).
Hypothesis Hl1 : length sts = length pfs.
Hypothesis Hl2 : length sts = length ts.
Hypothesis Hmade : Forall made_statement sts.
Hypothesis Hring : one_ring sts.

(** The derived weights cancel the defects of the part [a, b). *)
Definition part_cancels (p : params E) (M : list (pt E)) (a b : nat) : Prop :=
  (a < b <= length pfs)%nat /\ weights_cancel p M (sub sts a b) (sub pfs a b) (sub ts a b).

Definition valid_at (i : nat) : Prop := forall st pf t, member sts pfs ts i st pf t -> valid_proof t st pf.

Lemma member_sub a b i st pf t : (b <= length pfs)%nat -> (a + i < b)%nat ->
  member (sub sts a b) (sub pfs a b) (sub ts a b) i st pf t <-> member sts pfs ts (a + i) st pf t.
Proof. intros Hb Hi. unfold member. rewrite !nth_error_sub by lia. tauto. Qed.

Lemma part_accepted_valid st0 a b : In st0 sts -> (a < b <= length pfs)%nat -> part_accepted md sts pfs ts a b ->
  (forall i, (a <= i < b)%nat -> valid_at i) \/ part_cancels (st_get_params st0) (get_keys (st_get_input_set st0)) a b.
Proof.
  intros Hin0 Hab (ts' & H). pose proof (sub_length sts a b ltac:(lia)) as Hls.
  destruct (sub sts a b) as [|s l] eqn:Es; [cbn [length] in Hls; lia|].
  assert (Hins : forall st, In st (s :: l) -> In st sts) by (intros st Hst; rewrite <- Es in Hst; exact (in_sub _ _ _ _ Hst)).
  assert (Hs : In s sts) by (apply Hins; left; reflexivity).
  assert (Hms : made_statement s) by (rewrite Forall_forall in Hmade; exact (Hmade s Hs)).
  assert (H1 : one_ring (s :: l)) by (intros x y Hx Hy; apply Hring; apply Hins; assumption).
  destruct (accepted_one_ring md s l _ _ ts' Hms H1 H) as [Hv|Hc].
  - left. intros i Hi st pf t Hmb. apply (Hv (i - a)%nat st pf t). rewrite <- Es. apply member_sub; [lia|lia|].
    replace (a + (i - a))%nat with i by lia. exact Hmb.
  - right. split; [exact Hab|]. rewrite Es. destruct (Hring s st0 Hs Hin0) as [-> ->] in Hc. exact Hc.
Qed.

Lemma parts_accepted_valid st0 : In st0 sts -> forall a b, parts (part_accepted md sts pfs ts) a b -> (b <= length pfs)%nat ->
  (forall i, (a <= i < b)%nat -> valid_at i) \/ exists a' b', part_cancels (st_get_params st0) (get_keys (st_get_input_set st0)) a' b'.
Proof.
  intros Hin0 a b H. induction H as [a|a b c Hab IH Hbc Hacc]; intros Hc.
  - left. intros i Hi. lia.
  - destruct (IH ltac:(lia)) as [Hv|Hx]; [|right; exact Hx].
    destruct (part_accepted_valid st0 b c Hin0 ltac:(lia) Hacc) as [Hv2|Hx]; [|right; exists b, c; exact Hx].
    left. intros i Hi. destruct (Nat.lt_ge_cases i b); [apply Hv; lia|apply Hv2; lia].
Qed.

Lemma blamed_invalid st0 i a : In st0 sts -> fits md (st_get_params st0) (N.of_nat (length pfs)) ->
  (a <= i < length pfs)%nat -> part_rejected md sts pfs ts a (S i) -> (forall j, (a <= j < i)%nat -> valid_at j) -> ~ valid_at i.
Proof.
  intros Hin0 Hf Hi (e & ts' & H) Hv Hvi. pose proof (sub_length sts a (S i) ltac:(lia)) as Hls.
  pose proof (sub_length pfs a (S i) ltac:(lia)) as Hlp. pose proof (sub_length ts a (S i) ltac:(lia)) as Hlt.
  destruct (sub sts a (S i)) as [|s l] eqn:Es; [cbn [length] in Hls; lia|].
  assert (Hins : forall st, In st (s :: l) -> In st sts) by (intros st Hst; rewrite <- Es in Hst; exact (in_sub _ _ _ _ Hst)).
  assert (Hs : In s sts) by (apply Hins; left; reflexivity).
  assert (Hms : made_statement s) by (rewrite Forall_forall in Hmade; exact (Hmade s Hs)).
  assert (H1 : one_ring (s :: l)) by (intros x y Hx Hy; apply Hring; apply Hins; assumption).
  assert (Hall : all_valid (s :: l) (sub pfs a (S i)) (sub ts a (S i))).
  { intros k st pf t Hmb. assert (Hk : (a + k < S i)%nat).
    { destruct Hmb as (Hn & _). assert (Hlt' : (k < length (s :: l))%nat) by (apply nth_error_Some; congruence). rewrite Hls in Hlt'. lia. }
    rewrite <- Es in Hmb. apply member_sub in Hmb; [|lia|exact Hk].
    destruct (Nat.eq_dec (a + k) i) as [He|He]; [rewrite He in Hmb; exact (Hvi st pf t Hmb)|].
    apply (Hv (a + k)%nat ltac:(lia) st pf t Hmb). }
  assert (Hf' : fits md (st_get_params s) (N.of_nat (length (sub pfs a (S i))))).
  { destruct (Hring s st0 Hs Hin0) as [-> _]. destruct Hf as [Hf1 Hf2]. split; [lia|].
    destruct Hf2 as [Hf2|Hf2]; [left; exact Hf2|right]. eapply N.le_lt_trans; [|exact Hf2]. unfold msm_size.
    apply N.add_le_mono_l, N.mul_le_mono_r. lia. }
  destruct (batch_of_valid L md s l (sub pfs a (S i)) (sub ts a (S i)) Hms H1 ltac:(lia) ltac:(lia) Hall Hf') as [Hb _].
  destruct (Hb _ _ H) as [Hc _]. discriminate.
Qed.

End OneRing.

(** On a batch over one ring that does not overflow: a failure names an index in range, and the proof at this index is the first
    invalid one, unless the weights derived for some contiguous part of the batch cancel its defects. *)
Theorem C40_blames_first_invalid :
  forall (E : env), env_laws E -> forall md (st0 : statement E) sts pfs ts r ts',
    length (st0 :: sts) = length pfs -> length (st0 :: sts) = length ts ->
    Forall made_statement (st0 :: sts) -> one_ring (st0 :: sts) -> fits md (st_get_params st0) (N.of_nat (length pfs)) ->
    single_blame_returns md (st0 :: sts) pfs ts r ts' ->
    r = Ok tt \/
    exists i, r = Err (FailedBatchVerificationWithSingleBlame (Some i)) /\ (i < length pfs)%nat /\
      (((forall st pf t, member (st0 :: sts) pfs ts i st pf t -> ~ valid_proof t st pf) /\
        (forall j st pf t, (j < i)%nat -> member (st0 :: sts) pfs ts j st pf t -> valid_proof t st pf)) \/
       exists a b, (a < b <= length pfs)%nat /\
         weights_cancel (st_get_params st0) (get_keys (st_get_input_set st0)) (sub (st0 :: sts) a b) (sub pfs a b) (sub ts a b)).
Proof.
  intros E L md st0 sts pfs ts r ts' Hl1 Hl2 Hm H1 Hf H.
  assert (Hin0 : In st0 (st0 :: sts)) by (left; reflexivity).
  destruct (single_blame_result md (st0 :: sts) pfs ts r ts' Hl1 Hl2 H) as [Hr|[(i & a & Hr & Hi & Hacc & Ha & Hrej & Hacc2)|(Hr & a & b & Hab & ts2 & Hp)]].
  - left. exact Hr.
  - right. exists i. split; [exact Hr|]. split; [exact Hi|].
    destruct (parts_accepted_valid L md (st0 :: sts) pfs ts Hl1 Hl2 Hm H1 st0 Hin0 0%nat i Hacc ltac:(lia)) as [Hv|(a' & b' & Hab & Hc)];
      [left|right; exists a', b'; split; assumption].
    assert (Hni : ~ valid_at (st0 :: sts) pfs ts i).
    { apply (blamed_invalid L md (st0 :: sts) pfs ts Hl1 Hl2 Hm H1 st0 i a Hin0 Hf ltac:(lia) Hrej). intros j Hj. apply Hv. lia. }
    split.
    + intros st pf t Hmb Hval. apply Hni. intros st' pf' t' Hmb'.
      destruct Hmb as (Ha1 & Ha2 & Ha3), Hmb' as (Hb1 & Hb2 & Hb3).
      assert (st' = st) by congruence. assert (pf' = pf) by congruence. assert (t' = t) by congruence. subst. exact Hval.
    + intros j st pf t Hj Hmb. exact (Hv j ltac:(lia) st pf t Hmb).
  - exfalso. destruct Hp as (fuel & Hp & _).
    pose proof (sub_length (st0 :: sts) a b ltac:(lia)) as Hls. pose proof (sub_length pfs a b ltac:(lia)) as Hlp.
    assert (Hg : Forall good_statement (sub (st0 :: sts) a b)).
    { apply Forall_forall. intros s Hs. apply in_sub in Hs. rewrite Forall_forall in Hm. exact (made_statement_good L s (Hm s Hs)). }
    pose proof (verify_batch_cases L fuel md (sub (st0 :: sts) a b) (sub pfs a b) (sub ts a b) Hg) as Hc. rewrite Hp in Hc. cbn [fst] in Hc.
    destruct Hc as [Hc|[[s Hc]|[Hc|[Hc|[Hc|(Hmd & _ & s & l & He & Hsz)]]]]]; try discriminate.
    destruct Hf as [_ [Hf|Hf]]; [congruence|].
    assert (Hs : In s (st0 :: sts)) by (apply (in_sub _ a b); rewrite He; left; reflexivity).
    destruct (H1 s st0 Hs Hin0) as [Hps _]. change (st_params s) with (st_get_params s) in Hsz. rewrite Hps in Hsz.
    assert (Hle : (msm_size (st_get_params st0) (N.of_nat (length (sub pfs a b))) <= msm_size (st_get_params st0) (N.of_nat (length pfs)))%N).
    { unfold msm_size. apply N.add_le_mono_l, N.mul_le_mono_r. lia. }
    lia.
Qed.
Print Assumptions C40_blames_first_invalid.

(** Without any assumption on the statements: with equal lengths, the result is acceptance, a blamed index in range, or a panic
    that some [verify_batch] call made; the error that names no index never occurs. *)
Theorem C40_blame_in_range :
  forall (E : env) md (sts : list (statement E)) pfs ts r ts',
    length sts = length pfs -> length sts = length ts -> single_blame_returns md sts pfs ts r ts' ->
    r = Ok tt \/ (exists i, r = Err (FailedBatchVerificationWithSingleBlame (Some i)) /\ (i < length pfs)%nat) \/
    (r = Panic /\ exists a b, (a < b <= length pfs)%nat /\ part_returns md sts pfs ts a b Panic).
Proof.
  intros E md sts pfs ts r ts' Hl1 Hl2 H.
  destruct (single_blame_result md sts pfs ts r ts' Hl1 Hl2 H) as [Hr|[(i & a & Hr & Hi & _)|Hr]].
  - left. exact Hr.
  - right. left. exists i. split; assumption.
  - right. right. exact Hr.
Qed.
Print Assumptions C40_blame_in_range.

(** Both searches return whenever the weight loop does. *)
Section BlameTotal.
Context {E : env} (L : env_laws E).

Lemma fuel_for_all (f : nat -> nat -> outcome proof_error unit) k :
  (forall i, (i < k)%nat -> exists fuel, forall fuel', (fuel <= fuel')%nat -> f fuel' i <> OutOfFuel) ->
  exists fuel, forall fuel', (fuel <= fuel')%nat -> forall i, (i < k)%nat -> f fuel' i <> OutOfFuel.
Proof.
  induction k as [|k IH]; intros H.
  - exists 0%nat. intros fuel' _ i Hi. lia.
  - destruct IH as [f1 H1]; [intros i Hi; apply H; lia|]. destruct (H k ltac:(lia)) as [f2 H2].
    exists (Nat.max f1 f2). intros fuel' Hf i Hi. destruct (Nat.eq_dec i k) as [->|Hne]; [apply H2; lia|apply H1; lia].
Qed.

Lemma verify_batch_eventually md (sts : list (statement E)) pfs ts : Forall made_statement sts -> weights_terminate (E := E) 4 ->
  exists fuel, forall fuel', (fuel <= fuel')%nat -> fst (verify_batch fuel' md sts pfs ts) <> OutOfFuel.
Proof.
  intros Hm Ht. assert (Hg : Forall good_statement sts) by (eapply Forall_impl; [|exact Hm]; intros a; apply (made_statement_good L)).
  destruct (verify_batch_total L md sts pfs ts Hg Ht) as (r & ts' & fuel & H & Hr).
  exists fuel. intros fuel' Hf. rewrite (verify_batch_mono fuel fuel' md sts pfs ts Hf); rewrite H; exact Hr.
Qed.

Lemma parts_eventually md (sts : list (statement E)) pfs ts : Forall made_statement sts -> weights_terminate (E := E) 4 ->
  exists fuel, forall fuel', (fuel <= fuel')%nat -> forall a b, (a <= length pfs)%nat -> (b <= length pfs)%nat ->
    fst (verify_batch fuel' md (sub sts a b) (sub pfs a b) (sub ts a b)) <> OutOfFuel.
Proof.
  intros Hm Ht. pose (k := S (length pfs)).
  destruct (fuel_for_all (fun fuel i => fst (verify_batch fuel md (sub sts (i / k) (i mod k)) (sub pfs (i / k) (i mod k)) (sub ts (i / k) (i mod k)))) (k * k)) as [fuel H].
  { intros i Hi. apply verify_batch_eventually; [|exact Ht]. apply Forall_forall. intros s Hs. apply in_sub in Hs.
    rewrite Forall_forall in Hm. exact (Hm s Hs). }
  exists fuel. intros fuel' Hf a b Ha Hb. specialize (H fuel' Hf (b + a * k)%nat).
  rewrite Nat.div_add, Nat.mod_add, Nat.div_small, Nat.mod_small in H by (unfold k; lia).
  rewrite Nat.add_0_l in H. apply H. assert ((a * k <= length pfs * k)%nat) by (apply Nat.mul_le_mono_r; exact Ha). unfold k at 2. unfold k in *. cbn [Nat.mul]. lia.
Qed.

Lemma single_blame_total md (sts : list (statement E)) pfs ts : length sts = length pfs -> length sts = length ts ->
  Forall made_statement sts -> weights_terminate (E := E) 4 -> exists r, single_blame_returns md sts pfs ts r ts.
Proof.
  intros Hl1 Hl2 Hm Ht. destruct (parts_eventually md sts pfs ts Hm Ht) as [fuel H]. specialize (H fuel (le_n _)).
  pose proof (H 0%nat (length pfs) ltac:(lia) ltac:(lia)) as Hall. rewrite !sub_all in Hall by lia.
  exists (fst (verify_batch_with_single_blame fuel md sts pfs ts)), fuel.
  pose proof (single_blame_frame fuel md sts pfs ts) as Hf.
  destruct (verify_batch_with_single_blame fuel md sts pfs ts) as [r ts'] eqn:Hv. cbn [fst snd] in *. subst ts'. split; [reflexivity|].
  unfold verify_batch_with_single_blame in Hv. destruct (fst (verify_batch fuel md sts pfs ts)) as [u|e| |] eqn:Hb; apply (f_equal fst) in Hv; cbn [fst] in Hv; subst r; try discriminate; [|contradiction].
  assert (Hpos : (0 < length pfs)%nat).
  { destruct pfs; [|cbn; lia]. destruct sts; [|discriminate]. destruct ts; [|discriminate]. cbn in Hb. discriminate. }
  rewrite blame_loop_search by (assumption || lia).
  assert (Hall' : part_check fuel md sts pfs ts 0 (length pfs) = Err e) by (unfold part_check; rewrite !sub_all by lia; exact Hb).
  destruct (search_meaning (part_check fuel md sts pfs ts) 0 (S (length pfs)) 0 (length pfs)) as [(i & Hi & _)|(a & b & Hab & Hbl & [[Hx _]|[_ Hx]])].
  - exact Hpos.
  - destruct (Nat.eq_dec (length pfs) 1) as [He|]; [right; split; [lia|]; exists e; exact Hall'|left; lia].
  - exists 0%nat. split; [lia|]. split; [exists e; exact Hall'|constructor].
  - constructor.
  - lia.
  - cbv zeta in Hi. rewrite Hi. discriminate.
  - cbv zeta in Hx. rewrite Hx. discriminate.
  - exfalso. unfold part_check in Hx. revert Hx. apply H; lia.
Qed.

Lemma verify_eventually md (st : statement E) pf t : made_statement st -> weights_terminate (E := E) 4 ->
  exists fuel, forall fuel', (fuel <= fuel')%nat -> fst (verify fuel' md pf st t) <> OutOfFuel.
Proof.
  intros Hm Ht. destruct (verify_batch_eventually md [st] [pf] [t]) as [fuel H]; [constructor; [exact Hm|constructor]|exact Ht|].
  exists fuel. intros fuel' Hf. rewrite verify_as_batch. apply H. exact Hf.
Qed.
Lemma full_blame_loop_eventually md : weights_terminate (E := E) 4 -> forall (sts : list (statement E)), Forall made_statement sts ->
  forall pfs ts, exists fuel, forall fuel', (fuel <= fuel')%nat -> forall k, fst (full_blame_loop fuel' md k sts pfs ts) <> OutOfFuel.
Proof.
  intros Ht. induction sts as [|st sts IH]; intros Hm pfs ts.
  - exists 0%nat. intros fuel' _ k. discriminate.
  - destruct pfs as [|pf pfs]; [exists 0%nat; intros fuel' _ k; discriminate|]. destruct ts as [|t ts]; [exists 0%nat; intros fuel' _ k; discriminate|].
    destruct (IH (Forall_inv_tail Hm) pfs ts) as [f1 H1]. destruct (verify_eventually md st pf t (Forall_inv Hm) Ht) as [f2 H2].
    exists (Nat.max f1 f2). intros fuel' Hf k. cbn [full_blame_loop].
    specialize (H1 fuel' ltac:(lia) (S k)). specialize (H2 fuel' ltac:(lia)).
    destruct (verify fuel' md pf st t) as [r t']. cbn [fst] in H2.
    destruct (full_blame_loop fuel' md (S k) sts pfs ts) as [fl ts']. cbn [fst] in H1.
    destruct r; cbn [fst]; try discriminate; try contradiction; try exact H1.
    destruct fl; cbn [obind]; try discriminate. contradiction.
Qed.
Lemma full_blame_total md (sts : list (statement E)) pfs ts :
  Forall made_statement sts -> weights_terminate (E := E) 4 -> exists r ts', full_blame_returns md sts pfs ts r ts'.
Proof.
  intros Hm Ht. destruct (verify_batch_eventually md sts pfs ts Hm Ht) as [f1 H1].
  destruct (full_blame_loop_eventually md Ht sts Hm pfs ts) as [f2 H2].
  specialize (H1 (Nat.max f1 f2) ltac:(lia)). specialize (H2 (Nat.max f1 f2) ltac:(lia) 0%nat).
  destruct (verify_batch_with_full_blame (Nat.max f1 f2) md sts pfs ts) as [r ts'] eqn:Hv.
  exists r, ts', (Nat.max f1 f2). split; [exact Hv|]. unfold verify_batch_with_full_blame in Hv.
  destruct (fst (verify_batch _ md sts pfs ts)); try (injection Hv as <- _; discriminate); [|contradiction].
  destruct (full_blame_loop _ md 0 sts pfs ts) as [fl ts2]. cbn [fst] in H2. injection Hv as <- _.
  destruct fl; cbn [obind]; try discriminate. contradiction.
Qed.
End BlameTotal.

Theorem C40_single_blame_returns :
  forall (E : env), env_laws E -> weights_terminate (E := E) 4 -> forall md (sts : list (statement E)) pfs ts,
    length sts = length pfs -> length sts = length ts -> Forall made_statement sts ->
    exists r, single_blame_returns md sts pfs ts r ts.
Proof. intros E L Ht md sts pfs ts Hl1 Hl2 Hm. exact (single_blame_total L md sts pfs ts Hl1 Hl2 Hm Ht). Qed.
Print Assumptions C40_single_blame_returns.

(** ** C41: the search makes one [verify_batch] call per iteration, and [ceil(log2 size)] iterations (one for a single proof) are
    always enough: with this budget it has the same result as with the larger budget of the model. *)
Theorem C41_logarithmic_search :
  forall (E : env) fuel md (sts : list (statement E)) pfs ts e,
    length sts = length pfs -> length sts = length ts ->
    fst (verify_batch fuel md sts pfs ts) = Err e ->
    fst (verify_batch_with_single_blame fuel md sts pfs ts) =
    blame_loop (Nat.max 1 (Nat.log2_up (length pfs))) fuel md sts pfs ts 0 (length pfs).
Proof.
  intros E fuel md sts pfs ts e Hl1 Hl2 He. unfold verify_batch_with_single_blame. rewrite He. cbn [fst].
  destruct (Nat.lt_ge_cases (length pfs) 2) as [Hlt|Hge].
  - destruct (Nat.eq_dec (length pfs) 0) as [H0|H0].
    + destruct pfs; [|discriminate]. destruct sts; [|discriminate]. destruct ts; [|discriminate]. cbn in He. discriminate.
    + assert (Hk : length pfs = 1%nat) by lia.
      assert (Hall : part_check fuel md sts pfs ts 0 1 = Err e) by (unfold part_check; rewrite !sub_all by lia; exact He).
      rewrite !blame_loop_search by (assumption || lia). rewrite Hk. change (Nat.max 1 (Nat.log2_up 1)) with 1%nat. rewrite !search_S by lia.
      cbn [Nat.sub]. rewrite half_1. cbn [Nat.add]. cbv zeta. rewrite Hall. reflexivity.
  - rewrite (single_blame_iterations fuel md sts pfs ts Hl1 Hl2 Hge). f_equal.
    assert ((0 < Nat.log2_up (length pfs))%nat) by (apply Nat.log2_up_pos; lia). lia.
Qed.
Print Assumptions C41_logarithmic_search.

(** ** C42: what the documentation does not say.  With proofs but without statements the search panics on the first slice... *)
Theorem C42_mismatch_panics_refuted :
  forall (E : env) md (pf : proof E) pfs ts, single_blame_returns md [] (pf :: pfs) ts Panic ts.
Proof.
  intros E md pf pfs ts. exists 0%nat. split; [|discriminate].
  unfold verify_batch_with_single_blame. rewrite (proj1 (verify_batch_lengths 0 md [] (pf :: pfs) ts)) by discriminate.
  cbn [fst]. f_equal. cbn [length blame_loop Nat.ltb Nat.leb]. rewrite Nat.sub_0_r, Nat.add_0_l.
  assert (Hm : exists k, (if S (length pfs) mod 2 =? 0 then S (length pfs) / 2 else S (length pfs) / 2 + 1)%nat = S k).
  { rewrite half_up by lia. exists ((S (length pfs) + 1) / 2 - 1)%nat. assert (H : (1 <= (S (length pfs) + 1) / 2)%nat); [|lia].
    apply Nat.div_le_lower_bound; lia. }
  destruct Hm as [k ->]. reflexivity.
Qed.
Print Assumptions C42_mismatch_panics_refuted.

(** ... and a batch of two valid proofs over different rings is rejected, blaming the second. *)
Lemma single_blame_two {E : env} (L : env_laws E) md (st st' : statement E) pf pf' t t' :
  made_statement st -> made_statement st' -> weights_terminate (E := E) 4 ->
  input_set_get_hash (st_get_input_set st) <> input_set_get_hash (st_get_input_set st') ->
  valid_proof t st pf -> fits md (st_get_params st) 1 ->
  single_blame_returns md [st; st'] [pf; pf'] [t; t'] (Err (FailedBatchVerificationWithSingleBlame (Some 1%nat))) [t; t'].
Proof.
  intros Hm Hm' Ht Hh Hv Hf.
  destruct (batch_of_valid L md st [] [pf] [t] Hm) as [_ Hb]; try reflexivity.
  { intros a b [<-|[]] [<-|[]]. split; reflexivity. }
  { intros i s p u (Ha & Hb & Hc). destruct i as [|i]; [|destruct i; discriminate]. cbn [nth_error] in *. injection Ha as <-. injection Hb as <-. injection Hc as <-. exact Hv. }
  { exact Hf. }
  destruct (Hb Ht) as (fuel & Hok & _). exists fuel. split; [|discriminate].
  unfold verify_batch_with_single_blame.
  rewrite (proj1 (verify_batch_mixed fuel md st [st'] [pf; pf'] [t; t'] eq_refl eq_refl)).
  2:{ intros H. apply Hh. symmetry. apply H. left. reflexivity. }
  cbn [fst]. f_equal.
  change (length [pf; pf']) with 2%nat. cbn [blame_loop]. change (0 <? 2)%nat with true. cbv iota.
  change ((2 - 0) mod 2 =? 0)%nat with true. cbv iota. change (0 + (2 - 0) / 2)%nat with 1%nat.
  change (slice (E := proof_error) [st; st'] 0 1) with (Ok (E := proof_error) [st]).
  change (slice (E := proof_error) [pf; pf'] 0 1) with (Ok (E := proof_error) [pf]).
  change (slice (E := proof_error) [t; t'] 0 1) with (Ok (E := proof_error) [t]).
  cbn [obind]. rewrite Hok. reflexivity.
Qed.

(** Two honest proofs for two different rings, each valid on its own. *)
Lemma mixed_hashes : input_set_get_hash (st_get_input_set (x_statement P0 T0 2)) <> input_set_get_hash (st_get_input_set (x_statement P0 T0 1)).
Proof.
  change (is_hash (x_set P0 T0 2) <> is_hash (x_set P0 T0 1)). intros H. apply (f_equal le_val) in H. revert H. vm_compute. discriminate.
Qed.
Lemma valid_one md (st : statement E0) pf t : made_statement st -> valid_proof t st pf -> fits md (st_get_params st) 1 ->
  exists t', verify_returns md pf st t (Ok tt) t'.
Proof.
  intros Hm Hv Hf. destruct (batch_of_valid L0 md st [] [pf] [t] Hm) as [_ Hb]; try reflexivity.
  - intros a b [<-|[]] [<-|[]]. split; reflexivity.
  - intros i s p u (Ha & Hb & Hc). destruct i as [|i]; [|destruct i; discriminate]. cbn [nth_error] in *. injection Ha as <-. injection Hb as <-. injection Hc as <-. exact Hv.
  - exact Hf.
  - eexists. apply verify_returns_batch. exact (Hb (E0_weights_terminate 4)).
Qed.

Theorem C42_mixed_rings_blamed_refuted :
  exists (st st' : statement E0) pf pf' t,
    made_statement st /\ made_statement st' /\ valid_proof t st pf /\ valid_proof t st' pf' /\
    (exists t', verify_returns OverflowPanics pf' st' t (Ok tt) t') /\
    single_blame_returns OverflowPanics [st; st'] [pf; pf'] [t; t] (Err (FailedBatchVerificationWithSingleBlame (Some 1%nat))) [t; t].
Proof.
  pose proof (x_statement_made P0 T0 2) as Hm. pose proof (x_statement_made P0 T0 1) as Hm'.
  pose proof (x_valid P0 T0 2 1 ltac:(lia) x_check_2_1) as Hv. pose proof (x_valid P0 T0 1 1 ltac:(lia) x_check_1_1) as Hv'.
  exists (x_statement P0 T0 2), (x_statement P0 T0 1), (x_proof P0 T0 2 1), (x_proof P0 T0 1 1), (x_transcript 1).
  split; [exact Hm|]. split; [exact Hm'|]. split; [exact Hv|]. split; [exact Hv'|].
  split; [exact (valid_one OverflowPanics _ _ _ Hm' Hv' (x_fits P0 T0 1 OverflowPanics 1 ltac:(lia)))|].
  exact (single_blame_two L0 OverflowPanics _ _ _ _ _ _ Hm Hm' (E0_weights_terminate 4) mixed_hashes Hv (x_fits P0 T0 2 OverflowPanics 1 ltac:(lia))).
Qed.
Print Assumptions C42_mixed_rings_blamed_refuted.

(** ** C43: full blame accepts exactly what [verify_batch] accepts, leaving the transcripts as they were, and otherwise lists in
    increasing order exactly the positions whose proof fails alone; the transcripts are then those of the single verifications. *)
Theorem C43_full_blame_exact :
  forall (E : env) md (sts : list (statement E)) pfs ts r ts',
    full_blame_returns md sts pfs ts r ts' ->
    (r = Ok tt <-> exists ts2, verify_batch_returns md sts pfs ts (Ok tt) ts2) /\
    (r = Ok tt -> ts' = ts) /\
    (forall e, r = Err e ->
       (exists e' ts2, verify_batch_returns md sts pfs ts (Err e') ts2) /\
       exists l, e = FailedBatchVerificationWithFullBlame l /\ StronglySorted lt l /\
         (forall i, In i l <-> exists st pf t e' t', member sts pfs ts i st pf t /\ verify_returns md pf st t (Err e') t') /\
         (forall i st pf t, member sts pfs ts i st pf t -> ~ In i l -> exists t', verify_returns md pf st t (Ok tt) t')).
Proof.
  intros E md sts pfs ts r ts' H. split; [|split].
  - split.
    + intros ->. exact (proj2 (proj1 (full_blame_ok_iff md sts pfs ts ts') H)).
    + intros (ts2 & H2). destruct H2 as (f2 & H2 & Hr2). destruct H as (f & H & Hr).
      assert (H2' : verify_batch (Nat.max f f2) md sts pfs ts = (Ok tt, ts2)) by (rewrite (verify_batch_mono f2) by (lia || (rewrite H2; discriminate)); exact H2).
      destruct (verify_batch f md sts pfs ts) as [r1 ts1] eqn:H1. unfold verify_batch_with_full_blame in H. rewrite H1 in H. cbn [fst] in H.
      destruct (outcome_fuel_dec r1) as [->|Hr1]; [injection H as <- _; contradiction|].
      rewrite (verify_batch_mono f (Nat.max f f2)) in H2' by (lia || (rewrite H1; exact Hr1)).
      rewrite H1 in H2'. injection H2' as -> _. injection H as <- _. reflexivity.
  - intros ->. exact (proj1 (proj1 (full_blame_ok_iff md sts pfs ts ts') H)).
  - intros e ->. destruct (full_blame_result md sts pfs ts e ts' H) as (Hb & l & -> & Hs & _ & Hin & Heach).
    split; [exact Hb|]. exists l. split; [reflexivity|]. split; [exact Hs|]. split.
    + intros i. rewrite Hin. split.
      * intros (st & pf & t & e' & t' & Ha & Hb1 & Hc & Hd). exists st, pf, t, e', t'. repeat split; assumption.
      * intros (st & pf & t & e' & t' & (Ha & Hb1 & Hc) & Hd). exists st, pf, t, e', t'. repeat split; assumption.
    + intros i st pf t (Ha & Hb1 & Hc) Hni. destruct (Heach i st pf t Ha Hb1 Hc) as (r & t' & Hv & _ & [->|(e' & ->)]).
      * exists t'. exact Hv.
      * exfalso. apply Hni. apply Hin. exists st, pf, t, e', t'. repeat split; assumption.
Qed.
Print Assumptions C43_full_blame_exact.

Theorem C43_full_blame_returns :
  forall (E : env), env_laws E -> weights_terminate (E := E) 4 -> forall md (sts : list (statement E)) pfs ts,
    Forall made_statement sts -> exists r ts', full_blame_returns md sts pfs ts r ts'.
Proof. intros E L Ht md sts pfs ts Hm. exact (full_blame_total L md sts pfs ts Hm Ht). Qed.
Print Assumptions C43_full_blame_returns.

(** In terms of validity: a listed proof is invalid (unless it would overflow), an unlisted one valid, up to its own weights
    cancelling its own defects. *)
Theorem C43_listed_are_invalid :
  forall (E : env), env_laws E -> forall md (sts : list (statement E)) pfs ts l ts',
    Forall made_statement sts ->
    (forall st, In st sts -> fits md (st_get_params st) 1) ->
    full_blame_returns md sts pfs ts (Err (FailedBatchVerificationWithFullBlame l)) ts' ->
    forall i st pf t, member sts pfs ts i st pf t ->
      (In i l -> ~ valid_proof t st pf) /\
      (~ In i l -> valid_proof t st pf \/ weights_cancel (st_get_params st) (get_keys (st_get_input_set st)) [st] [pf] [t]).
Proof.
  intros E L md sts pfs ts l ts' Hm Hf H i st pf t Hmb.
  destruct (C43_full_blame_exact E md sts pfs ts _ ts' H) as (_ & _ & He). destruct (He _ eq_refl) as (_ & l' & Hl & _ & Hin & Hout).
  injection Hl as <-. assert (Hst : In st sts) by (destruct Hmb as (Ha & _); exact (nth_error_In _ _ Ha)).
  assert (Hms : made_statement st) by (rewrite Forall_forall in Hm; exact (Hm st Hst)). split.
  - intros Hi Hv. apply Hin in Hi. destruct Hi as (st1 & pf1 & t1 & e' & t' & (Ha1 & Hb1 & Hc1) & Hr). destruct Hmb as (Ha & Hb & Hc).
    assert (st1 = st) by congruence. assert (pf1 = pf) by congruence. assert (t1 = t) by congruence. subst st1 pf1 t1.
    destruct (batch_of_valid L md st [] [pf] [t] Hms) as [Hbv _]; try reflexivity.
    + intros a b [<-|[]] [<-|[]]. split; reflexivity.
    + intros k s p u (Hka & Hkb & Hkc). destruct k as [|k]; [|destruct k; discriminate]. cbn [nth_error] in *. injection Hka as <-. injection Hkb as <-. injection Hkc as <-. exact Hv.
    + exact (Hf st Hst).
    + apply verify_returns_batch in Hr. destruct (Hbv _ _ Hr) as [Hx _]. discriminate.
  - intros Hi. destruct (Hout i st pf t Hmb Hi) as (t' & Hr). apply verify_returns_batch in Hr.
    destruct (accepted_one_ring L md st [] [pf] [t] [t'] Hms) as [Hv|Hc].
    + intros a b [<-|[]] [<-|[]]. split; reflexivity.
    + exact Hr.
    + left. apply (Hv 0%nat). repeat split.
    + right. exact Hc.
Qed.
Print Assumptions C43_listed_are_invalid.

(** ** C44: full blame can fail without blaming any proof: two valid proofs over differently hashed rings. *)
Lemma full_blame_two {E : env} (L : env_laws E) md (st st' : statement E) pf pf' t t' :
  made_statement st -> made_statement st' -> weights_terminate (E := E) 4 ->
  input_set_get_hash (st_get_input_set st) <> input_set_get_hash (st_get_input_set st') ->
  valid_proof t st pf -> valid_proof t' st' pf' -> fits md (st_get_params st) 1 -> fits md (st_get_params st') 1 ->
  exists ts', full_blame_returns md [st; st'] [pf; pf'] [t; t'] (Err (FailedBatchVerificationWithFullBlame [])) ts'.
Proof.
  intros Hm Hm' Ht Hh Hv Hv' Hf Hf'.
  assert (Hms : Forall made_statement [st; st']) by (repeat constructor; assumption).
  destruct (full_blame_total L md [st; st'] [pf; pf'] [t; t'] Hms Ht) as (r & ts' & H). exists ts'.
  destruct (C43_full_blame_exact E md _ _ _ r ts' H) as (Hok & _ & He).
  assert (Hmix : forall fuel, verify_batch fuel md [st; st'] [pf; pf'] [t; t'] = (Err (InvalidParameter "statement input sets do not match"), [t; t'])).
  { intros fuel. apply (proj1 (verify_batch_mixed fuel md st [st'] [pf; pf'] [t; t'] eq_refl eq_refl)).
    intros Hc. apply Hh. symmetry. apply Hc. left. reflexivity. }
  assert (Hin : forall s p u, (s = st /\ p = pf /\ u = t \/ s = st' /\ p = pf' /\ u = t') -> forall r1 t1, verify_returns md p s u r1 t1 -> r1 = Ok tt).
  { intros s p u Hc r1 t1 Hr1. apply verify_returns_batch in Hr1.
    assert (Hx : made_statement s /\ valid_proof u s p /\ fits md (st_get_params s) 1) by (destruct Hc as [(-> & -> & ->)|(-> & -> & ->)]; tauto).
    destruct Hx as (Hx1 & Hx2 & Hx3).
    destruct (batch_of_valid L md s [] [p] [u] Hx1) as [Hbv _]; try reflexivity.
    - intros a b [<-|[]] [<-|[]]. split; reflexivity.
    - intros k s1 p1 u1 (Hka & Hkb & Hkc). destruct k as [|k]; [|destruct k; discriminate]. cbn [nth_error] in *. injection Hka as <-. injection Hkb as <-. injection Hkc as <-. exact Hx2.
    - exact Hx3.
    - exact (proj1 (Hbv _ _ Hr1)). }
  destruct r as [[]|e| |].
  - destruct (proj1 Hok eq_refl) as (ts2 & fuel & H2 & _). rewrite Hmix in H2. discriminate.
  - destruct (He e eq_refl) as (_ & l & -> & _ & Hl & _).
    assert (l = []); [|subst l; exact H]. destruct l as [|i l]; [reflexivity|]. exfalso.
    destruct (proj1 (Hl i) (or_introl eq_refl)) as (s & p & u & e' & t1 & Hmb & Hr).
    assert (Hc : s = st /\ p = pf /\ u = t \/ s = st' /\ p = pf' /\ u = t').
    { destruct Hmb as (Ha & Hb & Hc). destruct i as [|[|i]]; cbn [nth_error] in Ha, Hb, Hc.
      - left. repeat split; congruence.
      - right. repeat split; congruence.
      - destruct i; discriminate. }
    pose proof (Hin s p u Hc _ _ Hr). discriminate.
  - exfalso. destruct H as (fuel & H & _). unfold verify_batch_with_full_blame in H. rewrite Hmix in H. cbn [fst] in H.
    cbn [full_blame_loop] in H.
    destruct (verify fuel md pf st t) as [r1 t1] eqn:H1. destruct (verify fuel md pf' st' t') as [r2 t2] eqn:H2.
    assert (Hr1 : r1 = OutOfFuel \/ r1 = Ok tt).
    { destruct (outcome_fuel_dec r1) as [Hd|Hd]; [left; exact Hd|right]. apply (Hin st pf t ltac:(left; tauto) r1 t1). exists fuel. split; assumption. }
    assert (Hr2 : r2 = OutOfFuel \/ r2 = Ok tt).
    { destruct (outcome_fuel_dec r2) as [Hd|Hd]; [left; exact Hd|right]. apply (Hin st' pf' t' ltac:(right; tauto) r2 t2). exists fuel. split; assumption. }
    destruct Hr1 as [->| ->], Hr2 as [->| ->]; cbn in H; discriminate.
  - exfalso. destruct H as (fuel & _ & H). apply H. reflexivity.
Qed.

Theorem C44_blames_someone_refuted :
  exists (st st' : statement E0) pf pf' t ts',
    made_statement st /\ made_statement st' /\ valid_proof t st pf /\ valid_proof t st' pf' /\
    full_blame_returns OverflowPanics [st; st'] [pf; pf'] [t; t] (Err (FailedBatchVerificationWithFullBlame [])) ts'.
Proof.
  pose proof (x_statement_made P0 T0 2) as Hm. pose proof (x_statement_made P0 T0 1) as Hm'.
  pose proof (x_valid P0 T0 2 1 ltac:(lia) x_check_2_1) as Hv. pose proof (x_valid P0 T0 1 1 ltac:(lia) x_check_1_1) as Hv'.
  destruct (full_blame_two L0 OverflowPanics _ _ _ _ _ _ Hm Hm' (E0_weights_terminate 4) mixed_hashes Hv Hv'
    (x_fits P0 T0 2 OverflowPanics 1 ltac:(lia)) (x_fits P0 T0 1 OverflowPanics 1 ltac:(lia))) as [ts' H].
  exists (x_statement P0 T0 2), (x_statement P0 T0 1), (x_proof P0 T0 2 1), (x_proof P0 T0 1 1), (x_transcript 1), ts'.
  split; [exact Hm|]. split; [exact Hm'|]. split; [exact Hv|]. split; [exact Hv'|]. exact H.
Qed.
Print Assumptions C44_blames_someone_refuted.
