(** The parallel blaming verifiers. *)
From Verif Require Export ParVerdict Search.
From Coq Require Export Sorting.Sorted.

Section Blame.
Context {E : env}.

Definition part_check (fuel : nat) (md : overflow_mode) (sts : list (statement E)) (pfs : list (proof E)) (ts : list transcript)
    (a b : nat) : outcome proof_error unit :=
  fst (verify_batch fuel md (sub sts a b) (sub pfs a b) (sub ts a b)).

Lemma blame_loop_search fuel md (sts : list (statement E)) pfs ts : length sts = length pfs -> length sts = length ts ->
  forall sf left right, (right <= length pfs)%nat ->
  blame_loop sf fuel md sts pfs ts left right = search sf (part_check fuel md sts pfs ts) left right.
Proof.
  intros Hl1 Hl2. induction sf as [|sf IH]; intros left right Hr; [reflexivity|].
  cbn [blame_loop search]. destruct (Nat.ltb_spec left right) as [Hlt|]; [|reflexivity].
  rewrite !(search_mid left right Hlt).
  pose proof (Nat.div_mod (right - left + 1) 2 ltac:(lia)) as Hd. pose proof (Nat.mod_upper_bound (right - left + 1) 2 ltac:(lia)) as Hm.
  set (mid := (left + (right - left + 1) / 2)%nat) in *.
  rewrite !slice_Ok by lia. cbn [obind]. fold (sub sts left mid) (sub pfs left mid) (sub ts left mid).
  fold (part_check fuel md sts pfs ts left mid).
  destruct (part_check fuel md sts pfs ts left mid) as [u|e| |]; try reflexivity.
  - destruct (Nat.eqb_spec right (mid + 1)); [reflexivity|]. apply IH. exact Hr.
  - destruct mid as [|lc] eqn:Hmid; [reflexivity|]. destruct (Nat.eqb_spec left lc); [reflexivity|]. apply IH. lia.
Qed.

Lemma blame_loop_not_ok fuel md (sts : list (statement E)) pfs ts : forall sf left right u,
  blame_loop sf fuel md sts pfs ts left right <> Ok u.
Proof.
  induction sf as [|sf IH]; intros left right u; cbn [blame_loop]; destruct (left <? right)%nat; try discriminate.
  destruct (slice sts _ _) as [a| | |]; cbn [obind]; try discriminate.
  destruct (slice pfs _ _) as [b| | |]; cbn [obind]; try discriminate.
  destruct (slice ts _ _) as [c| | |]; cbn [obind]; try discriminate.
  destruct (fst (verify_batch fuel md a b c)); try discriminate.
  - destruct (_ =? _)%nat; [|apply IH]. destruct right; discriminate.
  - match goal with |- context [match ?x with O => _ | S _ => _ end] => destruct x as [|lc] end; [discriminate|].
    destruct (_ =? _)%nat; [discriminate|apply IH].
Qed.

Lemma single_blame_frame fuel md (sts : list (statement E)) pfs ts : snd (verify_batch_with_single_blame fuel md sts pfs ts) = ts.
Proof. unfold verify_batch_with_single_blame. destruct (fst _); reflexivity. Qed.

Lemma single_blame_ok_iff md (sts : list (statement E)) pfs ts ts' :
  single_blame_returns md sts pfs ts (Ok tt) ts' <-> ts' = ts /\ exists ts2, verify_batch_returns md sts pfs ts (Ok tt) ts2.
Proof.
  split.
  - intros (fuel & H & _). pose proof (single_blame_frame fuel md sts pfs ts) as Hs. rewrite H in Hs. cbn [snd] in Hs. split; [exact Hs|].
    unfold verify_batch_with_single_blame in H. destruct (verify_batch fuel md sts pfs ts) as [r ts2] eqn:Hv. cbn [fst] in H.
    destruct r as [[]|e| |]; try discriminate.
    + exists ts2, fuel. split; [exact Hv|discriminate].
    + apply (f_equal fst) in H. cbn [fst] in H. exfalso. eapply blame_loop_not_ok. exact H.
  - intros (-> & ts2 & fuel & H & _). exists fuel. split; [|discriminate].
    unfold verify_batch_with_single_blame. rewrite H. reflexivity.
Qed.

Lemma part_check_returns fuel md (sts : list (statement E)) pfs ts a b r : r <> OutOfFuel ->
  part_check fuel md sts pfs ts a b = r -> part_returns md sts pfs ts a b r.
Proof.
  intros Hr H. unfold part_check in H. destruct (verify_batch _ _ _ _ _) as [r0 ts0] eqn:Hv. cbn [fst] in H. subst r0.
  exists ts0, fuel. auto.
Qed.

Lemma parts_impl (R R' : nat -> nat -> Prop) a b : (forall x y, R x y -> R' x y) -> parts R a b -> parts R' a b.
Proof. intros H. induction 1; [constructor|]. econstructor; eauto. Qed.

Lemma sub_all {A} (l : list A) k : length l = k -> sub l 0 k = l.
Proof. intros <-. unfold sub. rewrite skipn_O, Nat.sub_0_r. apply firstn_all. Qed.

Lemma single_blame_result md (sts : list (statement E)) pfs ts r ts' :
  length sts = length pfs -> length sts = length ts ->
  single_blame_returns md sts pfs ts r ts' ->
  r = Ok tt \/
  (exists i a, r = Err (FailedBatchVerificationWithSingleBlame (Some i)) /\ (i < length pfs)%nat /\
     parts (part_accepted md sts pfs ts) 0 i /\
     (a <= i)%nat /\ part_rejected md sts pfs ts a (S i) /\ parts (part_accepted md sts pfs ts) a i) \/
  (r = Panic /\ exists a b, (a < b <= length pfs)%nat /\ part_returns md sts pfs ts a b Panic).
Proof.
  intros Hl1 Hl2 (fuel & H & Hnf). unfold verify_batch_with_single_blame in H.
  destruct (verify_batch fuel md sts pfs ts) as [r0 ts0] eqn:Hv. cbn [fst] in H.
  assert (Hall : part_check fuel md sts pfs ts 0 (length pfs) = r0).
  { unfold part_check. rewrite !sub_all by lia. rewrite Hv. reflexivity. }
  destruct (Nat.eq_dec (length pfs) 0) as [H0|Hpos].
  { destruct pfs; [|discriminate]. destruct sts; [|discriminate]. destruct ts; [|discriminate].
    cbn in Hv. injection Hv as <- _. injection H as <- _. left; reflexivity. }
  destruct r0 as [[]|e| |].
  - injection H as <- _. left; reflexivity.
  - apply (f_equal fst) in H. cbn [fst] in H. rewrite blame_loop_search in H by (assumption || lia).
    destruct (search_meaning (part_check fuel md sts pfs ts) 0 (S (length pfs)) 0 (length pfs)) as [(i & Hi & Hr & (a & Ha & (e' & He') & Hp1) & Hp2)|(a & b & Hab & Hb & Hx)].
    + lia.
    + destruct (Nat.eq_dec (length pfs) 1) as [He|]; [right; split; [lia|]; exists e; exact Hall|left; lia].
    + exists 0%nat. split; [lia|]. split; [exists e; exact Hall|constructor].
    + constructor.
    + lia.
    + cbv zeta in Hi. right; left. exists i, a. split; [congruence|]. split; [lia|].
      assert (HI : forall x y, acc_part (part_check fuel md sts pfs ts) x y -> part_accepted md sts pfs ts x y).
      { intros x y Hxy. eapply part_check_returns; [discriminate|exact Hxy]. }
      split; [eapply parts_impl; [exact HI|exact Hp2]|]. split; [exact Ha|].
      split; [exists e'; eapply part_check_returns; [discriminate|exact He']|eapply parts_impl; [exact HI|exact Hp1]].
    + cbv zeta in Hx. destruct Hx as [[Hx Hc]|[Hx Hc]]; [|congruence].
      right; right. split; [congruence|]. exists a, b. split; [lia|]. eapply part_check_returns; [discriminate|exact Hc].
  - injection H as <- _. right; right. split; [reflexivity|]. exists 0%nat, (length pfs). split; [lia|].
    eapply part_check_returns; [discriminate|exact Hall].
  - injection H as <- _. contradiction.
Qed.

(** If verification of sub-batches is exact, the blamed proof is the first invalid one. *)
Definition exact_parts (md : overflow_mode) (sts : list (statement E)) (pfs : list (proof E)) (ts : list transcript) : Prop :=
  forall a b, (a < b <= length pfs)%nat ->
    (part_accepted md sts pfs ts a b <-> forall i, (a <= i < b)%nat -> part_accepted md sts pfs ts i (S i)).

Lemma parts_bounds R a b : parts R a b -> (a <= b)%nat.
Proof. induction 1; lia. Qed.

Lemma parts_each md (sts : list (statement E)) pfs ts a b : exact_parts md sts pfs ts -> (b <= length pfs)%nat ->
  parts (part_accepted md sts pfs ts) a b -> forall i, (a <= i < b)%nat -> part_accepted md sts pfs ts i (S i).
Proof.
  intros He Hb. induction 1 as [a|a b c Hp IH Hlt HR]; intros i Hi; [lia|].
  destruct (Nat.lt_ge_cases i b) as [Hib|Hib]; [apply IH; lia|].
  apply (proj1 (He b c ltac:(lia)) HR). lia.
Qed.

Lemma single_blame_first md (sts : list (statement E)) pfs ts i ts' :
  length sts = length pfs -> length sts = length ts -> exact_parts md sts pfs ts ->
  single_blame_returns md sts pfs ts (Err (FailedBatchVerificationWithSingleBlame (Some i))) ts' ->
  (i < length pfs)%nat /\ ~ part_accepted md sts pfs ts i (S i) /\
  forall j, (j < i)%nat -> part_accepted md sts pfs ts j (S j).
Proof.
  intros Hl1 Hl2 He H. destruct (single_blame_result md sts pfs ts _ _ Hl1 Hl2 H) as [H1|[(i' & a & H1 & Hi & Hp & Ha & (e & Hrej) & Hp2)|[H1 _]]];
    try discriminate. injection H1 as <-. split; [exact Hi|].
  pose proof (parts_each md sts pfs ts 0 i He ltac:(lia) Hp) as Hall. split; [|intros j Hj; apply Hall; lia].
  intros Hacc. destruct Hrej as (ts1 & H1).
  assert (Hok : part_accepted md sts pfs ts a (S i)).
  { apply (He a (S i) ltac:(lia)). intros j Hj. destruct (Nat.eq_dec j i) as [->|]; [exact Hacc|apply Hall; lia]. }
  destruct Hok as (ts2 & H2). destruct (verify_batch_returns_det _ _ _ _ _ _ _ _ H1 H2). discriminate.
Qed.

(** Number of sub-batch verifications. *)
Lemma single_blame_iterations fuel md (sts : list (statement E)) pfs ts :
  length sts = length pfs -> length sts = length ts -> (2 <= length pfs)%nat ->
  blame_loop (S (length pfs)) fuel md sts pfs ts 0 (length pfs) =
  blame_loop (Nat.log2_up (length pfs)) fuel md sts pfs ts 0 (length pfs).
Proof.
  intros Hl1 Hl2 Hk. rewrite !blame_loop_search by (assumption || lia).
  apply search_fuel_enough; rewrite ?Nat.sub_0_r; try lia.
  pose proof (Nat.log2_up_le_lin (length pfs) ltac:(lia)). lia.
Qed.

(** * Full blame *)

Lemma full_blame_loop_spec fuel md : forall (sts : list (statement E)) pfs ts k l ts',
  full_blame_loop fuel md k sts pfs ts = (Ok l, ts') ->
  length ts' = length ts /\
  (forall i, In i l <-> exists j st pf t e t', i = (k + j)%nat /\ nth_error sts j = Some st /\ nth_error pfs j = Some pf /\
                                 nth_error ts j = Some t /\ verify fuel md pf st t = (Err e, t')) /\
  StronglySorted lt l /\ Forall (fun i => k <= i)%nat l /\
  (forall j st pf t, nth_error sts j = Some st -> nth_error pfs j = Some pf -> nth_error ts j = Some t ->
     nth_error ts' j = Some (snd (verify fuel md pf st t)) /\
     (fst (verify fuel md pf st t) = Ok tt \/ exists e, fst (verify fuel md pf st t) = Err e)).
Proof.
  induction sts as [|st sts IH]; intros pfs ts k l ts' H.
  { cbn in H. injection H as <- <-. split; [reflexivity|]. split.
    - intros i. split; [intros []|]. intros (j & st & pf & t & e & t' & _ & Hc & _). destruct j; discriminate.
    - split; [constructor|]. split; [constructor|]. intros [|j]; discriminate. }
  destruct pfs as [|pf pfs].
  { cbn in H. injection H as <- <-. split; [reflexivity|]. split.
    - intros i. split; [intros []|]. intros (j & st' & pf & t & e & t' & _ & _ & Hc & _). destruct j; discriminate.
    - split; [constructor|]. split; [constructor|]. intros j st' pf t _ Hc. destruct j; discriminate. }
  destruct ts as [|t ts].
  { cbn in H. injection H as <- <-. split; [reflexivity|]. split.
    - intros i. split; [intros []|]. intros (j & st' & pf' & t & e & t' & _ & _ & _ & Hc & _). destruct j; discriminate.
    - split; [constructor|]. split; [constructor|]. intros j st' pf' t _ _ Hc. destruct j; discriminate. }
  cbn [full_blame_loop] in H. destruct (verify fuel md pf st t) as [r t1] eqn:Hv.
  destruct r as [[]|e| |]; try discriminate;
    destruct (full_blame_loop fuel md (S k) sts pfs ts) as [fl ts1] eqn:Hl; destruct fl as [l1|?| |]; cbn [obind] in H; try discriminate;
    injection H as <- <-; destruct (IH pfs ts (S k) l1 ts1 Hl) as (H0 & H1 & H2 & H3 & H4); (split; [cbn [length]; lia|]).
  - split; [|split; [exact H2|split; [eapply Forall_impl; [|exact H3]; intros; simpl in *; lia|]]].
    + intros i. rewrite H1. split; intros (j & st' & pf' & t' & e & t2 & Hi & Ha & Hb & Hc & Hd).
      * exists (S j), st', pf', t', e, t2. split; [lia|]. repeat split; assumption.
      * destruct j as [|j]; cbn [nth_error] in *; [injection Ha as <-; injection Hb as <-; injection Hc as <-; congruence|].
        exists j, st', pf', t', e, t2. split; [lia|]. repeat split; assumption.
    + intros j st' pf' t' Ha Hb Hc. destruct j as [|j]; cbn [nth_error] in *.
      * injection Ha as <-; injection Hb as <-; injection Hc as <-. rewrite Hv. cbn [fst snd]. auto.
      * apply H4; assumption.
  - split; [|split; [|split]].
    + intros i. cbn [In]. rewrite H1. split.
      * intros [<-|(j & st' & pf' & t' & e' & t2 & Hi & Ha & Hb & Hc & Hd)].
        -- exists 0%nat, st, pf, t, e, t1. split; [lia|]. repeat split; assumption || reflexivity.
        -- exists (S j), st', pf', t', e', t2. split; [lia|]. repeat split; assumption.
      * intros (j & st' & pf' & t' & e' & t2 & Hi & Ha & Hb & Hc & Hd).
        destruct j as [|j]; cbn [nth_error] in *; [left; lia|right].
        exists j, st', pf', t', e', t2. split; [lia|]. repeat split; assumption.
    + constructor; [exact H2|]. eapply Forall_impl; [|exact H3]. intros; simpl in *; lia.
    + constructor; [lia|]. eapply Forall_impl; [|exact H3]. intros; simpl in *; lia.
    + intros j st' pf' t' Ha Hb Hc. destruct j as [|j]; cbn [nth_error] in *.
      * injection Ha as <-; injection Hb as <-; injection Hc as <-. rewrite Hv. cbn [fst snd]. split; [reflexivity|right; eexists; reflexivity].
      * apply H4; assumption.
Qed.

Lemma full_blame_ok_iff md (sts : list (statement E)) pfs ts ts' :
  full_blame_returns md sts pfs ts (Ok tt) ts' <-> ts' = ts /\ exists ts2, verify_batch_returns md sts pfs ts (Ok tt) ts2.
Proof.
  split.
  - intros (fuel & H & _). unfold verify_batch_with_full_blame in H. destruct (verify_batch fuel md sts pfs ts) as [r ts2] eqn:Hv. cbn [fst] in H.
    destruct r as [[]|e| |]; try discriminate.
    + injection H as <-. split; [reflexivity|]. exists ts2, fuel. split; [exact Hv|discriminate].
    + destruct (full_blame_loop _ _ _ _ _ _) as [fl ts3]. destruct fl; discriminate.
  - intros (-> & ts2 & fuel & H & _). exists fuel. split; [|discriminate].
    unfold verify_batch_with_full_blame. rewrite H. reflexivity.
Qed.

Lemma full_blame_result md (sts : list (statement E)) pfs ts e ts' : full_blame_returns md sts pfs ts (Err e) ts' ->
  (exists e' ts2, verify_batch_returns md sts pfs ts (Err e') ts2) /\
  exists l, e = FailedBatchVerificationWithFullBlame l /\ StronglySorted lt l /\ length ts' = length ts /\
  (forall i, In i l <-> exists st pf t e' t', nth_error sts i = Some st /\ nth_error pfs i = Some pf /\
                          nth_error ts i = Some t /\ verify_returns md pf st t (Err e') t') /\
  (forall i st pf t, nth_error sts i = Some st -> nth_error pfs i = Some pf -> nth_error ts i = Some t ->
     exists r t', verify_returns md pf st t r t' /\ nth_error ts' i = Some t' /\ (r = Ok tt \/ exists e', r = Err e')).
Proof.
  intros (fuel & H & _). unfold verify_batch_with_full_blame in H. destruct (verify_batch fuel md sts pfs ts) as [r ts2] eqn:Hv. cbn [fst] in H.
  destruct r as [[]|e'| |]; try discriminate.
  split; [exists e', ts2, fuel; split; [exact Hv|discriminate]|].
  destruct (full_blame_loop fuel md 0 sts pfs ts) as [fl ts3] eqn:Hl. destruct fl as [l|e1| |] eqn:Hfl; cbn [obind] in H; try discriminate.
  - injection H as <- <-. destruct (full_blame_loop_spec fuel md sts pfs ts 0 l ts3 Hl) as (H0 & H1 & H2 & _ & H4).
    exists l. split; [reflexivity|]. split; [exact H2|]. split; [exact H0|]. split.
    + intros i. rewrite H1. split.
      * intros (j & st & pf & t & e1 & t' & -> & Ha & Hb & Hc & Hd). exists st, pf, t, e1, t'. repeat split; try assumption.
        exists fuel. split; [exact Hd|discriminate].
      * intros (st & pf & t & e1 & t' & Ha & Hb & Hc & Hd). exists i, st, pf, t, e1, t'. split; [reflexivity|]. repeat split; try assumption.
        destruct (H4 i st pf t Ha Hb Hc) as (_ & Hr). destruct (verify fuel md pf st t) as [r t2] eqn:Hvv. cbn [fst] in Hr.
        destruct (verify_returns_det md pf st t (Err e1) t' r t2 Hd) as [-> ->]; [|reflexivity].
        exists fuel. split; [exact Hvv|]. destruct Hr as [->|(e2 & ->)]; discriminate.
    + intros i st pf t Ha Hb Hc. destruct (H4 i st pf t Ha Hb Hc) as (Hn & Hr).
      destruct (verify fuel md pf st t) as [r t2] eqn:Hvv. cbn [fst snd] in *.
      exists r, t2. split; [|split; assumption]. exists fuel. split; [exact Hvv|]. destruct Hr as [->|(e2 & ->)]; discriminate.
  - exfalso. clear - Hl. revert Hl. generalize 0%nat. revert pfs ts ts3. induction sts as [|st sts IH]; intros pfs ts ts3 k Hl; [discriminate|].
    destruct pfs as [|pf pfs]; [discriminate|]. destruct ts as [|t ts]; [discriminate|]. cbn [full_blame_loop] in Hl.
    destruct (verify fuel md pf st t) as [[]]; try discriminate;
      destruct (full_blame_loop fuel md (S k) sts pfs ts) as [[] ts4] eqn:Hl2; cbn [obind] in Hl; try discriminate;
      injection Hl as -> _; eapply IH; exact Hl2.
Qed.

End Blame.
