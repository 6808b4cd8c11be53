(** A single failed equation in a batch is always detected: no choice of nonzero weights hides it. *)
From Verif Require Import SpecPlainSound SpecTamper PlainFacts VerifierFacts Completeness Verdict Search Blame Soundness VerifierApi
  Properties_Blame.
From Verif Require Import Algebra.
From Coq Require Import Sorting.Sorted.

Section Lone.
Context {E : env} (L : env_laws E).

Lemma psum_lone : forall (l : list (pt E)) i x, nth_error l i = Some x -> x <> pid E ->
  (forall k y, k <> i -> nth_error l k = Some y -> y = pid E) -> psum l <> pid E.
Proof.
  induction l as [|a l IH]; intros i x Hi Hx Ho; [destruct i; discriminate|]. rewrite (psum_cons a l).
  destruct i as [|i].
  - injection Hi as ->. rewrite (psum_all_id L l).
    + rewrite (padd_0_r L). exact Hx.
    + apply Forall_forall. intros y Hy. apply In_nth_error in Hy. destruct Hy as [k Hk]. exact (Ho (S k) y ltac:(lia) Hk).
  - rewrite (Ho 0%nat a ltac:(lia) eq_refl). rewrite (padd_0_l E L). apply (IH i x Hi Hx).
    intros k y Hk Hy. exact (Ho (S k) y ltac:(lia) Hy).
Qed.

Lemma lincomb_lone ws (before : list (pt E)) d after : length ws = length (before ++ d :: after) -> ~ In s0 ws -> d <> pid E ->
  Forall (fun x => x = pid E) before -> Forall (fun x => x = pid E) after -> lincomb ws (before ++ d :: after) <> pid E.
Proof.
  intros Hl Hz Hd Hb Ha. rewrite app_length in Hl. cbn [length] in Hl.
  rewrite <- (firstn_skipn (length before) ws) in Hz |- *.
  rewrite (lincomb_app L) by (rewrite firstn_length; lia).
  rewrite (lincomb_all_id L _ before Hb). rewrite (padd_0_l E L).
  destruct (skipn (length before) ws) as [|w rest] eqn:Hs.
  - apply (f_equal (@length _)) in Hs. rewrite skipn_length in Hs. cbn [length] in Hs. lia.
  - rewrite lincomb_cons. rewrite (lincomb_all_id L _ after Ha). rewrite (padd_0_r L).
    intros Hc. apply Hd. apply (pmul_eq_0 L w d Hc). intros ->. apply Hz. apply in_or_app. right. left. reflexivity.
Qed.

Lemma defects_length (p : params E) M J pf xi : length (defects p M J pf xi) = 4%nat.
Proof. reflexivity. Qed.

Lemma weighted_lone (st0 : statement E) sts pfs ts ws i g : one_ring (st0 :: sts) ->
  length (st0 :: sts) = length pfs -> length (st0 :: sts) = length ts -> lone_failure (st0 :: sts) pfs ts i ->
  batch_weights (E := E) 4 (length pfs) g ws ->
  weighted_defects (st_get_params st0) (get_keys (st_get_input_set st0)) (st0 :: sts) pfs ts ws <> pid E.
Proof.
  intros Hr Hl1 Hl2 [(st & pf & t & Hm & _ & _ & before & d & after & Hd & Hdn & Hb & Ha) Ho] Hws.
  pose proof (batch_weights_len _ _ _ _ Hws) as [Hwl Hwr]. pose proof (batch_weights_nonzero _ _ _ _ Hws) as Hwz.
  assert (Hin : forall k a b c, member (st0 :: sts) pfs ts k a b c -> st_get_params a = st_get_params st0 /\ st_get_input_set a = st_get_input_set st0).
  { intros k a b c (Hs & _). apply nth_error_In in Hs. apply (Hr a st0 Hs). left. reflexivity. }
  destruct (nth_error ws i) as [w|] eqn:Hw.
  2:{ apply nth_error_None in Hw. destruct Hm as (_ & Hp & _). assert (i < length pfs)%nat by (apply nth_error_Some; congruence). lia. }
  set (F := fun x : statement E * proof E * transcript * list scalar =>
         let '(st, pf, t, w) := x in lincomb w (defects (st_get_params st0) (get_keys (st_get_input_set st0)) (st_get_J st) pf (challenge t st pf))).
  change (psum (map F (combine (combine (combine (st0 :: sts) pfs) ts) ws)) <> pid E).
  pose proof (Hin _ _ _ _ Hm) as [Hp Hk]. rewrite Hp, Hk in Hd.
  apply (psum_lone _ i (lincomb w (defects (st_get_params st0) (get_keys (st_get_input_set st0)) (st_get_J st) pf (challenge t st pf)))).
  - rewrite nth_error_map.
    assert (Hc : nth_error (combine (combine (combine (st0 :: sts) pfs) ts) ws) i = Some (st, pf, t, w)).
    { apply nth_error_combine. split; [apply member_combine; exact Hm|exact Hw]. }
    rewrite Hc. reflexivity.
  - rewrite Hd. apply lincomb_lone; try assumption.
    + rewrite <- Hd, defects_length. rewrite Forall_forall in Hwr. apply Hwr. apply nth_error_In in Hw. exact Hw.
    + rewrite Forall_forall in Hwz. apply Hwz. apply nth_error_In in Hw. exact Hw.
  - intros k y Hki Hy. rewrite nth_error_map in Hy.
    destruct (nth_error (combine (combine (combine (st0 :: sts) pfs) ts) ws) k) as [[[[a b] c] v]|] eqn:Hc; [|discriminate].
    apply nth_error_combine in Hc. destruct Hc as [Hc _]. apply member_combine in Hc. injection Hy as <-.
    destruct (Ho k a b c Hki Hc) as (_ & _ & _ & He). pose proof (Hin _ _ _ _ Hc) as [Hpa Hka]. rewrite Hpa, Hka in He.
    apply (lincomb_all_id L). apply (defects_zero L). exact He.
Qed.

(** The batch call. *)
Lemma lone_batch md (st0 : statement E) sts pfs ts i : made_statement st0 -> one_ring (st0 :: sts) ->
  length (st0 :: sts) = length pfs -> length (st0 :: sts) = length ts -> fits md (st_get_params st0) (N.of_nat (length pfs)) ->
  lone_failure (st0 :: sts) pfs ts i ->
  (forall r ts', verify_batch_returns md (st0 :: sts) pfs ts r ts' ->
     r = Err FailedVerification /\ ts' = verified_transcripts (st0 :: sts) pfs ts) /\
  (weights_terminate (E := E) 4 ->
     verify_batch_returns md (st0 :: sts) pfs ts (Err FailedVerification) (verified_transcripts (st0 :: sts) pfs ts)).
Proof.
  intros Hm Hr Hl1 Hl2 Hf Hlone. pose proof (made_statement_good L st0 Hm) as Hg.
  assert (Hin : forall k a b c, member (st0 :: sts) pfs ts k a b c -> st_get_params a = st_get_params st0 /\ st_get_input_set a = st_get_input_set st0).
  { intros k a b c (Hs & _). apply nth_error_In in Hs. apply (Hr a st0 Hs). left. reflexivity. }
  assert (Hsr : Forall (same_ring st0) sts).
  { apply Forall_forall. intros s Hs. destruct (Hr s st0 (or_intror Hs) (or_introl eq_refl)) as [Ha Hb].
    unfold same_ring. rewrite Ha, Hb. split; reflexivity. }
  assert (Hall : forall k a b c, member (st0 :: sts) pfs ts k a b c -> well_shaped (st_get_params st0) b /\ nondegenerate c a b).
  { intros k a b c Hk. destruct (Hin _ _ _ _ Hk) as [Hp _]. destruct Hlone as [(st & pf & t & Hmi & Hw & Hn & _) Ho].
    destruct (Nat.eq_dec k i) as [->|Hne].
    - destruct Hk as (H1 & H2 & H3), Hmi as (H4 & H5 & H6). assert (a = st) by congruence. assert (b = pf) by congruence. assert (c = t) by congruence.
      subst a b c. rewrite <- Hp. split; assumption.
    - destruct (Ho k a b c Hne Hk) as (H1 & H2 & H3 & _). rewrite <- Hp. split; [exact H1|split; assumption]. }
  assert (Hws : Forall (well_shaped (st_params st0)) pfs).
  { apply (forall_pfs_member _ (st0 :: sts) pfs ts Hl1 Hl2). intros k a b c Hk. exact (proj1 (Hall k a b c Hk)). }
  assert (Hnd : Forall nondeg (combine (combine (st0 :: sts) pfs) ts)).
  { apply (forall_member (fun st pf t => nondegenerate t st pf) (st0 :: sts) pfs ts). intros k a b c Hk. exact (proj2 (Hall k a b c Hk)). }
  assert (Hch : Forall (fun x => challenge (snd x) (fst (fst x)) (snd (fst x)) <> s0) (combine (combine (st0 :: sts) pfs) ts)).
  { eapply Forall_impl; [|exact Hnd]. intros x [Hx _]. exact Hx. }
  split.
  - intros r ts' (fuel & Hv & Hne).
    destruct (verify_batch_run L fuel md st0 sts pfs ts Hg Hl1 Hl2 Hsr Hws Hf Hch) as [Ht Hc]. rewrite Hv in Ht, Hc. cbn [fst snd] in Ht, Hc.
    split; [|exact Ht]. destruct Hc as [Hc|[[_ Hc]|(_ & ws & Hw & Hc)]]; [contradiction|contradiction|].
    destruct (peqb E _ _) eqn:Hp; [|exact Hc]. exfalso. apply (peqb_eq E L) in Hp.
    exact (weighted_lone st0 sts pfs ts ws i _ Hr Hl1 Hl2 Hlone Hw Hp).
  - intros Ht. destruct (batch_weights_exist 4 Ht (length pfs) (weight_rng (st0 :: sts) pfs ts)) as [ws Hw].
    pose proof (verify_batch_decides L md st0 sts pfs ts ws Hg Hl1 Hl2 Hsr Hws Hf Hnd Hw) as H.
    destruct (peqb E _ _) eqn:Hp; [|exact H]. exfalso. apply (peqb_eq E L) in Hp.
    exact (weighted_lone st0 sts pfs ts ws i _ Hr Hl1 Hl2 Hlone Hw Hp).
Qed.

(** Contiguous parts of the batch. *)
Lemma member_sub (sts : list (statement E)) pfs ts a b k st pf t : length sts = length pfs -> length sts = length ts -> (b <= length pfs)%nat ->
  member (sub sts a b) (sub pfs a b) (sub ts a b) k st pf t <-> (a + k < b)%nat /\ member sts pfs ts (a + k) st pf t.
Proof.
  intros H1 H2 Hb. unfold member. split.
  - intros (Hs & Hp & Ht).
    assert (Hk : (a + k < b)%nat).
    { assert (k < length (sub pfs a b))%nat by (apply nth_error_Some; congruence). rewrite sub_length in H by lia. lia. }
    split; [exact Hk|]. rewrite nth_error_sub in Hs by lia. rewrite nth_error_sub in Hp by lia. rewrite nth_error_sub in Ht by lia. repeat split; assumption.
  - intros (Hk & Hs & Hp & Ht). split; [|split]; rewrite nth_error_sub by lia; assumption.
Qed.
Lemma fits_le md (p : params E) b b' : (b' <= b)%N -> fits md p b -> fits md p b'.
Proof. intros Hb [H1 H2]. split; [lia|]. destruct H2 as [H2|H2]; [left; exact H2|right]. unfold msm_size in *. nia. Qed.

Lemma lone_part md (st0 : statement E) sts pfs ts i : Forall made_statement (st0 :: sts) -> one_ring (st0 :: sts) ->
  length (st0 :: sts) = length pfs -> length (st0 :: sts) = length ts -> fits md (st_get_params st0) (N.of_nat (length pfs)) ->
  lone_failure (st0 :: sts) pfs ts i ->
  forall a b r, (a < b <= length pfs)%nat -> part_returns md (st0 :: sts) pfs ts a b r ->
    ((a <= i < b)%nat -> r = Err FailedVerification) /\ (~ (a <= i < b)%nat -> r = Ok tt).
Proof.
  intros Hm Hr Hl1 Hl2 Hf Hlone a b r Hab (ts' & H). remember (st0 :: sts) as all eqn:Hall.
  pose proof (sub_length all a b ltac:(lia)) as Hsl.
  destruct (sub all a b) as [|s0' rest] eqn:Hs; [cbn [length] in Hsl; lia|]. rewrite <- Hs in Hsl.
  assert (Hsub : forall s, In s (s0' :: rest) -> In s all) by (intros s Hi; rewrite <- Hs in Hi; exact (in_sub _ _ _ _ Hi)).
  assert (Hm' : made_statement s0').
  { rewrite Forall_forall in Hm. apply Hm. apply Hsub. left. reflexivity. }
  assert (Hr' : one_ring (s0' :: rest)) by (intros x y Hx Hy; exact (Hr x y (Hsub x Hx) (Hsub y Hy))).
  assert (Hp0 : st_get_params s0' = st_get_params st0).
  { apply (Hr s0' st0); [apply Hsub; left; reflexivity|rewrite Hall; left; reflexivity]. }
  assert (Hl1' : length (s0' :: rest) = length (sub pfs a b)) by (rewrite <- Hs; rewrite sub_length by lia; rewrite sub_length by lia; reflexivity).
  assert (Hl2' : length (s0' :: rest) = length (sub ts a b)) by (rewrite <- Hs; rewrite sub_length by lia; rewrite sub_length by lia; reflexivity).
  assert (Hf' : fits md (st_get_params s0') (N.of_nat (length (sub pfs a b)))).
  { rewrite Hp0. apply (fits_le md _ (N.of_nat (length pfs))); [rewrite sub_length by lia; lia|exact Hf]. }
  split.
  - intros Hi. destruct Hlone as [(st & pf & t & Hmi & Hone) Ho].
    assert (Hl' : lone_failure (s0' :: rest) (sub pfs a b) (sub ts a b) (i - a)).
    { split.
      - exists st, pf, t. split; [|exact Hone]. rewrite <- Hs. apply member_sub; try lia.
        replace (a + (i - a))%nat with i by lia. split; [lia|exact Hmi].
      - intros k st' pf' t' Hk Hmk. rewrite <- Hs in Hmk. apply member_sub in Hmk; try lia. destruct Hmk as [Hk1 Hmk].
        exact (Ho (a + k)%nat st' pf' t' ltac:(lia) Hmk). }
    exact (proj1 (proj1 (lone_batch md s0' rest (sub pfs a b) (sub ts a b) (i - a) Hm' Hr' Hl1' Hl2' Hf' Hl') r ts' H)).
  - intros Hi.
    assert (Hv : all_valid (s0' :: rest) (sub pfs a b) (sub ts a b)).
    { intros k st' pf' t' Hmk. rewrite <- Hs in Hmk. apply member_sub in Hmk; try lia. destruct Hmk as [Hk1 Hmk].
      exact (proj2 Hlone (a + k)%nat st' pf' t' ltac:(lia) Hmk). }
    exact (proj1 (proj1 (batch_of_valid L md s0' rest (sub pfs a b) (sub ts a b) Hm' Hr' Hl1' Hl2' Hv Hf') r ts' H)).
Qed.

Lemma parts_avoid (R : nat -> nat -> Prop) (bound i : nat) : (forall a b, (a < b <= bound)%nat -> R a b -> ~ (a <= i < b)%nat) ->
  forall a b, parts R a b -> (b <= bound)%nat -> ~ (a <= i < b)%nat.
Proof.
  intros H a b Hp. induction Hp as [a|a b c Hp IH Hbc Hr]; intros Hc Hi; [lia|].
  specialize (H b c ltac:(lia) Hr). specialize (IH ltac:(lia)). lia.
Qed.

Lemma lone_single_blame md (st0 : statement E) sts pfs ts i : Forall made_statement (st0 :: sts) -> one_ring (st0 :: sts) ->
  length (st0 :: sts) = length pfs -> length (st0 :: sts) = length ts -> fits md (st_get_params st0) (N.of_nat (length pfs)) ->
  lone_failure (st0 :: sts) pfs ts i ->
  forall r ts', single_blame_returns md (st0 :: sts) pfs ts r ts' ->
    r = Err (FailedBatchVerificationWithSingleBlame (Some i)) /\ ts' = ts.
Proof.
  intros Hm Hr Hl1 Hl2 Hf Hlone r ts' H.
  assert (Hts : ts' = ts).
  { destruct H as (fuel & H & _). pose proof (single_blame_frame fuel md (st0 :: sts) pfs ts) as Hfr. rewrite H in Hfr. exact Hfr. }
  split; [|exact Hts]. subst ts'.
  pose proof (lone_part md st0 sts pfs ts i Hm Hr Hl1 Hl2 Hf Hlone) as Hpart.
  destruct (single_blame_result md (st0 :: sts) pfs ts r ts Hl1 Hl2 H) as [->|[(i' & a & -> & Hi' & Hacc & Ha & [e Hrej] & _)|(-> & a & b & Hab & Hp)]].
  - exfalso. apply single_blame_ok_iff in H. destruct H as [_ [ts2 H]].
    pose proof (proj1 (lone_batch md st0 sts pfs ts i (Forall_inv Hm) Hr Hl1 Hl2 Hf Hlone) _ _ H) as [Hc _]. discriminate.
  - assert (H1 : ~ (0 <= i < i')%nat).
    { refine (parts_avoid _ (length pfs) i _ 0 i' Hacc ltac:(lia)).
      intros x y Hxy Hxp Hin. destruct (Hpart x y (Ok tt) Hxy Hxp) as [Hc _]. specialize (Hc Hin). discriminate. }
    destruct (Hpart a (S i') (Err e) ltac:(lia) Hrej) as [_ Hc].
    assert (a <= i < S i')%nat.
    { destruct (le_lt_dec a i) as [Hai|Hai]; [destruct (le_lt_dec (S i') i) as [Hii|Hii]|]; try lia;
        exfalso; specialize (Hc ltac:(lia)); discriminate. }
    replace i with i' by lia. reflexivity.
  - exfalso. destruct (Hpart a b Panic Hab Hp) as [Hc1 Hc2].
    destruct (le_lt_dec a i) as [Hai|Hai]; [destruct (le_lt_dec b i) as [Hii|Hii]|].
    + specialize (Hc2 ltac:(lia)). discriminate.
    + specialize (Hc1 ltac:(lia)). discriminate.
    + specialize (Hc2 ltac:(lia)). discriminate.
Qed.

Lemma sub_one {A} (l : list A) k x : nth_error l k = Some x -> sub l k (S k) = [x].
Proof.
  intros H. unfold sub. replace (S k - k)%nat with 1%nat by lia. revert k H.
  induction l as [|a l IH]; intros [|k] H; try discriminate; cbn [skipn].
  - injection H as ->. reflexivity.
  - exact (IH k H).
Qed.
Lemma part_single md (sts : list (statement E)) pfs ts k st pf t r t' : member sts pfs ts k st pf t ->
  verify_returns md pf st t r t' -> part_returns md sts pfs ts k (S k) r.
Proof.
  intros (H1 & H2 & H3) Hv. apply verify_returns_batch in Hv. exists [t'].
  rewrite (sub_one sts k st H1), (sub_one pfs k pf H2), (sub_one ts k t H3). exact Hv.
Qed.

Lemma full_blame_loop_panics fuel md : forall (sts : list (statement E)) pfs ts k,
  fst (full_blame_loop fuel md k sts pfs ts) = Panic -> exists j st pf t t', member sts pfs ts j st pf t /\ verify fuel md pf st t = (Panic, t').
Proof.
  induction sts as [|st sts IH]; intros pfs ts k; [discriminate|].
  destruct pfs as [|pf pfs]; [discriminate|]. destruct ts as [|t ts]; [discriminate|].
  cbn [full_blame_loop]. destruct (verify fuel md pf st t) as [r t'] eqn:Hv.
  specialize (IH pfs ts (S k)). destruct (full_blame_loop fuel md (S k) sts pfs ts) as [fl us]. cbn [fst] in IH.
  assert (Hrec : fl = Panic -> exists j st' pf' t0 t0', member (st :: sts) (pf :: pfs) (t :: ts) j st' pf' t0 /\ verify fuel md pf' st' t0 = (Panic, t0')).
  { intros Hfl. destruct (IH Hfl) as (j & a & b & c & d & (H1 & H2 & H3) & H). exists (S j), a, b, c, d. split; [|exact H].
    split; [exact H1|split; assumption]. }
  destruct r as [u|e| |]; cbn [fst]; intros H; [exact (Hrec H)| | |discriminate].
  - apply Hrec. destruct fl; try discriminate. reflexivity.
  - exists 0%nat, st, pf, t, t'. split; [repeat split|exact Hv].
Qed.
Lemma full_blame_panics md (sts : list (statement E)) pfs ts ts' : full_blame_returns md sts pfs ts Panic ts' ->
  (exists ts2, verify_batch_returns md sts pfs ts Panic ts2) \/
  exists k st pf t t', member sts pfs ts k st pf t /\ verify_returns md pf st t Panic t'.
Proof.
  intros (fuel & H & _). unfold verify_batch_with_full_blame in H.
  destruct (verify_batch fuel md sts pfs ts) as [r ts2] eqn:Hv. cbn [fst] in H. destruct r as [u|e| |]; try discriminate.
  - right. pose proof (full_blame_loop_panics fuel md sts pfs ts 0) as Hp.
    destruct (full_blame_loop fuel md 0 sts pfs ts) as [fl us]. cbn [fst] in Hp.
    destruct fl; try discriminate. destruct (Hp eq_refl) as (k & st & pf & t & t' & Hm & Hvv).
    exists k, st, pf, t, t'. split; [exact Hm|]. exists fuel. split; [exact Hvv|discriminate].
  - left. exists ts2, fuel. split; [exact Hv|discriminate].
Qed.

Lemma sorted_only (l : list nat) i : StronglySorted lt l -> (forall k, In k l <-> k = i) -> l = [i].
Proof.
  intros Hs Hl. destruct l as [|a l]; [exfalso; exact (proj2 (Hl i) eq_refl)|].
  assert (a = i) by (apply Hl; left; reflexivity). subst a. destruct l as [|b l]; [reflexivity|exfalso].
  assert (b = i) by (apply Hl; right; left; reflexivity). subst b. inversion Hs as [|? ? _ Hf]. inversion Hf. lia.
Qed.

Lemma lone_full_blame md (st0 : statement E) sts pfs ts i : Forall made_statement (st0 :: sts) -> one_ring (st0 :: sts) ->
  length (st0 :: sts) = length pfs -> length (st0 :: sts) = length ts -> fits md (st_get_params st0) (N.of_nat (length pfs)) ->
  lone_failure (st0 :: sts) pfs ts i ->
  forall r ts', full_blame_returns md (st0 :: sts) pfs ts r ts' -> r = Err (FailedBatchVerificationWithFullBlame [i]).
Proof.
  intros Hm Hr Hl1 Hl2 Hf Hlone r ts' H.
  pose proof (lone_part md st0 sts pfs ts i Hm Hr Hl1 Hl2 Hf Hlone) as Hpart.
  assert (Hk : forall k st pf t, member (st0 :: sts) pfs ts k st pf t -> (k < length pfs)%nat).
  { intros k st pf t (_ & H2 & _). apply nth_error_Some. congruence. }
  destruct r as [[]|e| |].
  - exfalso. apply full_blame_ok_iff in H. destruct H as [_ [ts2 H]].
    pose proof (proj1 (lone_batch md st0 sts pfs ts i (Forall_inv Hm) Hr Hl1 Hl2 Hf Hlone) _ _ H) as [Hc _]. discriminate.
  - destruct (full_blame_result md (st0 :: sts) pfs ts e ts' H) as (_ & l & -> & Hs & _ & Hin & Heach).
    assert (Hl : forall k, In k l <-> k = i).
    { intros k. rewrite Hin. split.
      - intros (st & pf & t & e' & t' & Hk1 & Hk2 & Hk3 & Hv).
        destruct (Nat.eq_dec k i) as [|Hne]; [assumption|exfalso].
        pose proof (conj Hk1 (conj Hk2 Hk3) : member (st0 :: sts) pfs ts k st pf t) as Hmk. pose proof (Hk k st pf t Hmk).
        destruct (Hpart k (S k) (Err e') ltac:(lia) (part_single md _ _ _ k st pf t _ t' Hmk Hv)) as [_ Hc]. specialize (Hc ltac:(lia)). discriminate.
      - intros ->. pose proof Hlone as [(st & pf & t & Hmi & _) _]. pose proof (Hk i st pf t Hmi). pose proof Hmi as (Hi1 & Hi2 & Hi3).
        destruct (Heach i st pf t Hi1 Hi2 Hi3) as (r & t' & Hv & _ & _).
        destruct (Hpart i (S i) r ltac:(lia) (part_single md _ _ _ i st pf t r t' Hmi Hv)) as [Hc _]. rewrite (Hc ltac:(lia)) in Hv.
        exists st, pf, t, FailedVerification, t'. repeat split; assumption. }
    rewrite (sorted_only l i Hs Hl). reflexivity.
  - exfalso. destruct (full_blame_panics md (st0 :: sts) pfs ts ts' H) as [[ts2 Hv]|(k & st & pf & t & t' & Hmk & Hv)].
    + pose proof (proj1 (lone_batch md st0 sts pfs ts i (Forall_inv Hm) Hr Hl1 Hl2 Hf Hlone) _ _ Hv) as [Hc _]. discriminate.
    + pose proof (Hk k st pf t Hmk). destruct (Hpart k (S k) Panic ltac:(lia) (part_single md _ _ _ k st pf t Panic t' Hmk Hv)) as [Hc1 Hc2].
      destruct (Nat.eq_dec k i) as [->|Hne]; [specialize (Hc1 ltac:(lia))|specialize (Hc2 ltac:(lia))]; discriminate.
  - exfalso. destruct H as (fuel & _ & Hc). apply Hc. reflexivity.
Qed.

(** Replacing a response of a valid proof. *)
Lemma com_other_mask CG H F x y (Q : pt E) : H <> pid E -> x <> y -> psub (com CG H F y) Q = pid E -> psub (com CG H F x) Q <> pid E.
Proof.
  intros HH Hne Hy Hx. apply (proj1 (psub_0 L _ _)) in Hx, Hy. apply Hne. apply (pmul_inj_l L x y H HH).
  apply (padd_cancel_l L (lincomb (concat F) CG)). exact (eq_trans Hx (eq_sym Hy)).
Qed.
Lemma tamper_z_A t (st : statement E) pf x : get_CommitmentH (st_get_params st) <> pid E -> valid_proof t st pf -> x <> pf_z_A pf ->
  one_failed_equation t st (with_z_A pf x).
Proof.
  intros HH (Hw & Hx & Hz & He) Hne. split; [exact Hw|]. split; [split; assumption|].
  change (challenge t st (with_z_A pf x)) with (challenge t st pf).
  apply (defects_zero L) in He. unfold defects in *. pose proof (Forall_inv He) as He1. pose proof (Forall_inv_tail He) as He2.
  exists []. eexists _, _. split; [reflexivity|]. split; [|split; [constructor|exact He2]].
  exact (com_other_mask _ _ _ x (pf_z_A pf) _ HH Hne He1).
Qed.
Lemma tamper_z_C t (st : statement E) pf x : get_CommitmentH (st_get_params st) <> pid E -> valid_proof t st pf -> x <> pf_z_C pf ->
  one_failed_equation t st (with_z_C pf x).
Proof.
  intros HH (Hw & Hx & Hz & He) Hne. split; [exact Hw|]. split; [split; assumption|].
  change (challenge t st (with_z_C pf x)) with (challenge t st pf).
  apply (defects_zero L) in He. unfold defects in *. pose proof (Forall_inv He) as He1. pose proof (Forall_inv_tail He) as He'.
  pose proof (Forall_inv He') as He2. pose proof (Forall_inv_tail He') as He3.
  eexists [_], _, _. split; [reflexivity|]. split; [|split; [constructor; [exact He1|constructor]|exact He3]].
  exact (com_other_mask _ _ _ x (pf_z_C pf) _ HH Hne He2).
Qed.
(** The two defects of a proof whose [z] was replaced. *)
Lemma tamper_z_defects t (st : statement E) pf x : valid_proof t st pf ->
  defects (st_get_params st) (get_keys (st_get_input_set st)) (st_get_J st) (with_z pf x) (challenge t st pf) =
  [pid E; pid E; pmul E (pf_z pf - x)%sc (get_G (st_get_params st)); pmul E (pf_z pf - x)%sc (st_get_J st)].
Proof.
  intros (_ & _ & _ & He). apply (defects_zero L) in He. unfold defects in He |- *.
  pose proof (Forall_inv He) as He1. pose proof (Forall_inv_tail He) as He'. pose proof (Forall_inv He') as He2.
  pose proof (Forall_inv_tail He') as He''. pose proof (Forall_inv He'') as He3. pose proof (Forall_inv (Forall_inv_tail He'')) as He4.
  clear He He' He''. cbn [with_z pf_A pf_B pf_C pf_D pf_X pf_Y pf_f pf_z_A pf_z_C pf_z] in *.
  rewrite He1, He2. apply (proj1 (psub_0 L _ _)) in He3, He4. rewrite He3, He4. clear He1 He2 He3 He4.
  generalize (lincomb (powers (challenge t st pf) (N.to_nat (get_m (st_get_params st)))) (pf_X pf)).
  generalize (lincomb (powers (challenge t st pf) (N.to_nat (get_m (st_get_params st)))) (pf_Y pf)).
  generalize (get_G (st_get_params st)), (st_get_J st), (pf_z pf). intros G J z Q Q'.
  f_equal. f_equal. f_equal; [module L|]. f_equal. module L.
Qed.

End Lone.
