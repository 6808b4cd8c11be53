(** The verification calls made by the two blame functions: the functions of ParVerifier.v again, returning in addition the
    half-open ranges of the batch that are handed to [verify_batch] (or [verify]), in order. *)
From Verif Require Export ParVerifier.
From Verif Require Import Search.

Section ParCalls.
Context {E : env}.

(** parallel/proof.rs lines 487-540: as [blame_loop], with the calls made. *)
Fixpoint blame_loop_calls (search_fuel : nat) (fuel : nat) (md : overflow_mode) (statements : list (statement E))
    (proofs : list (proof E)) (transcripts : list transcript) (left right : nat) : outcome proof_error unit * list (nat * nat) :=
  if (left <? right)%nat then
    match search_fuel with
    | O => (OutOfFuel, [])
    | S search_fuel' =>
        let average := (left + (right - left) / 2)%nat in
        let mid := if ((right - left) mod 2 =? 0)%nat then average else (average + 1)%nat in
        match (let* sts := slice statements left mid in
               let* pfs := slice proofs left mid in
               let* ts := slice transcripts left mid in Ok (sts, pfs, ts)) with
        | Panic => (Panic, [])
        | OutOfFuel => (OutOfFuel, [])
        | Err e => (Err e, [])
        | Ok (sts, pfs, ts) =>
            let (result, later) :=
              match fst (verify_batch fuel md sts pfs ts) with
              | Panic => (Panic, [])
              | OutOfFuel => (OutOfFuel, [])
              | Err _ =>
                  match mid with
                  | O => (Err (FailedBatchVerificationWithSingleBlame None), [])
                  | S left_check =>
                      if (left =? left_check)%nat then (Err (FailedBatchVerificationWithSingleBlame (Some left)), [])
                      else blame_loop_calls search_fuel' fuel md statements proofs transcripts left mid
                  end
              | Ok _ =>
                  if (right =? mid + 1)%nat then
                    match right with
                    | O => (Err (FailedBatchVerificationWithSingleBlame None), [])
                    | S right_result => (Err (FailedBatchVerificationWithSingleBlame (Some right_result)), [])
                    end
                  else blame_loop_calls search_fuel' fuel md statements proofs transcripts mid right
              end in
            (result, (left, mid) :: later)
        end
    end
  else (Err (FailedBatchVerificationWithSingleBlame None), []).

(** parallel/proof.rs lines 473-541: as [verify_batch_with_single_blame], with the calls made; the first is on the whole batch. *)
Definition single_blame_calls (fuel : nat) (md : overflow_mode) (statements : list (statement E))
    (proofs : list (proof E)) (transcripts : list transcript)
    : outcome proof_error unit * list transcript * list (nat * nat) :=
  let whole := (0%nat, length proofs) in
  match fst (verify_batch fuel md statements proofs transcripts) with
  | Ok _ => (Ok tt, transcripts, [whole])
  | Panic => (Panic, transcripts, [whole])
  | OutOfFuel => (OutOfFuel, transcripts, [whole])
  | Err _ =>
      let (result, later) := blame_loop_calls (S (length proofs)) fuel md statements proofs transcripts 0 (length proofs) in
      (result, transcripts, whole :: later)
  end.

(** parallel/proof.rs lines 566-573: as [full_blame_loop], with the calls made. *)
Fixpoint full_blame_loop_calls (fuel : nat) (md : overflow_mode) (index : nat) (statements : list (statement E))
    (proofs : list (proof E)) (transcripts : list transcript)
    : outcome proof_error (list nat) * list transcript * list (nat * nat) :=
  match statements, proofs, transcripts with
  | st :: sts, pf :: pfs, t :: ts =>
      let (res, t) := verify fuel md pf st t in
      match res with
      | Panic => (Panic, t :: ts, [(index, S index)])
      | OutOfFuel => (OutOfFuel, t :: ts, [(index, S index)])
      | Ok _ =>
          let '(failures, ts, later) := full_blame_loop_calls fuel md (S index) sts pfs ts in
          (failures, t :: ts, (index, S index) :: later)
      | Err _ =>
          let '(failures, ts, later) := full_blame_loop_calls fuel md (S index) sts pfs ts in
          (let* l := failures in Ok (index :: l), t :: ts, (index, S index) :: later)
      end
  | _, _, _ => (Ok [], transcripts, [])
  end.

(** parallel/proof.rs lines 556-576: as [verify_batch_with_full_blame], with the calls made. *)
Definition full_blame_calls (fuel : nat) (md : overflow_mode) (statements : list (statement E))
    (proofs : list (proof E)) (transcripts : list transcript)
    : outcome proof_error unit * list transcript * list (nat * nat) :=
  let whole := (0%nat, length proofs) in
  match fst (verify_batch fuel md statements proofs transcripts) with
  | Ok _ => (Ok tt, transcripts, [whole])
  | Panic => (Panic, transcripts, [whole])
  | OutOfFuel => (OutOfFuel, transcripts, [whole])
  | Err _ =>
      let '(failures, transcripts, later) := full_blame_loop_calls fuel md 0 statements proofs transcripts in
      (let* l := failures in Err (FailedBatchVerificationWithFullBlame l), transcripts, whole :: later)
  end.

(** * The instrumented functions compute the same results *)

Lemma blame_loop_calls_fst fuel md sts pfs ts : forall sf left right,
  fst (blame_loop_calls sf fuel md sts pfs ts left right) = blame_loop sf fuel md sts pfs ts left right.
Proof.
  induction sf as [|sf IH]; intros left right; cbn [blame_loop_calls blame_loop].
  - destruct (left <? right)%nat; reflexivity.
  - destruct (left <? right)%nat; [|reflexivity]. cbv zeta.
    set (mid := if (_ =? 0)%nat then _ else _). clearbody mid.
    destruct (slice sts left mid) as [ss|e| |]; cbn [obind]; try reflexivity.
    destruct (slice pfs left mid) as [ps|e| |]; cbn [obind]; try reflexivity.
    destruct (slice ts left mid) as [us|e| |]; cbn [obind]; try reflexivity.
    destruct (fst (verify_batch fuel md ss ps us)) as [u|e| |]; try reflexivity.
    + destruct (right =? mid + 1)%nat; [destruct right; reflexivity|]. rewrite <- IH.
      destruct (blame_loop_calls sf fuel md sts pfs ts mid right). reflexivity.
    + destruct mid as [|lc]; [reflexivity|]. destruct (left =? lc)%nat; [reflexivity|]. rewrite <- IH.
      destruct (blame_loop_calls sf fuel md sts pfs ts left (S lc)). reflexivity.
Qed.

Lemma single_blame_calls_fst fuel md sts pfs ts :
  fst (single_blame_calls fuel md sts pfs ts) = verify_batch_with_single_blame fuel md sts pfs ts.
Proof.
  unfold single_blame_calls, verify_batch_with_single_blame.
  destruct (fst (verify_batch fuel md sts pfs ts)) as [u|e| |]; try reflexivity.
  rewrite <- blame_loop_calls_fst. destruct (blame_loop_calls _ _ _ _ _ _ _ _). reflexivity.
Qed.

Lemma full_blame_loop_calls_fst fuel md : forall sts pfs ts k,
  fst (full_blame_loop_calls fuel md k sts pfs ts) = full_blame_loop fuel md k sts pfs ts.
Proof.
  induction sts as [|st sts IH]; intros pfs ts k; [reflexivity|].
  destruct pfs as [|pf pfs]; [reflexivity|]. destruct ts as [|t ts]; [reflexivity|].
  cbn [full_blame_loop_calls full_blame_loop]. destruct (verify fuel md pf st t) as [r t'].
  specialize (IH pfs ts (S k)). destruct (full_blame_loop_calls fuel md (S k) sts pfs ts) as [[fl us] later]. cbn [fst] in IH.
  rewrite <- IH. destruct r; reflexivity.
Qed.

Lemma full_blame_calls_fst fuel md sts pfs ts :
  fst (full_blame_calls fuel md sts pfs ts) = verify_batch_with_full_blame fuel md sts pfs ts.
Proof.
  unfold full_blame_calls, verify_batch_with_full_blame.
  destruct (fst (verify_batch fuel md sts pfs ts)) as [u|e| |]; try reflexivity.
  rewrite <- full_blame_loop_calls_fst. destruct (full_blame_loop_calls _ _ _ _ _ _) as [[fl us] later]. reflexivity.
Qed.

(** * How many calls *)

Definition total_size (calls : list (nat * nat)) : nat := list_sum (map (fun c => snd c - fst c)%nat calls).

Lemma one_call left right k a b : (left <= a < b)%nat -> (b <= right)%nat ->
  (length [(a, b)] <= Nat.max 1 k)%nat /\ (total_size [(a, b)] <= right - left + k)%nat /\
  Forall (fun c => left <= fst c < snd c /\ snd c <= right)%nat [(a, b)].
Proof.
  intros H1 H2. split; [cbn [length]; lia|]. split; [unfold total_size; cbn [map list_sum fold_right fst snd]; lia|].
  constructor; [cbn [fst snd]; lia|constructor].
Qed.
Lemma no_call left right k :
  (length (@nil (nat * nat)) <= Nat.max 1 k)%nat /\ (total_size [] <= right - left + k)%nat /\
  Forall (fun c => left <= fst c < snd c /\ snd c <= right)%nat (@nil (nat * nat)).
Proof. split; [cbn [length]; lia|]. split; [unfold total_size; cbn [map list_sum fold_right]; lia|constructor]. Qed.

Lemma blame_loop_calls_bound fuel md sts pfs ts : forall sf k left right, (right - left <= 2 ^ k)%nat ->
  let calls := snd (blame_loop_calls sf fuel md sts pfs ts left right) in
  (length calls <= Nat.max 1 k)%nat /\ (total_size calls <= right - left + k)%nat /\
  Forall (fun c => left <= fst c < snd c /\ snd c <= right)%nat calls.
Proof.
  induction sf as [|sf IH]; intros k left right Hk; cbn [blame_loop_calls].
  - destruct (left <? right)%nat; apply no_call.
  - destruct (Nat.ltb_spec left right) as [Hlr|Hlr]; [|apply no_call].
    cbv zeta. rewrite search_mid by exact Hlr. fold (half (right - left)).
    match goal with |- context[match ?s with Ok _ => _ | Err e => _ | Panic => _ | OutOfFuel => _ end] => destruct s as [[[ss ps] us]|e| |] end;
      try apply no_call.
    destruct (Nat.eq_dec (right - left) 1) as [H1|H1].
    { assert (Hh1 : half (right - left) = 1%nat) by (rewrite H1; apply half_1). rewrite Hh1.
      assert (Hone : forall A (x : A), let calls := snd (x, [(left, left + 1)%nat]) in
        (length calls <= Nat.max 1 k)%nat /\ (total_size calls <= right - left + k)%nat /\
        Forall (fun c => left <= fst c < snd c /\ snd c <= right)%nat calls) by (intros A x; apply one_call; lia).
      destruct (fst (verify_batch fuel md ss ps us)) as [u|e| |]; [|replace (left + 1)%nat with (S left) in * by lia; rewrite Nat.eqb_refl; apply Hone|apply Hone|apply Hone].
      destruct (Nat.eqb_spec right (left + 1 + 1)) as [|_]; [lia|]. 
      destruct sf as [|sf]; cbn [blame_loop_calls]; (destruct (Nat.ltb_spec (left + 1) right) as [|_]; [lia|]); apply Hone. }
    pose proof (half_bounds (right - left) ltac:(lia)) as (Hh & Hh3 & Hlo & Hhi).
    destruct k as [|k]; [cbn in Hk; lia|]. rewrite Nat.pow_succ_r' in Hk.
    set (h := half (right - left)) in *.
    assert (Hstop : forall A (x : A), let calls := snd (x, [(left, left + h)%nat]) in
      (length calls <= Nat.max 1 (S k))%nat /\ (total_size calls <= right - left + S k)%nat /\
      Forall (fun c => left <= fst c < snd c /\ snd c <= right)%nat calls).
    { intros A x. apply one_call; lia. }
    assert (Hgo : forall l r, (left <= l)%nat -> (r <= right)%nat -> (2 <= r - l)%nat -> (r - l <= h)%nat ->
      let (result, later) := blame_loop_calls sf fuel md sts pfs ts l r in
      let calls := (left, left + h)%nat :: later in
      (length calls <= Nat.max 1 (S k))%nat /\ (total_size calls <= right - left + S k)%nat /\
      Forall (fun c => left <= fst c < snd c /\ snd c <= right)%nat calls).
    { intros l r Hl Hr Hd Hle.
      assert (Hp : (h <= 2 ^ k)%nat) by lia.
      specialize (IH k l r ltac:(lia)). destruct (blame_loop_calls sf fuel md sts pfs ts l r) as [res later]. cbn [snd] in IH. cbv zeta in IH |- *.
      destruct IH as (Ha & Hb & Hc). assert (Hk1 : (1 <= k)%nat) by (destruct k; [cbn in Hp; lia|lia]).
      cbn [length]. split; [lia|]. split.
      - unfold total_size in *. cbn [map list_sum fold_right snd fst]. unfold list_sum in Hb. lia.
      - constructor; [cbn [fst snd]; clear - Hh; lia|]. eapply Forall_impl; [|exact Hc]. cbn beta. intros c Hcc. lia. }
    destruct (fst (verify_batch fuel md ss ps us)) as [u|e| |].
    + destruct (Nat.eqb_spec right (left + h + 1)) as [He|He].
      * destruct right; apply Hstop.
      * specialize (Hgo (left + h)%nat right ltac:(lia) ltac:(lia) ltac:(lia) ltac:(lia)).
        destruct (blame_loop_calls sf fuel md sts pfs ts (left + h) right). exact Hgo.
    + destruct (left + h)%nat as [|lc] eqn:Hm; [lia|]. destruct (Nat.eqb_spec left lc) as [He|He]; [apply Hstop|].
      specialize (Hgo left (S lc) ltac:(lia) ltac:(lia) ltac:(lia) ltac:(lia)).
      destruct (blame_loop_calls sf fuel md sts pfs ts left (S lc)). exact Hgo.
    + apply Hstop.
    + apply Hstop.
Qed.

Lemma log2_up_bound b : (b <= 2 ^ Nat.log2_up b)%nat.
Proof.
  destruct (Nat.lt_ge_cases 1 b) as [H|H]; [apply (Nat.log2_up_spec b H)|]. transitivity 1%nat; [lia|].
  pose proof (Nat.pow_nonzero 2 (Nat.log2_up b) ltac:(lia)). lia.
Qed.

Lemma single_blame_calls_bound fuel md sts pfs ts :
  let calls := snd (single_blame_calls fuel md sts pfs ts) in
  let b := length pfs in
  (length calls <= 1 + Nat.max 1 (Nat.log2_up b))%nat /\ (total_size calls <= 2 * b + Nat.log2_up b)%nat /\
  Forall (fun c => fst c <= snd c <= b)%nat calls.
Proof.
  cbv zeta. unfold single_blame_calls.
  destruct (fst (verify_batch fuel md sts pfs ts)) as [u|e| |];
    try (cbn [snd length]; split; [lia|]; split; [unfold total_size; cbn [map list_sum fold_right fst snd]; lia|]; constructor; [cbn [fst snd]; lia|constructor]).
  pose proof (blame_loop_calls_bound fuel md sts pfs ts (S (length pfs)) (Nat.log2_up (length pfs)) 0 (length pfs)) as H.
  rewrite Nat.sub_0_r in H. specialize (H (log2_up_bound _)). cbv zeta in H.
  destruct (blame_loop_calls _ _ _ _ _ _ _ _) as [res later]. cbn [snd] in *. destruct H as (Ha & Hb & Hc).
  cbn [length]. split; [lia|]. split.
  - unfold total_size in *. cbn [map list_sum fold_right snd fst]. unfold list_sum in Hb. lia.
  - constructor; [cbn; lia|]. eapply Forall_impl; [|exact Hc]. cbn beta. intros c Hcc. lia.
Qed.

(** The loop collects failures and never returns an error itself. *)
Lemma full_blame_loop_calls_no_err fuel md : forall sts pfs ts k e,
  fst (fst (full_blame_loop_calls fuel md k sts pfs ts)) <> Err e.
Proof.
  induction sts as [|st sts IH]; intros pfs ts k e; [discriminate|].
  destruct pfs as [|pf pfs]; [discriminate|]. destruct ts as [|t ts]; [discriminate|].
  cbn [full_blame_loop_calls]. destruct (verify fuel md pf st t) as [r t'].
  specialize (IH pfs ts (S k)). destruct (full_blame_loop_calls fuel md (S k) sts pfs ts) as [[fl us] later].
  cbn [fst snd] in IH. destruct r as [u|e'| |]; cbn [fst snd]; [apply IH| |discriminate|discriminate].
  destruct fl as [l|e2| |]; [discriminate|exfalso; exact (IH e2 eq_refl)|discriminate|discriminate].
Qed.

Lemma full_blame_loop_calls_list fuel md : forall sts pfs ts k,
  exists n, (n <= length pfs)%nat /\ snd (full_blame_loop_calls fuel md k sts pfs ts) = map (fun i => (i, S i)) (seq k n) /\
    (is_ok (fst (fst (full_blame_loop_calls fuel md k sts pfs ts))) = true -> length sts = length pfs -> length sts = length ts -> n = length pfs).
Proof.
  induction sts as [|st sts IH]; intros pfs ts k.
  { exists 0%nat. split; [lia|]. split; [reflexivity|]. cbn. intros _ H _. exact H. }
  destruct pfs as [|pf pfs]; [exists 0%nat; split; [cbn; lia|]; split; [reflexivity|]; cbn; intros _ H _; lia|].
  destruct ts as [|t ts]; [exists 0%nat; split; [cbn; lia|]; split; [reflexivity|]; cbn; intros _ _ H; discriminate|].
  cbn [full_blame_loop_calls]. destruct (verify fuel md pf st t) as [r t'].
  specialize (IH pfs ts (S k)). destruct (full_blame_loop_calls fuel md (S k) sts pfs ts) as [[fl us] later].
  cbn [fst snd] in IH. destruct IH as (n & Hn & -> & Hok).
  destruct r as [u|e| |]; cbn [fst snd].
  - exists (S n). cbn [length]. split; [lia|]. split; [reflexivity|]. intros H1 H2 H3. rewrite (Hok H1); lia.
  - exists (S n). cbn [length]. split; [lia|]. split; [reflexivity|]. intros H1 H2 H3. rewrite Hok; try lia. destruct fl; [reflexivity|discriminate..].
  - exists 1%nat. cbn [length]. split; [lia|]. split; [reflexivity|discriminate].
  - exists 1%nat. cbn [length]. split; [lia|]. split; [reflexivity|discriminate].
Qed.

End ParCalls.
