(** Property C133, parallel protocol: a generator that panics in the middle of the prover. *)
From Verif Require Import ParSpecSound ParCrashOs ParFacts ParProverFacts ParCompleteness ParProverApi ParExamples Properties_ParProver Properties_ParVerifier.
From Verif Require Import Properties_ParOs Properties_ParBinding Properties_ParReplay.
From Verif Require Import Algebra.

(** ** C133.  Whoever sees only whether the call returns sees [prove] and [prove_vartime]. *)
Theorem C133_same_prover :
  forall (E : env) (O : Type) (os : os_source O) (w : witness E) (st : statement E) (o : O) (t : transcript),
    let seen x := match x with Crashed _ _ => Unwinds | Finished r t' o' => Returns r t' o' end in
    seen (prove_crash os w st o t ConstantTime) = prove os w st o t /\
    seen (prove_crash os w st o t VariableTime) = prove_vartime os w st o t.
Proof.
  intros E O os w st o t seen.
  assert (H : forall tm, seen (prove_crash os w st o t tm) = os_run (prove_internal (os_rng os) w st (o, false) t tm)).
  { intros tm. unfold prove_crash, prove_internal. destruct (prove_checks tm w st) as [u|e| |]; try reflexivity.
    unfold pt_new, pt_commit, build_transcript_rng, finalize_rng. cbn [os_rng rng_fill fst snd].
    destruct (os o 32%nat) as [[seed|] o1].
    - destruct (prove_first_message tm w st _) as [fm|e| |]; try reflexivity. cbn [fst snd].
      destruct (os o1 32%nat) as [[seed'|] o2]; [|unfold challenge_bytes; reflexivity].
      unfold challenge_bytes. reflexivity.
    - cbn [seen]. destruct (prove_first_message tm w st _) as [fm|e| |]; try reflexivity. cbn [fst snd].
      destruct (os o1 32%nat) as [[seed'|] o2]; unfold challenge_bytes; reflexivity. }
  split; [exact (H ConstantTime)|exact (H VariableTime)].
Qed.
Print Assumptions C133_same_prover.

(** What is left when it unwinds: three messages if the first read failed, the same whatever the witness is, and the whole first
    message if the second read failed.  The challenge has not been taken in either case.  A witness that is refused is refused before
    the generator is read, so that nothing is left. *)
Theorem C133_transcript_left :
  forall (E : env), env_laws E ->
  forall (O : Type) (os : os_source O) (w : witness E) (st : statement E) (o : O) (t : transcript) (tm : timing),
    made_witness w -> made_statement st ->
    let o1 := snd (os o 32%nat) in let o2 := snd (os o1 32%nat) in
    let valid := w_get_params w = st_get_params st /\ relation st (w_get_l w) (w_get_r w) (w_get_r1 w) in
    (fst (os o 32%nat) = None -> valid ->
       prove_crash os w st o t tm =
         Crashed (t ++ [TAppend (b_ "dom-sep") (b_ "Parallel Triptych proof"); TAppend (b_ "version") (le_bytes 8 0);
                        TAppend (b_ "statement") (st_get_hash st)]) o1) /\
    (forall bs, fst (os o 32%nat) = Some bs -> fst (os o1 32%nat) = None -> valid ->
       forall xi, prove_crash os w st o t tm =
         Crashed (fs_transcript t st (honest_proof st (w_get_l w) (w_get_r w) (w_get_r1 w) (prover_coins t st w bs) xi)) o2) /\
    forall t' o', prove_crash os w st o t tm = Crashed t' o' ->
      valid /\ (fst (os o 32%nat) = None \/ (exists bs, fst (os o 32%nat) = Some bs) /\ fst (os o1 32%nat) = None).
Proof.
  intros E L O os w st o t tm Hw Hst o1 o2 valid.
  pose proof (made_statement_good L st Hst) as Hg. destruct (made_witness_index w Hw) as [_ Hl].
  assert (Hinit : pt_init t (st_get_hash st) =
    t ++ [TAppend (b_ "dom-sep") (b_ "Parallel Triptych proof"); TAppend (b_ "version") (le_bytes 8 0); TAppend (b_ "statement") (st_get_hash st)]).
  { unfold pt_init, append_u64, append_message, VERSION, TRANSCRIPT_PARALLEL_PROOF. rewrite <- !app_assoc. reflexivity. }
  assert (Hchecks : valid -> prove_checks tm w st = Ok tt).
  { intros [Hp Hr]. destruct (prove_checks_cases L tm w st Hg Hl) as [(_ & _ & H)|[(H & _)|[(_ & H & _)|[(_ & _ & H & _)|(_ & _ & _ & H & _)]]]].
    - exact H.
    - exfalso. exact (H Hp).
    - exfalso. exact (H (proj1 Hr)).
    - exfalso. destruct Hr as (_ & (M1_l & H1 & H2) & _). exact (H M1_l H1 H2).
    - exfalso. exact (H (proj2 (proj2 Hr))). }
  assert (Hinv : valid \/ exists e, prove_checks tm w st = Err e).
  { destruct (prove_checks_cases L tm w st Hg Hl) as [(H1 & H2 & _)|[(_ & H)|[(_ & _ & H)|[(_ & _ & _ & H)|(_ & _ & _ & _ & H)]]]].
    - left. split; assumption.
    - right. eexists. exact H.
    - right. eexists. exact H.
    - right. eexists. exact H.
    - right. eexists. exact H. }
  split; [|split].
  - intros Hn Hv. unfold prove_crash. rewrite (Hchecks Hv). unfold o1.
    destruct (os o 32%nat) as [b q]. cbn [fst snd] in *. subst b. rewrite Hinit. reflexivity.
  - intros bs H1 H2 Hv xi. unfold prove_crash. rewrite (Hchecks Hv). unfold o2, o1 in *.
    destruct (os o 32%nat) as [b q]. cbn [fst snd] in *. subst b.
    destruct (os q 32%nat) as [b q']. cbn [fst snd] in *. subst b.
    destruct Hv as [Hp _]. change (w_params w = st_params st) in Hp. rewrite Hp in Hl.
    rewrite (prove_first_message_spec L tm w st _ Hg Hl).
    assert (Hrng : mk_trng (pt_init t (st_get_hash st)) [(b_ "l", le_bytes 4 (w_get_l w)); (b_ "r", scalar_to_bytes (w_get_r w)); (b_ "r1", scalar_to_bytes (w_get_r1 w))] bs []
                   = prover_rng t st w bs) by (rewrite Hinit; reflexivity).
    rewrite Hrng. f_equal. rewrite <- fs_transcript_spec. reflexivity.
  - intros t' o' H. destruct Hinv as [Hv|[e He]].
    2:{ unfold prove_crash in H. rewrite He in H. discriminate. }
    split; [exact Hv|]. unfold prove_crash in H. rewrite (Hchecks Hv) in H. unfold o1.
    destruct (os o 32%nat) as [[bs|] q]; cbn [fst snd] in *; [|left; reflexivity]. right.
    destruct (prove_first_message tm w st _); try discriminate H.
    destruct (os q 32%nat) as [[bs'|] q']; cbn [fst snd] in *; [discriminate H|]. split; [exists bs; reflexivity|reflexivity].
Qed.
Print Assumptions C133_transcript_left.

(** The transcript is never what it was before, so a caller who tries again with the transcript that was left draws other nonces, even
    from the same random bytes, and gets a proof that belongs to that transcript: a verifier who starts there accepts it as always (C62), ... *)
Theorem C133_retry :
  forall (E : env), env_laws E ->
  forall (O : Type) (os : os_source O) (w : witness E) (st : statement E) (o : O) (t t1 : transcript) (tm : timing) o1,
    made_witness w -> made_statement st -> prove_crash os w st o t tm = Crashed t1 o1 ->
    (exists more, more <> [] /\ t1 = t ++ more /\ forall label n, ~ In (TChallenge label n) more) /\
    (forall seed seed', prover_rng t1 st w seed <> prover_rng t st w seed') /\
    forall (R : Type) (ro : rng_ops R) rng pf t2 rng', prove_with_rng ro w st rng t1 = (Ok pf, t2, rng') ->
      (forall md, fits md (st_get_params st) 1 -> weights_terminate (E := E) 5 ->
        (forall row, In row (complete (challenge t1 st pf) (pf_f pf)) -> ~ In s0 row) ->
        verify_returns md pf st t1 (Ok tt) (verifier_transcript t1 st pf)) /\
  (** ... while one who starts from the transcript before the crash asks for another challenge, and accepts only if one of the
      unlikely events of C107 occurs. *)
      fs_transcript t st pf <> fs_transcript t1 st pf /\
      forall md t', verify_returns md pf st t (Ok tt) t' ->
        let p := st_get_params st in let r_B := c_r_B (prover_coins t1 st w (fst (rng_fill ro rng 32))) in
        challenge t st pf = challenge t1 st pf \/
        weights_cancel p (get_keys (st_get_input_set st)) (get_auxiliary_keys (st_get_input_set st)) [st] [pf] [t] \/
        (w_get_l w = 0%N /\ r_B = s0) \/
        is_relation (get_CommitmentG p) (get_CommitmentH p)
          (concat (mkmat (N.to_nat (get_m p)) (N.to_nat (get_n p)) (fun j i => sigma_at (get_n p) (w_get_l w) j i - sigma_at (get_n p) 0 j i)%sc) ++ [r_B]).
Proof.
  intros E L O os w st o t t1 tm o1 Hw Hst Hc.
  assert (Hmore : exists more, more <> [] /\ t1 = t ++ more /\ forall label n, ~ In (TChallenge label n) more).
  { destruct (C133_transcript_left E L O os w st o t tm Hw Hst) as (H1 & H2 & H3).
    destruct (H3 t1 o1 Hc) as [Hv [Hn|[[bs Hs] Hn]]].
    - rewrite (H1 Hn Hv) in Hc. injection Hc as <- <-. eexists. split; [|split; [reflexivity|]]; [discriminate|].
      intros label n [H|[H|[H|[]]]]; discriminate H.
    - rewrite (H2 bs Hs Hn Hv s0) in Hc. injection Hc as <- <-. unfold fs_transcript.
      eexists. split; [|split; [reflexivity|]]; [discriminate|]. intros label n H. rewrite !in_app_iff, !in_map_iff in H.
      cbn [In] in H. destruct H as [H|[(x & H & _)|[(x & H & _)|(x & H & _)]]]; try discriminate H. repeat (destruct H as [H|H]; [discriminate H|]). exact H. }
  assert (Hne : t <> t1).
  { destruct Hmore as (more & Hm & -> & _). intros H. apply Hm. apply (app_inv_head t). rewrite app_nil_r. symmetry. exact H. }
  split; [exact Hmore|]. split.
  { intros seed seed' H. apply (f_equal tr_base) in H. cbn [prover_rng tr_base] in H. apply app_inv_tail in H. exact (Hne (eq_sym H)). }
  intros R ro rng pf t2 rng' Hp.
  assert (Hfs : fs_transcript t st pf <> fs_transcript t1 st pf).
  { intros H. apply (C68_challenge_query_binds E L) in H. exact (Hne (proj1 H)). }
  split; [|split; [exact Hfs|]].
  - intros md Hf Hterm Hz. destruct (C62_completeness E L R ro md w st rng t1 pf t2 rng' Hw Hst Hp Hf) as [_ H].
    exact (H Hz Hterm).
  - intros md t' Hv p r_B.
    exact (no_replay_core E L R ro md w st st rng rng' t1 t2 t t' pf Hw Hst Hst Hp Hv).
Qed.
Print Assumptions C133_retry.

(** With the operating system of C90: no read, one read, two reads. *)
Example C133_example :
  let w := x_witness P0 T0 2 in let st := x_statement P0 T0 2 in let t := x_transcript 1 in
  made_witness w /\ made_statement st /\
  prove_crash dying w st 0%nat t ConstantTime =
    Crashed (t ++ [TAppend (b_ "dom-sep") (b_ "Parallel Triptych proof"); TAppend (b_ "version") (le_bytes 8 0); TAppend (b_ "statement") (st_get_hash st)]) 0%nat /\
  prove_crash dying w st 1%nat t ConstantTime = Crashed (fs_transcript t st (x_proof P0 T0 2 1)) 0%nat /\
  exists t', prove_crash dying w st 2%nat t ConstantTime = Finished (Ok (x_proof P0 T0 2 1)) t' 0%nat.
Proof.
  intros w st t.
  pose proof (x_witness_made P0 T0 2 ltac:(lia)) as Hw. pose proof (x_statement_made P0 T0 2) as Hst.
  assert (Hv : w_get_params w = st_get_params st /\ relation st (w_get_l w) (w_get_r w) (w_get_r1 w)) by (split; [reflexivity|exact (x_relation P0 T0 2 ltac:(lia))]).
  destruct (x_check_ok P0 T0 2 1 x_check_2_1) as [Hx _]. destruct (x_proved P0 T0 2 1 ltac:(lia) Hx) as [_ Hp].
  split; [exact Hw|]. split; [exact Hst|]. split; [|split].
  - destruct (C133_transcript_left E0 L0 nat dying w st 0%nat t ConstantTime Hw Hst) as (H & _ & _). exact (H eq_refl Hv).
  - destruct (C133_transcript_left E0 L0 nat dying w st 1%nat t ConstantTime Hw Hst) as (_ & H & _).
    destruct (prove_result L0 counter _ _ _ _ _ _ _ Hw Hst Hp) as (_ & _ & Hpf & _).
    fold t st w in Hpf. cbv zeta in Hpf.
    pose proof (H (fst (rng_fill counter 5%N 32)) eq_refl eq_refl Hv (challenge t st (x_proof P0 T0 2 1))) as H'. clear H.
    rewrite <- Hpf in H'. exact H'.
  - destruct (C133_same_prover E0 nat dying w st 2%nat t) as [H _].
    destruct C90_example as (_ & _ & [t' Ht] & _). exists t'. fold w st t in Ht. rewrite Ht in H.
    destruct (prove_crash dying w st 2%nat t ConstantTime) as [t'' o''|r t'' o'']; [discriminate H|]. injection H as -> -> ->. reflexivity.
Qed.
