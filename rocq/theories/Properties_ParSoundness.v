(** Properties C64 and C65, parallel protocol: extraction, linkability, uniqueness, simulation and hiding. *)
From Verif Require Import ParSpecSound ParSpecZK ParFacts ParProverFacts ParVerifierFacts ParCompleteness ParVerdict ParSoundness ParZK ParProverApi ParBinding
  ParVerifierApi ParExamples Properties_ParParams Properties_ParVerifier.
From Verif Require Import Algebra.

(** Each run is a caller's transcript and a proof. *)
Definition challenges_and_proofs {E : env} (st : statement E) (runs : list (transcript * proof E)) : list (scalar * proof E) :=
  map (fun run => (challenge (fst run) st (snd run), snd run)) runs.
(** The runs share a first message and got different challenges. *)
Definition forked {E : env} (st : statement E) (runs : list (transcript * proof E)) : Prop :=
  (forall t pf t' pf', In (t, pf) runs -> In (t', pf') runs -> same_first_message pf pf') /\
  NoDup (map fst (challenges_and_proofs st runs)).

(** ** As C27: [m + 1] valid proofs with one first message and distinct challenges give away one ring position and both signing keys,
    or a nontrivial relation between the commitment generators.  [extract] is an explicit function. *)
Theorem C64_special_soundness :
  forall (E : env), env_laws E -> forall (st : statement E) (runs : list (transcript * proof E)),
    made_statement st -> forked st runs -> length runs = S (N.to_nat (get_m (st_get_params st))) ->
    (forall t pf, In (t, pf) runs -> valid_proof t st pf) ->
    match extract (st_get_params st) (challenges_and_proofs st runs) with
    | Witnessed (l, r, r1) => relation st l r r1
    | Broken cs => is_relation (get_CommitmentG (st_get_params st)) (get_CommitmentH (st_get_params st)) cs
    end.
Proof.
  intros E L st runs Hst [Hf Hnd] Hlen Hv. destruct runs as [|[t0 pf0] rest]; [discriminate|].
  set (runs := (t0, pf0) :: rest) in *.
  apply (extract_sound L st (challenges_and_proofs st runs) pf0 (made_statement_good L st Hst)).
  - unfold challenges_and_proofs. rewrite map_length. exact Hlen.
  - exact Hnd.
  - intros xi pf Hin. apply in_map_iff in Hin. destruct Hin as ((t & pf') & He & Hin). cbn [fst snd] in He. injection He as <- <-.
    destruct (Hv t pf' Hin) as (Hw & _ & _ & Heq). split; [|split; [exact Hw|exact Heq]].
    apply (Hf t0 pf0 t pf'); [left; reflexivity|exact Hin].
Qed.
Print Assumptions C64_special_soundness.

(** The same for proofs that a verifier accepts. *)
Theorem C64_accepted_proofs :
  forall (E : env), env_laws E -> forall md (st : statement E) (runs : list (transcript * proof E)),
    made_statement st -> forked st runs -> length runs = S (N.to_nat (get_m (st_get_params st))) ->
    (forall t pf, In (t, pf) runs -> exists t', verify_returns md pf st t (Ok tt) t') ->
    match extract (st_get_params st) (challenges_and_proofs st runs) with
    | Witnessed (l, r, r1) => relation st l r r1
    | Broken cs => is_relation (get_CommitmentG (st_get_params st)) (get_CommitmentH (st_get_params st)) cs
    end \/
    exists t pf, In (t, pf) runs /\ weights_cancel (st_get_params st) (get_keys (st_get_input_set st)) (get_auxiliary_keys (st_get_input_set st)) [st] [pf] [t].
Proof.
  intros E L md st runs Hst Hf Hlen Hv.
  assert (Hc : (forall t pf, In (t, pf) runs -> valid_proof t st pf) \/
     exists t pf, In (t, pf) runs /\ weights_cancel (st_get_params st) (get_keys (st_get_input_set st)) (get_auxiliary_keys (st_get_input_set st)) [st] [pf] [t]).
  { clear Hf Hlen. induction runs as [|[t pf] runs IH]; [left; intros t pf []|].
    destruct (Hv t pf (or_introl eq_refl)) as [t' H]. apply verify_returns_batch in H.
    assert (IH' : (forall t pf, In (t, pf) runs -> valid_proof t st pf) \/
       exists t pf, In (t, pf) runs /\ weights_cancel (st_get_params st) (get_keys (st_get_input_set st)) (get_auxiliary_keys (st_get_input_set st)) [st] [pf] [t])
      by (apply IH; intros a b Hin; apply Hv; right; exact Hin).
    destruct IH' as [IH'|(a & b & Hin & Hw)]; [|right; exists a, b; split; [right; exact Hin|exact Hw]].
    assert (Hm1 : Forall made_statement [st]) by (constructor; [exact Hst|constructor]).
    destruct (accepted_batch L md st [] [pf] [t] [t'] Hm1 H) as (_ & _ & _ & [Hav|[Hw|(s & [] & _)]]).
    - left. intros a b [He|Hin]; [|exact (IH' a b Hin)]. injection He as <- <-. apply (Hav 0%nat st pf t). repeat split; reflexivity.
    - right. exists t, pf. split; [left; reflexivity|exact Hw]. }
  destruct Hc as [Hc|Hc]; [left|right; exact Hc].
  exact (C64_special_soundness E L st runs Hst Hf Hlen Hc).
Qed.
Print Assumptions C64_accepted_proofs.

(** A fork that meets the hypotheses: a prover that reuses its nonces under three transcripts. *)
Definition x_coins : coins := prover_coins (x_transcript 1) (x_statement P0 T0 2) (x_witness P0 T0 2) x_seed.
Definition x_first : proof E0 := honest_proof (x_statement P0 T0 2) 2 x_r x_r1 x_coins s0.
Definition x_fork (k : N) : transcript * proof E0 :=
  (x_transcript k, honest_proof (x_statement P0 T0 2) 2 x_r x_r1 x_coins (challenge (x_transcript k) (x_statement P0 T0 2) x_first)).
Definition x_fork_challenge (k : N) : scalar := challenge (x_transcript k) (x_statement P0 T0 2) x_first.
Definition x_fork_check (k : N) : bool :=
  (negb (seqb (x_fork_challenge k) s0) && negb (contains_zero (complete (x_fork_challenge k) (pf_f (snd (x_fork k))))))%bool.
Lemma x_fork_check_ok k : x_fork_check k = true ->
  x_fork_challenge k <> s0 /\ forall row, In row (complete (x_fork_challenge k) (pf_f (snd (x_fork k)))) -> ~ In s0 row.
Proof.
  unfold x_fork_check. intros H. apply andb_true_iff in H. destruct H as [H1 H2]. apply negb_true_iff in H1, H2.
  split; [apply seqb_neq; exact H1|]. exact (proj2 (no_zero_spec (snd (x_fork k)) (x_fork_challenge k)) H2).
Qed.
Lemma x_fork_1 : x_fork_check 1 = true.
Proof. vm_compute. reflexivity. Qed.
Lemma x_fork_2 : x_fork_check 2 = true.
Proof. vm_compute. reflexivity. Qed.
Lemma x_fork_3 : x_fork_check 3 = true.
Proof. vm_compute. reflexivity. Qed.
Lemma x_fork_distinct : NoDup (map x_fork_challenge [1; 2; 3]%N).
Proof.
  assert (Hd : forall a b, seqb a b = false -> a <> b) by (intros a b; apply seqb_neq).
  assert (H12 : seqb (x_fork_challenge 1) (x_fork_challenge 2) = false) by (vm_compute; reflexivity).
  assert (H13 : seqb (x_fork_challenge 1) (x_fork_challenge 3) = false) by (vm_compute; reflexivity).
  assert (H23 : seqb (x_fork_challenge 2) (x_fork_challenge 3) = false) by (vm_compute; reflexivity).
  apply Hd in H12, H13, H23.
  assert (Hgen : forall a b c : scalar, a <> b -> a <> c -> b <> c -> NoDup [a; b; c]).
  { intros a b c Hab Hac Hbc. constructor; [cbn [In]; intros [H|[H|[]]]; congruence|].
    constructor; [cbn [In]; intros [H|[]]; congruence|]. constructor; [intros []|constructor]. }
  exact (Hgen _ _ _ H12 H13 H23).
Qed.
Lemma challenge_of_first (E : env) (L : env_laws E) t (st : statement E) pf pf' : same_first_message pf pf' -> challenge t st pf = challenge t st pf'.
Proof. intros Hs. unfold challenge. f_equal. f_equal. apply (fs_inj L). split; [reflexivity|]. split; [reflexivity|exact Hs]. Qed.
Lemma honest_same_first (E : env) (st : statement E) l r r1 c xi xi' :
  same_first_message (honest_proof st l r r1 c xi) (honest_proof st l r r1 c xi').
Proof. repeat split; reflexivity. Qed.
Lemma x_fork_same k : challenge (fst (x_fork k)) (x_statement P0 T0 2) (snd (x_fork k)) = x_fork_challenge k.
Proof.
  apply (challenge_of_first E0 L0). apply honest_same_first.
Qed.

Example C64_fork_example : exists (st : statement E0) runs,
  made_statement st /\ forked st runs /\ length runs = S (N.to_nat (get_m (st_get_params st))) /\
  (forall t pf, In (t, pf) runs -> valid_proof t st pf) /\
  (forall t pf, In (t, pf) runs -> exists t', verify_returns OverflowPanics pf st t (Ok tt) t').
Proof.
  set (st := x_statement P0 T0 2).
  assert (Hst : made_statement st) by apply x_statement_made.
  assert (Hv : forall k, In k [1; 2; 3]%N -> valid_proof (fst (x_fork k)) st (snd (x_fork k))).
  { intros k Hk. assert (Hc : x_fork_check k = true).
    { destruct Hk as [<-|[<-|[<-|[]]]]; [exact x_fork_1|exact x_fork_2|exact x_fork_3]. }
    destruct (x_fork_check_ok k Hc) as [Hx Hz]. pose proof (x_fork_same k) as Hs. fold st in Hs. unfold valid_proof. rewrite Hs.
    split; [exact (honest_well_shaped st 2 x_r x_r1 x_coins (x_fork_challenge k))|]. split; [exact Hx|].
    split; [exact Hz|].
    apply (honest_equations L0 st 2 x_r x_r1 x_coins (x_fork_challenge k) (made_statement_good L0 st Hst)).
    - apply (x_relation P0 T0 2). lia.
    - apply (prover_coins_good (E := E0)). }
  exists st, (map x_fork [1; 2; 3]%N). split; [exact Hst|]. split; [|split; [reflexivity|split]].
  - split.
    + intros t pf t' pf' H H'. apply in_map_iff in H, H'. destruct H as (k & He & _). destruct H' as (k' & He' & _).
      apply (f_equal snd) in He, He'. cbn [snd] in He, He'. subst pf pf'. apply honest_same_first.
    + unfold challenges_and_proofs. rewrite !map_map.
      rewrite (map_ext _ x_fork_challenge); [exact x_fork_distinct|]. intros k. exact (x_fork_same k).
  - intros t pf H. apply in_map_iff in H. destruct H as (k & He & Hk). specialize (Hv k Hk). rewrite He in Hv. exact Hv.
  - intros t pf H. apply in_map_iff in H. destruct H as (k & He & Hk). specialize (Hv k Hk). rewrite He in Hv. cbn [fst snd] in Hv.
    destruct (C62_batch_completeness E0 L0 OverflowPanics st [] [pf] [t]) as [_ Hb]; try reflexivity.
    + constructor; [exact Hst|constructor].
    + intros a b [<-|[]] [<-|[]]. split; reflexivity.
    + intros i s q u (Ha & Hb & Hu). destruct i as [|i]; [|destruct i; discriminate]. cbn [nth_error] in *.
      injection Ha as <-. injection Hb as <-. injection Hu as <-. exact Hv.
    + apply (x_fits P0 T0 2). cbn. lia.
    + destruct (Hb (E0_weights_terminate 5)) as [ts' Hts]. pose proof Hts as (fuel & Hq & _).
      assert (Hl : length ts' = 1%nat) by (pose proof (verify_batch_keeps_length fuel OverflowPanics [st] [pf] [t]) as Hkl; rewrite Hq in Hkl; exact Hkl).
      destruct ts' as [|t' [|]]; try discriminate. exists t'. apply verify_returns_batch. exact Hts.
Qed.

(** ** As C28: for statements with the same [G] and [U], extracted witnesses of the same ring key carry the same tag, and statements
    with the same tag have the same signing key, hence point at the same verification key. *)
Theorem C64_linkability :
  forall (E : env), env_laws E -> forall (st st' : statement E) l r r1 l' r' r1',
    made_statement st -> made_statement st' ->
    get_G (st_get_params st) = get_G (st_get_params st') -> get_U (st_get_params st) = get_U (st_get_params st') ->
    relation st l r r1 -> relation st' l' r' r1' ->
    let key := nth_error (get_keys (st_get_input_set st)) (N.to_nat l) in
    let key' := nth_error (get_keys (st_get_input_set st')) (N.to_nat l') in
    (key = key' -> r = r' /\ st_get_J st = st_get_J st') /\
    (get_U (st_get_params st) <> pid E -> st_get_J st = st_get_J st' -> r = r' /\ key = key').
Proof.
  intros E L st st' l r r1 l' r' r1' Hm Hm' HG HU Hr Hr' key key'. split.
  - intros Hk. exact (same_key_same_tag L st st' l r r1 l' r' r1' (made_statement_good L st Hm) (made_statement_good L st' Hm') HG HU Hr Hr' Hk).
  - intros Hid HJ. exact (same_tag_same_key L st st' l r r1 l' r' r1' HG HU Hid Hr Hr' HJ).
Qed.
Print Assumptions C64_linkability.

(** Extraction and linkability together: two forks of valid proofs. *)
Theorem C64_linkability_of_proofs :
  forall (E : env), env_laws E -> forall (st st' : statement E) runs runs',
    made_statement st -> made_statement st' ->
    get_G (st_get_params st) = get_G (st_get_params st') -> get_U (st_get_params st) = get_U (st_get_params st') ->
    get_U (st_get_params st) <> pid E ->
    forked st runs -> length runs = S (N.to_nat (get_m (st_get_params st))) -> (forall t pf, In (t, pf) runs -> valid_proof t st pf) ->
    forked st' runs' -> length runs' = S (N.to_nat (get_m (st_get_params st'))) -> (forall t pf, In (t, pf) runs' -> valid_proof t st' pf) ->
    match extract (st_get_params st) (challenges_and_proofs st runs), extract (st_get_params st') (challenges_and_proofs st' runs') with
    | Witnessed (l, r, r1), Witnessed (l', r', r1') => relation st l r r1 /\ relation st' l' r' r1' /\
      (st_get_J st = st_get_J st' <->
       nth_error (get_keys (st_get_input_set st)) (N.to_nat l) = nth_error (get_keys (st_get_input_set st')) (N.to_nat l'))
    | Broken cs, _ => is_relation (get_CommitmentG (st_get_params st)) (get_CommitmentH (st_get_params st)) cs
    | _, Broken cs => is_relation (get_CommitmentG (st_get_params st')) (get_CommitmentH (st_get_params st')) cs
    end.
Proof.
  intros E L st st' runs runs' Hm Hm' HG HU Hid Hf Hlen Hv Hf' Hlen' Hv'.
  pose proof (C64_special_soundness E L st runs Hm Hf Hlen Hv) as H.
  pose proof (C64_special_soundness E L st' runs' Hm' Hf' Hlen' Hv') as H'.
  destruct (extract _ (challenges_and_proofs st runs)) as [[[l r] r1]|cs]; [|exact H].
  destruct (extract _ (challenges_and_proofs st' runs')) as [[[l' r'] r1']|cs]; [|exact H'].
  split; [exact H|]. split; [exact H'|].
  destruct (C64_linkability E L st st' l r r1 l' r' r1' Hm Hm' HG HU H H') as [Ha Hb]. split.
  - intros HJ. exact (proj2 (Hb Hid HJ)).
  - intros Hk. exact (proj2 (Ha Hk)).
Qed.
Print Assumptions C64_linkability_of_proofs.

(** Two statements over different rings with the same key, at positions 2 and 1. *)
Example C64_link_example : exists (st st' : statement E0) l r r1 l' r' r1',
  made_statement st /\ made_statement st' /\ get_G (st_get_params st) = get_G (st_get_params st') /\
  get_U (st_get_params st) = get_U (st_get_params st') /\ get_U (st_get_params st) <> pid E0 /\
  relation st l r r1 /\ relation st' l' r' r1' /\ l <> l' /\ st_get_J st = st_get_J st'.
Proof.
  exists (x_statement P0 T0 2), (x_statement P0 T0 1), 2%N, x_r, x_r1, 1%N, x_r, x_r1.
  split; [apply x_statement_made|]. split; [apply x_statement_made|].
  split; [exact (eq_refl (get_G (x_params P0 T0)))|]. split; [exact (eq_refl (get_U (x_params P0 T0)))|].
  split; [change (x_U P0 T0 <> s0); scalars_differ|].
  split; [apply (x_relation P0 T0 2); lia|]. split; [apply (x_relation P0 T0 1); lia|]. split; [discriminate|exact (eq_refl (x_J P0 T0))].
Qed.

(** ** As C29: the responses to a challenge are unique, up to a relation between the commitment generators. *)
Theorem C64_unique_responses :
  forall (E : env), env_laws E -> forall (st : statement E) t pf pf',
    made_statement st -> get_G (st_get_params st) <> pid E -> get_G1 (st_get_params st) <> pid E ->
    valid_proof t st pf -> valid_proof t st pf' -> same_first_message pf pf' ->
    pf = pf' \/
    is_relation (get_CommitmentG (st_get_params st)) (get_CommitmentH (st_get_params st)) (response_difference (challenge t st pf) pf pf') \/
    is_relation (get_CommitmentG (st_get_params st)) (get_CommitmentH (st_get_params st)) (square_difference (challenge t st pf) pf pf').
Proof.
  intros E L st t pf pf' Hm HG HG1 (Hw & _ & _ & He) (Hw' & _ & _ & He') Hs.
  assert (Hx : challenge t st pf' = challenge t st pf).
  { symmetry. exact (challenge_of_first E L t st pf pf' Hs). }
  rewrite Hx in He'.
  exact (unique_responses L st pf pf' (challenge t st pf) (made_statement_good L st Hm) HG HG1 Hw Hw' Hs He He').
Qed.
Print Assumptions C64_unique_responses.

(** ** As C53: for every challenge and every choice of [B], [C], the tails of [X], [X1] and [Y] and all responses there is exactly one proof
    that satisfies the equations, and [simulate] computes it without a witness. *)
Theorem C64_simulation :
  forall (E : env), env_laws E -> forall (st : statement E) xi (v : view E),
    made_statement st ->
    length (v_X v) = (N.to_nat (get_m (st_get_params st)) - 1)%nat ->
    length (v_X1 v) = (N.to_nat (get_m (st_get_params st)) - 1)%nat -> length (v_Y v) = (N.to_nat (get_m (st_get_params st)) - 1)%nat ->
    let eqs := fun pf => equations (st_get_params st) (get_keys (st_get_input_set st)) (get_auxiliary_keys (st_get_input_set st)) (st_get_offset st) (st_get_J st) pf xi in
    let pf := simulate (st_get_params st) (get_keys (st_get_input_set st)) (get_auxiliary_keys (st_get_input_set st)) (st_get_offset st) (st_get_J st) xi v in
    (eqs pf /\ view_of pf = v) /\
    forall pf', length (pf_X pf') = N.to_nat (get_m (st_get_params st)) -> length (pf_X1 pf') = N.to_nat (get_m (st_get_params st)) -> length (pf_Y pf') = N.to_nat (get_m (st_get_params st)) ->
      eqs pf' -> view_of pf' = v -> pf' = pf.
Proof.
  intros E L st xi v Hm HX HX1 HY eqs pf. pose proof (gs_params _ (made_statement_good L st Hm)) as Hp. pose proof (gp_m _ Hp) as Hm2.
  change (p_m (st_params st)) with (get_m (st_get_params st)) in Hm2.
  assert (Hview : view_of pf = v) by (destruct v; reflexivity).
  assert (HlX : length (pf_X pf) = N.to_nat (get_m (st_get_params st))) by (unfold pf; cbn [simulate pf_X length]; rewrite HX; lia).
  assert (HlX1 : length (pf_X1 pf) = N.to_nat (get_m (st_get_params st))) by (unfold pf; cbn [simulate pf_X1 length]; rewrite HX1; lia).
  assert (HlY : length (pf_Y pf) = N.to_nat (get_m (st_get_params st))) by (unfold pf; cbn [simulate pf_Y length]; rewrite HY; lia).
  split; [split; [|exact Hview]|].
  - unfold eqs. apply (simulate_iff L); [lia|exact HlX|exact HlX1|exact HlY|]. rewrite Hview. reflexivity.
  - intros pf' H1 H3 H2 He Hv. unfold eqs in He. apply (simulate_iff L) in He; [|lia|exact H1|exact H3|exact H2]. rewrite Hv in He. exact He.
Qed.
Print Assumptions C64_simulation.

(** Every valid proof, in particular every honest one, is the simulation of its own view: nothing else in it depends on the
    witness. *)
Theorem C64_proofs_are_simulations :
  forall (E : env), env_laws E -> forall (st : statement E) t pf, made_statement st -> valid_proof t st pf ->
    pf = simulate (st_get_params st) (get_keys (st_get_input_set st)) (get_auxiliary_keys (st_get_input_set st)) (st_get_offset st) (st_get_J st) (challenge t st pf) (view_of pf).
Proof.
  intros E L st t pf Hm ((HX & HX1 & HY & _) & _ & _ & He). pose proof (gs_params _ (made_statement_good L st Hm)) as Hp. pose proof (gp_m _ Hp) as Hm2.
  apply (simulate_iff L); [change (get_m (st_get_params st)) with (p_m (st_params st)); lia|exact HX|exact HX1|exact HY|exact He].
Qed.
Print Assumptions C64_proofs_are_simulations.

(** ** As C54: perfect hiding.  Fix the challenge and the coins the view does not use (the overwritten first column, all of [rho] and [rho1]
    but their first elements).  For every position [l] and keys [r] and [r1], the remaining coins and the views (without the tails of [X],
    [X1] and [Y]) correspond one to one: uniform coins give the same distribution for every witness. *)
Theorem C64_hiding :
  forall (E : env), env_laws E -> prime_order E -> forall (st : statement E) l r r1 xi col rho' rho1' B C f zA zC z z1,
    let p := st_get_params st in let m := N.to_nat (get_m p) in let n := N.to_nat (get_n p) in
    made_statement st -> get_CommitmentH p <> pid E ->
    length col = m -> length rho' = (m - 1)%nat -> length rho1' = (m - 1)%nat -> shape m (n - 1) f ->
    exists! q : list (list scalar) * (scalar * scalar * scalar * scalar) * (scalar * scalar),
      let '(a', (rA, rB, rC, rD), (rho0, rho10)) := q in
      shape m (n - 1) a' /\
      let pf := honest_proof st l r r1 (assemble col a' rA rB rC rD rho0 rho' rho10 rho1') xi in
      pf_B pf = B /\ pf_C pf = C /\ pf_f pf = f /\ pf_z_A pf = zA /\ pf_z_C pf = zC /\ pf_z pf = z /\ pf_z1 pf = z1.
Proof.
  intros E L Hpo st l r r1 xi col rho' rho1' B C f zA zC z z1 p m n Hm HH Hc Hr Hr1 Hf.
  exact (hiding L st l r r1 xi col rho' rho1' B C f zA zC z z1 (made_statement_good L st Hm) Hpo HH Hc Hr Hr1 Hf).
Qed.
Print Assumptions C64_hiding.

Example C64_hiding_example : env_laws E0 /\ prime_order E0 /\ exists st : statement E0, made_statement st /\ get_CommitmentH (st_get_params st) <> pid E0.
Proof.
  split; [exact L0|]. split; [apply toy_prime_order|]. exists (x_statement P0 T0 2). split; [apply x_statement_made|].
  change (commitment_H (E := E0) <> s0). scalars_differ.
Qed.

(** ** As C65: amounts.  Auxiliary keys and offset are commitments [v * H + s * G1]: if the extracted auxiliary key opens the ring member
    relative to the offset then both commit to the same amount, or [H] is a known multiple of [G1]. *)
Theorem C65_amounts_balance :
  forall (E : env), env_laws E -> forall (st : statement E) l r r1 (H : pt E) (v s v' s' : scalar),
    relation st l r r1 ->
    nth_error (get_auxiliary_keys (st_get_input_set st)) (N.to_nat l) =
      Some (padd E (pmul E v H) (pmul E s (get_G1 (st_get_params st)))) ->
    st_get_offset st = padd E (pmul E v' H) (pmul E s' (get_G1 (st_get_params st))) ->
    v = v' \/ H = pmul E ((r1 - s + s') * sinv (v - v'))%sc (get_G1 (st_get_params st)).
Proof.
  intros E L st l r r1 H v s v' s' (_ & (P & HP & He) & _) Hk Ho. rewrite Hk in HP. injection HP as <-. rewrite Ho in He.
  destruct (scalar_eq_dec v v') as [Hv|Hv]; [left; exact Hv|right].
  assert (Hd : (v - v')%sc <> s0) by (intros Hc; apply Hv; transitivity (v - v' + v')%sc; [ring|rewrite Hc; ring]).
  assert (Hm : pmul E (v - v') H = pmul E (r1 - s + s') (get_G1 (st_get_params st))).
  { transitivity (padd E (psub (padd E (pmul E v H) (pmul E s (get_G1 (st_get_params st)))) (padd E (pmul E v' H) (pmul E s' (get_G1 (st_get_params st)))))
                   (pmul E (s' - s) (get_G1 (st_get_params st)))); [unfold psub; module L|].
    rewrite He. module L. }
  transitivity (pmul E (sinv (v - v')) (pmul E (v - v') H)).
  - rewrite (pmul_assoc E L). replace (sinv (v - v') * (v - v'))%sc with s1 by (field; exact Hd). symmetry. apply (pmul_1_l E L).
  - rewrite Hm, (pmul_assoc E L). f_equal. ring.
Qed.
Print Assumptions C65_amounts_balance.

(** From proofs to amounts, or to the discrete logarithm of [H], computed from the runs: a fork of valid proofs for a ring whose auxiliary keys are all commitments. *)
Theorem C65_proofs_balance :
  forall (E : env), env_laws E -> forall (st : statement E) (runs : list (transcript * proof E)) (H : pt E)
    (amount mask : nat -> scalar) (v' s' : scalar),
    made_statement st -> forked st runs -> length runs = S (N.to_nat (get_m (st_get_params st))) ->
    (forall t pf, In (t, pf) runs -> valid_proof t st pf) ->
    (forall i P, nth_error (get_auxiliary_keys (st_get_input_set st)) i = Some P ->
       P = padd E (pmul E (amount i) H) (pmul E (mask i) (get_G1 (st_get_params st)))) ->
    st_get_offset st = padd E (pmul E v' H) (pmul E s' (get_G1 (st_get_params st))) ->
    match extract (st_get_params st) (challenges_and_proofs st runs) with
    | Witnessed (l, r, r1) => relation st l r r1 /\
        (amount (N.to_nat l) = v' \/
         H = pmul E ((r1 - mask (N.to_nat l) + s') * sinv (amount (N.to_nat l) - v'))%sc (get_G1 (st_get_params st)))
    | Broken cs => is_relation (get_CommitmentG (st_get_params st)) (get_CommitmentH (st_get_params st)) cs
    end.
Proof.
  intros E L st runs H amount mask v' s' Hst Hf Hlen Hv Hk Ho.
  pose proof (C64_special_soundness E L st runs Hst Hf Hlen Hv) as Hx.
  destruct (extract _ (challenges_and_proofs st runs)) as [[[l r] r1]|cs]; [|exact Hx].
  split; [exact Hx|]. pose proof Hx as (_ & (P & HP & _) & _). pose proof (Hk _ _ HP) as HPe. rewrite HPe in HP.
  exact (C65_amounts_balance E L st l r r1 H _ _ v' s' Hx HP Ho).
Qed.
Print Assumptions C65_proofs_balance.

(** In the example ring the auxiliary keys and the offset are commitments to a second generator. *)
Example C65_example : exists (st : statement E0) l r r1 H v s v' s',
  made_statement st /\ relation st l r r1 /\
  nth_error (get_auxiliary_keys (st_get_input_set st)) (N.to_nat l) = Some (padd E0 (pmul E0 v H) (pmul E0 s (get_G1 (st_get_params st)))) /\
  st_get_offset st = padd E0 (pmul E0 v' H) (pmul E0 s' (get_G1 (st_get_params st))) /\ v = v' /\ v <> s0 /\ s <> s'.
Proof.
  pose proof (x_relation P0 T0 2 ltac:(lia)) as Hr. pose proof Hr as (_ & (P & HP & He) & _).
  exists (x_statement P0 T0 2), 2%N, x_r, x_r1, (x_offset P0 T0), s1, x_r1, s1, s0.
  split; [apply x_statement_made|]. split; [exact Hr|].
  assert (Ho : st_get_offset (x_statement P0 T0 2) = x_offset P0 T0) by exact (eq_refl (x_offset P0 T0)). rewrite Ho in *.
  split; [|split; [|split; [reflexivity|split; scalars_differ]]].
  - etransitivity; [exact HP|]. f_equal. rewrite <- He. unfold psub. rewrite (pmul_1_l E0 L0). module L0.
  - module L0.
Qed.
