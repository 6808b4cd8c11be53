(** Property C89: proving with the operating system's generator. *)
From Verif Require Import SpecPlainSound ProverOs PlainFacts ProverFacts Completeness ProverApi Examples Properties_Prover Properties_Inputs.
From Verif Require Import Algebra.

(** ** C89.  [prove] reads twice 32 bytes, and only after the witness has passed all checks: a refusal happens whatever the operating
    system does.  If a read fails the call unwinds.  Otherwise result and transcript are those of [prove_with_rng] with any generator
    that delivers the bytes of the first read. *)
Theorem C89_prove_from_os :
  forall (E : env), env_laws E -> forall (O : Type) (os : os_source O) (w : witness E) (st : statement E) (o : O) (t : transcript),
    made_witness w -> made_statement st ->
    let o1 := snd (os o 32%nat) in
    (w_get_params w <> st_get_params st \/ ~ relation st (w_get_l w) (w_get_r w) ->
       exists reason, prove os w st o t = Returns (Err (InvalidParameter reason)) t o) /\
    (w_get_params w = st_get_params st -> relation st (w_get_l w) (w_get_r w) ->
       (fst (os o 32%nat) = None \/ fst (os o1 32%nat) = None -> prove os w st o t = Unwinds) /\
       forall bs bs', fst (os o 32%nat) = Some bs -> fst (os o1 32%nat) = Some bs' ->
       forall (R : Type) (ro : rng_ops R) (rng : R), fst (rng_fill ro rng 32) = bs ->
         let '(r, t', _) := prove_with_rng ro w st rng t in prove os w st o t = Returns r t' (snd (os o1 32%nat))).
Proof.
  intros E L O os w st o t Hw Hst o1.
  assert (Hpr : prove os w st o t = os_run (prove_with_rng (os_rng os) w st (o, false) t)) by reflexivity.
  split.
  - intros H. destruct (C18_refusal_has_no_effect E L _ (os_rng os) w st (o, false) t Hw Hst H) as [reason Hr].
    exists reason. rewrite Hpr, Hr. reflexivity.
  - intros Hp Hrel. destruct (C15_prove_exactly E L _ (os_rng os) w st (o, false) t Hw Hst) as (_ & _ & _ & Hzero & Hok).
    specialize (Hzero Hp Hrel). specialize (Hok Hp Hrel). rewrite Hpr. unfold o1.
    cbn [os_rng rng_fill fst snd] in Hzero, Hok. split.
    + intros Hfail.
      assert (Hf : snd (snd (prove_with_rng (os_rng os) w st (o, false) t)) = true).
      { rewrite (C21_randomness_oblivious E L _ (os_rng os) w st (o, false) t Hw Hst Hp Hrel). cbn [os_rng rng_fill fst snd].
        destruct (os o 32%nat) as [[bs|] o']; cbn [fst snd] in *.
        - destruct Hfail as [Hfail|Hfail]; [discriminate|]. destruct (os o' 32%nat) as [[bs'|] o'']; [discriminate|reflexivity].
        - destruct (os o' 32%nat) as [[bs'|] o'']; reflexivity. }
      destruct (prove_with_rng _ _ _ _ _) as [[r t'] [o' failed]]. cbn [snd] in Hf. subst failed. reflexivity.
    + intros bs bs' H1 H2 R ro rng Hseed. destruct (C15_prove_exactly E L R ro w st rng t Hw Hst) as (_ & _ & _ & Hzero' & Hok').
      specialize (Hzero' Hp Hrel). specialize (Hok' Hp Hrel). rewrite Hseed in Hzero', Hok'.
      destruct (os o 32%nat) as [b o'] eqn:E1. cbn [fst snd] in *. subst b. cbn [fst snd] in Hzero, Hok.
      destruct (os o' 32%nat) as [b o''] eqn:E2. cbn [fst snd] in *. subst b. cbn [fst snd] in Hzero, Hok.
      destruct (scalar_eq_dec (prover_challenge t st w bs) s0) as [Hx|Hx].
      * rewrite (Hzero' Hx), (Hzero Hx). reflexivity.
      * destruct (Hok' Hx) as [_ ->]. destruct (Hok Hx) as [_ ->]. reflexivity.
Qed.
Print Assumptions C89_prove_from_os.

(** [prove_vartime] does the same, whether or not the operating system fails. *)
Theorem C89_vartime_same :
  forall (E : env), env_laws E -> forall (O : Type) (os : os_source O) (w : witness E) (st : statement E) (o : O) (t : transcript),
    made_witness w -> made_statement st -> prove_vartime os w st o t = prove os w st o t.
Proof.
  intros E L O os w st o t Hw Hst. unfold prove, prove_vartime. f_equal.
  exact (eq_sym (C17_timing_equivalence E L _ (os_rng os) w st (o, false) t Hw Hst)).
Qed.
Print Assumptions C89_vartime_same.

(** An operating system that delivers the bytes of the generator of the examples once and is then out of order: the first proof is
    made only if it can be read twice. *)
Definition dying : os_source nat := fun o n => match o with O => (None, O) | S o' => (Some (fst (rng_fill counter 5%N n)), o') end.
Example C89_example :
  made_witness (x_witness P0 T0 2) /\ made_statement (x_statement P0 T0 2) /\
  (exists t', prove dying (x_witness P0 T0 2) (x_statement P0 T0 2) 2%nat (x_transcript 1) = Returns (Ok (x_proof P0 T0 2 1)) t' 0%nat) /\
  prove dying (x_witness P0 T0 2) (x_statement P0 T0 2) 1%nat (x_transcript 1) = Unwinds.
Proof.
  pose proof (x_witness_made P0 T0 2 ltac:(lia)) as Hw. pose proof (x_statement_made P0 T0 2) as Hst.
  split; [exact Hw|]. split; [exact Hst|].
  destruct (x_check_ok P0 T0 2 1 x_check_2_1) as [Hx _]. destruct (x_proved P0 T0 2 1 ltac:(lia) Hx) as [_ Hp]. split.
  - destruct (C89_prove_from_os E0 L0 nat dying _ _ 2%nat (x_transcript 1) Hw Hst) as [_ H].
    destruct (H eq_refl (x_relation P0 T0 2 ltac:(lia))) as [_ H2]. specialize (H2 _ _ eq_refl eq_refl N counter 5%N eq_refl).
    rewrite Hp in H2. eexists. exact H2.
  - destruct (C89_prove_from_os E0 L0 nat dying _ _ 1%nat (x_transcript 1) Hw Hst) as [_ H].
    destruct (H eq_refl (x_relation P0 T0 2 ltac:(lia))) as [H1 _]. apply H1. right. reflexivity.
Qed.

(** A random witness made with the operating system's generator: 8 bytes are read for the index, then 64 for the key.  If a read
    fails the call unwinds, and a caller never gets a witness that was not drawn. *)
Theorem C89_random_witness :
  forall (E : env) (O : Type) (os : os_source O) (p : params E) (o : O), made_params p ->
    let o1 := snd (os o 8%nat) in let o2 := snd (os o1 64%nat) in
    (fst (os o 8%nat) = None \/ fst (os o1 64%nat) = None -> witness_random_os os p o = None) /\
    forall bs bs', fst (os o 8%nat) = Some bs -> fst (os o1 64%nat) = Some bs' ->
      exists w, witness_random_os os p o = Some (w, o2) /\ w_get_params w = p /\
        w_get_l w = (le_val bs mod get_n p ^ get_m p)%N /\ w_get_r w = scalar_from_wide bs'.
Proof.
  intros E O os p o Hp o1 o2. pose proof (C08_random_witness E _ (os_rng os) (o, false) p Hp) as H.
  unfold witness_random_os, o2, o1 in *. clear o1 o2.
  destruct (witness_random (os_rng os) p (o, false)) as [w [o' failed]]. cbn [os_rng rng_fill rng_next_u64 fst snd] in H.
  destruct (os o 8%nat) as [[b1|] q1]; cbn [fst snd] in *;
    destruct (os q1 64%nat) as [[b2|] q2]; cbn [fst snd] in *; destruct H as (H1 & H2 & _ & H3 & H4);
    injection H4 as H4 H5; subst o' failed; (split; [intros [H|H]; try discriminate H; reflexivity|]);
    intros bs bs' Hb Hb'; try discriminate Hb; try discriminate Hb'.
  injection Hb as <-. injection Hb' as <-. exists w. repeat split; assumption.
Qed.
Print Assumptions C89_random_witness.

(** With the operating system of the example above: two reads suffice, one does not. *)
Example C89_random_example :
  exists p : params E0, made_params p /\ (exists w, witness_random_os dying p 2%nat = Some (w, 0%nat) /\ w_get_l w = 3%N) /\
    witness_random_os dying p 1%nat = None.
Proof.
  destruct example_params as (p & Hp & Hn & Hm & _). exists p. split; [exact Hp|]. split.
  - destruct (C89_random_witness E0 nat dying p 2%nat Hp) as [_ H]. destruct (H _ _ eq_refl eq_refl) as (w & H1 & _ & H2 & _).
    exists w. split; [exact H1|]. rewrite H2, Hn, Hm. reflexivity.
  - destruct (C89_random_witness E0 nat dying p 1%nat Hp) as [H _]. apply H. right. reflexivity.
Qed.
