(** Property C113: the parallel soundness error.  Somebody who answers a first message can answer at most [m] challenges, unless his answers
    give away a signing key (or a relation between the commitment generators). *)
From Verif Require Import ParSpecSound SpecUniform ParFacts ParCompleteness ParVerifierApi ParSoundness SoundnessError ParExamples Properties_ParProver Properties_ParSoundness
  ParZK ParSpecZK Properties_ParUsage.
From Verif Require Import Algebra.

(** A forger: a first message (that of [answer] at any challenge) and an answer to every challenge. *)
Definition one_message {E : env} (answer : scalar -> proof E) : Prop := forall xi xi', same_first_message (answer xi) (answer xi').
(** The forger's answer to this challenge satisfies the verification equations. *)
Definition answers {E : env} (st : statement E) (answer : scalar -> proof E) (xi : scalar) : Prop :=
  well_shaped (st_get_params st) (answer xi) /\
  equations (st_get_params st) (get_keys (st_get_input_set st)) (get_auxiliary_keys (st_get_input_set st)) (st_get_offset st) (st_get_J st) (answer xi) xi.

Lemma pt_eq_dec {E : env} (L : env_laws E) (P Q : pt E) : {P = Q} + {P <> Q}.
Proof. destruct (peqb E P Q) eqn:He; [left; apply (peqb_eq E L); exact He|right; intros H; apply (peqb_eq E L) in H; congruence]. Qed.
Lemma shape_dec {A} m n (f : list (list A)) : {shape m n f} + {~ shape m n f}.
Proof.
  destruct (Nat.eq_dec (length f) m) as [Hm|Hm]; [|right; intros [H _]; exact (Hm H)].
  destruct (Forall_dec (fun row => length row = n) (fun row => Nat.eq_dec (length row) n) f) as [Hf|Hf]; [left; split; assumption|right; intros [_ H]; exact (Hf H)].
Qed.
Lemma answers_dec {E : env} (L : env_laws E) (st : statement E) answer xi : {answers st answer xi} + {~ answers st answer xi}.
Proof.
  unfold answers. set (pf := answer xi). clearbody pf. set (p := st_get_params st). set (M := get_keys _). set (M1 := get_auxiliary_keys _). set (J := st_get_J st). set (O := st_get_offset st). clearbody p M M1 J O.
  unfold well_shaped.
  destruct (Nat.eq_dec (length (pf_X pf)) (N.to_nat (get_m p))) as [H1|H1]; [|right; intros ((H & _) & _); exact (H1 H)].
  destruct (Nat.eq_dec (length (pf_X1 pf)) (N.to_nat (get_m p))) as [H4|H4]; [|right; intros ((_ & H & _) & _); exact (H4 H)].
  destruct (Nat.eq_dec (length (pf_Y pf)) (N.to_nat (get_m p))) as [H2|H2]; [|right; intros ((_ & _ & H & _) & _); exact (H2 H)].
  destruct (shape_dec (N.to_nat (get_m p)) (N.to_nat (get_n p) - 1) (pf_f pf)) as [H3|H3]; [|right; intros ((_ & _ & _ & H) & _); exact (H3 H)].
  destruct (pt_eq_dec L (com (get_CommitmentG p) (get_CommitmentH p) (complete xi (pf_f pf)) (pf_z_A pf)) (padd E (pf_A pf) (pmul E xi (pf_B pf)))) as [eA|eA];
    [|right; intros [_ H]; exact (eA (eq_A _ _ _ _ _ _ _ H))].
  destruct (pt_eq_dec L (com (get_CommitmentG p) (get_CommitmentH p) (map (map (fun x => x * (xi - x))%sc) (complete xi (pf_f pf))) (pf_z_C pf))
    (padd E (pmul E xi (pf_C pf)) (pf_D pf))) as [eC|eC]; [|right; intros [_ H]; exact (eC (eq_C _ _ _ _ _ _ _ H))].
  destruct (pt_eq_dec L (lincomb (map (code_product (get_n p) (N.to_nat (get_m p)) (mat (complete xi (pf_f pf)))) (seq 0 (length M))) M)
    (padd E (lincomb (powers xi (N.to_nat (get_m p))) (pf_X pf)) (pmul E (pf_z pf) (get_G p)))) as [eM|eM]; [|right; intros [_ H]; exact (eM (eq_M _ _ _ _ _ _ _ H))].
  destruct (pt_eq_dec L (pmul E (spow xi (N.to_nat (get_m p))) (get_U p))
    (padd E (lincomb (powers xi (N.to_nat (get_m p))) (pf_Y pf)) (pmul E (pf_z pf) J))) as [eU|eU]; [|right; intros [_ H]; exact (eU (eq_U _ _ _ _ _ _ _ H))].
  destruct (pt_eq_dec L (lincomb (map (code_product (get_n p) (N.to_nat (get_m p)) (mat (complete xi (pf_f pf)))) (seq 0 (length M))) (shifted M1 O))
    (padd E (lincomb (powers xi (N.to_nat (get_m p))) (pf_X1 pf)) (pmul E (pf_z1 pf) (get_G1 p)))) as [eM1|eM1]; [|right; intros [_ H]; exact (eM1 (eq_M1 _ _ _ _ _ _ _ H))].
  left. split; [split; [exact H1|split; [exact H4|split; [exact H2|exact H3]]]|]. constructor; assumption.
Qed.

(** Either the challenges answered are at most [m] of the more than [2^252], or [m + 1] of the answers give away a position and a key (or
    a relation). *)
Theorem C113_soundness_error :
  forall (E : env), env_laws E -> forall (st : statement E) (answer : scalar -> proof E), made_statement st -> one_message answer ->
    (exists all, NoDup all /\ (length all <= N.to_nat (get_m (st_get_params st)))%nat /\ forall xi, answers st answer xi <-> In xi all) \/
    (exists some, NoDup some /\ length some = S (N.to_nat (get_m (st_get_params st))) /\
       match extract (st_get_params st) (map (fun xi => (xi, answer xi)) some) with
       | Witnessed (l, r, r1) => relation st l r r1
       | Broken cs => is_relation (get_CommitmentG (st_get_params st)) (get_CommitmentH (st_get_params st)) cs
       end).
Proof.
  intros E L st answer Hst Hone. destruct (few_or_many (answers st answer) (answers_dec L st answer) (N.to_nat (get_m (st_get_params st)))) as [H|(some & H1 & H2 & H3)];
    [left; exact H|right]. exists some. split; [exact H1|]. split; [exact H2|].
  apply (extract_sound L st (map (fun xi => (xi, answer xi)) some) (answer s0) (made_statement_good L st Hst)).
  - rewrite map_length. exact H2.
  - rewrite map_map. cbn [fst]. rewrite map_id. exact H1.
  - intros xi pf Hin. apply in_map_iff in Hin. destruct Hin as (x & He & Hx). injection He as <- <-. split; [apply Hone|]. exact (H3 x Hx).
Qed.
Print Assumptions C113_soundness_error.

(** For a false statement: at most [m] challenges, or a relation is given away. *)
Theorem C113_false_statement :
  forall (E : env), env_laws E -> forall (st : statement E) (answer : scalar -> proof E), made_statement st -> one_message answer ->
    (forall l r r1, ~ relation st l r r1) ->
    (exists all, NoDup all /\ (length all <= N.to_nat (get_m (st_get_params st)))%nat /\ forall xi, answers st answer xi <-> In xi all) \/
    (exists some cs, NoDup some /\ length some = S (N.to_nat (get_m (st_get_params st))) /\
       extract (st_get_params st) (map (fun xi => (xi, answer xi)) some) = Broken cs /\
       is_relation (get_CommitmentG (st_get_params st)) (get_CommitmentH (st_get_params st)) cs).
Proof.
  intros E L st answer Hst Hone Hno. destruct (C113_soundness_error E L st answer Hst Hone) as [H|(some & H1 & H2 & H3)]; [left; exact H|right].
  destruct (extract (st_get_params st) (map (fun xi => (xi, answer xi)) some)) as [[[l r] r1]|cs] eqn:He; [destruct (Hno l r r1 H3)|].
  exists some, cs. split; [exact H1|]. split; [exact H2|]. split; [exact He|exact H3].
Qed.
Print Assumptions C113_false_statement.

(** ... and no better bound holds: a holder of a key in the ring can answer any [m] challenges he likes for a statement that carries the
    identity as its tag, which is false (C85). *)
Lemma lincomb_multiples {E : env} (L : env_laws E) (P : pt E) : forall ss cs, lincomb ss (map (fun c => pmul E c P) cs) = pmul E (sdot cs ss) P.
Proof.
  intros ss cs. revert ss. induction cs as [|c cs IH]; intros ss.
  - cbn [map]. rewrite lincomb_nil_r. change (sdot [] ss) with s0. symmetry. apply (pmul_0_l L).
  - destruct ss as [|s ss]; [rewrite lincomb_nil_l; change (sdot (c :: cs) []) with s0; symmetry; apply (pmul_0_l L)|].
    cbn [map]. rewrite lincomb_cons, IH, sdot_cons. module L.
Qed.
Definition with_Y {E : env} (pf : proof E) (Y : list (pt E)) : proof E :=
  mk_proof (pf_A pf) (pf_B pf) (pf_C pf) (pf_D pf) (pf_X pf) (pf_X1 pf) Y (pf_f pf) (pf_z_A pf) (pf_z_C pf) (pf_z pf) (pf_z1 pf).
Theorem C113_bound_is_reached :
  forall (E : env), env_laws E -> forall (st : statement E) l r r1 M1_l xs, made_statement st -> st_get_J st = pid E ->
    nth_error (get_keys (st_get_input_set st)) (N.to_nat l) = Some (pmul E r (get_G (st_get_params st))) ->
    nth_error (get_auxiliary_keys (st_get_input_set st)) (N.to_nat l) = Some M1_l ->
    psub M1_l (st_get_offset st) = pmul E r1 (get_G1 (st_get_params st)) ->
    length xs = N.to_nat (get_m (st_get_params st)) ->
    exists answer, one_message answer /\ forall xi, In xi xs -> answers st answer xi.
Proof.
  intros E L st l r r1 M1_l xs Hst HJ Hk Hk1 Ho Hxs. destruct (monic_with_roots xs) as (cs & Hcs & Hroot).
  pose proof (made_statement_good L st Hst) as Hg. destruct Hst as (p & s & O & J & Hp & Hs & Hnew).
  assert (Hr : r <> s0).
  { intros ->. rewrite (pmul_0_l L) in Hk. apply nth_error_In in Hk. exact (gs_nonid _ Hg Hk). }
  assert (H0 : st_get_params st = p /\ st_get_input_set st = s /\ st_get_offset st = O).
  { apply (statement_new_inv L) in Hnew. destruct Hnew as (_ & _ & _ & ->); repeat split; reflexivity. }
  destruct H0 as (Ep0 & Es0 & EO0).
  assert (Hno : ~ In O (get_auxiliary_keys s)) by (rewrite <- EO0, <- Es0; exact (gs_nonid1 _ Hg)).
  destruct (with_other_tag L p s O O J (pmul E (sinv r) (get_U p)) st Hp Hs Hno Hnew) as (st' & Hm' & _ & Ep & Es & EO & EJ).
  assert (Hrel : relation st' l r r1).
  { split; [rewrite Ep, Es; rewrite Ep0, Es0 in Hk; exact Hk|]. split.
    { exists M1_l. rewrite Es, Ep, EO. rewrite Es0 in Hk1. rewrite EO0, Ep0 in Ho. split; assumption. }
    rewrite EJ, Ep. rewrite (pmul_assoc E L).
    replace (r * sinv r)%sc with s1 by (field; exact Hr). apply (pmul_1_l E L). }
  pose proof (made_statement_good L st' Hm') as Hg'. pose proof (gs_params _ Hg') as Hgp.
  set (k := N.to_nat (get_m (st_get_params st))) in *.
  set (c := mk_coins s0 (mkmat k (N.to_nat (get_n (st_get_params st))) (fun _ _ => s1)) s0 s0 s0 (repeat s0 k) (repeat s0 k)).
  assert (Hc : good_coins st' c).
  { split; [change (st_params st') with (st_get_params st'); rewrite Ep, <- Ep0; apply mkmat_shape|].
    change (st_params st') with (st_get_params st'). rewrite Ep, <- Ep0. split; apply repeat_length. }
  exists (fun xi => with_Y (honest_proof st' l r r1 c xi) (map (fun c => pmul E c (get_U p)) cs)). split; [intros xi xi'; repeat split; reflexivity|].
  intros xi Hxi. pose proof (honest_equations L st' l r r1 c xi Hg' Hrel Hc) as [eA eC eM _ eM1].
  pose proof (honest_well_shaped st' l r r1 c xi) as (S1 & S2 & _ & S3).
  change (st_params st') with (st_get_params st') in eA, eC, eM, eM1, S1, S2, S3. rewrite Ep, <- Ep0 in eA, eC, eM, eM1, S1, S2, S3.
  change (is_M (st_input_set st')) with (get_keys (st_get_input_set st')) in eM, eM1.
  change (is_M1 (st_input_set st')) with (get_auxiliary_keys (st_get_input_set st')) in eM1. change (st_offset st') with (st_get_offset st') in eM1.
  rewrite Es, <- Es0 in eM, eM1. rewrite EO, <- EO0 in eM1.
  split; [split; [exact S1|split; [exact S2|split; [cbn [with_Y pf_Y]; rewrite map_length, Hcs; exact Hxs|exact S3]]]|].
  constructor; [exact eA|exact eC|exact eM| |exact eM1].
  cbn [with_Y pf_Y pf_z]. rewrite HJ, (pmul_0_r L), (padd_0_r L), (lincomb_multiples L), sdot_powers by (fold k; rewrite Hcs; exact Hxs).
  replace (spow xi (N.to_nat (get_m (st_get_params st)))) with (peval cs xi); [rewrite Ep0; reflexivity|]. fold k. rewrite <- Hxs. symmetry. apply Hroot. exact Hxi.
Qed.
Print Assumptions C113_bound_is_reached.

(** The honest prover's answers (the second case of the first theorem), and a false statement with a forger who answers two challenges. *)
Example C113_example :
  (exists (st : statement E0) answer, made_statement st /\ one_message answer /\ forall xi, answers st answer xi) /\
  (exists (st : statement E0) l r r1 M1_l answer, made_statement st /\ (forall l r r1, ~ relation st l r r1) /\ st_get_J st = pid E0 /\
     nth_error (get_keys (st_get_input_set st)) (N.to_nat l) = Some (pmul E0 r (get_G (st_get_params st))) /\ 
     nth_error (get_auxiliary_keys (st_get_input_set st)) (N.to_nat l) = Some M1_l /\
     psub M1_l (st_get_offset st) = pmul E0 r1 (get_G1 (st_get_params st)) /\ N.to_nat (get_m (st_get_params st)) = 2%nat /\
     one_message answer /\ answers st answer (smk 5) /\ answers st answer (smk 6)).
Proof.
  split.
  - exists (x_statement P0 T0 2), (fun xi => honest_proof (x_statement P0 T0 2) 2 x_r x_r1 x_coins xi).
    split; [apply x_statement_made|]. split; [intros xi xi'; apply honest_same_first|]. intros xi.
    split; [exact (honest_well_shaped (x_statement P0 T0 2) 2 x_r x_r1 x_coins xi)|].
    apply (honest_equations L0 (x_statement P0 T0 2) 2 x_r x_r1 x_coins xi).
    + apply (made_statement_good L0). apply x_statement_made.
    + apply (x_relation P0 T0 2). lia.
    + apply (prover_coins_good (E := E0)).
  - destruct (with_other_tag L0 (x_params P0 T0) (x_set P0 T0 2) (x_offset P0 T0) (x_offset P0 T0) (x_J P0 T0) (pid E0) _ (x_params_made P0 T0) (x_set_made P0 T0 2) (x_ring1_no_offset P0 T0 2) (x_statement_new P0 T0 2))
      as (st & Hm & _ & Hp & Hs & HO & HJ).
    assert (Hk : nth_error (get_keys (st_get_input_set st)) (N.to_nat 2) = Some (pmul E0 x_r (get_G (st_get_params st)))).
    { rewrite Hp, Hs. exact (proj1 (x_relation P0 T0 2 ltac:(lia))). }
    destruct (proj1 (proj2 (x_relation P0 T0 2 ltac:(lia)))) as (M1_l & Hk1 & Ho).
    change (nth_error (get_auxiliary_keys (x_set P0 T0 2)) (N.to_nat 2) = Some M1_l) in Hk1. rewrite <- Hs in Hk1.
    change (psub M1_l (x_offset P0 T0) = pmul E0 x_r1 (get_G1 (x_params P0 T0))) in Ho. rewrite <- HO, <- Hp in Ho.
    assert (Hm2 : N.to_nat (get_m (st_get_params st)) = 2%nat) by (rewrite Hp; reflexivity).
    destruct (C113_bound_is_reached E0 L0 st 2 x_r x_r1 M1_l [smk 5; smk 6] Hm HJ Hk Hk1 Ho) as (answer & H1 & H2); [rewrite Hm2; reflexivity|].
    exists st, 2%N, x_r, x_r1, M1_l, answer. split; [exact Hm|]. split; [|split; [exact HJ|split; [exact Hk|split; [exact Hk1|split; [exact Ho|split; [exact Hm2|split; [exact H1|]]]]]]].
    + apply (C85_identity_tag_unprovable E0 L0 st Hm HJ). rewrite Hp. scalars_differ.
    + split; apply H2; cbn [In]; tauto.
Qed.
