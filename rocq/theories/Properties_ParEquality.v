(** Property C101, parallel protocol: what [==] means for parameters, input sets, statements and proofs. *)
From Verif Require Import ParSpecSound ParEquality ParCodec ParFacts ParProverFacts ParCompleteness ParBinding ParCodecFacts ParExamples Properties_ParParams Properties_ParInputs Properties_ParCodec.

Lemma pts_eqb_eq {E : env} (L : env_laws E) (a b : list (pt E)) : pts_eqb a b = true <-> a = b.
Proof.
  revert b. induction a as [|x a IH]; intros [|y b]; cbn [pts_eqb]; split; intros H; try reflexivity; try discriminate.
  - apply andb_true_iff in H. destruct H as [H1 H2]. apply (peqb_eq E L) in H1. apply IH in H2. subst. reflexivity.
  - injection H as <- <-. apply andb_true_iff. split; [apply (peqb_eq E L); reflexivity|apply IH; reflexivity].
Qed.
Lemma list_eqb_eq {A} (eqb : A -> A -> bool) (Heq : forall x y, eqb x y = true <-> x = y) a b : list_eqb eqb a b = true <-> a = b.
Proof.
  revert b. induction a as [|x a IH]; intros [|y b]; cbn [list_eqb]; split; intros H; try reflexivity; try discriminate.
  - apply andb_true_iff in H. destruct H as [H1 H2]. apply Heq in H1. apply IH in H2. subst. reflexivity.
  - injection H as <- <-. apply andb_true_iff. split; [apply Heq; reflexivity|apply IH; reflexivity].
Qed.
Lemma input_set_eqb_eq {E : env} (L : env_laws E) (s s' : input_set E) : input_set_eqb s s' = true <-> s = s'.
Proof.
  unfold input_set_eqb. rewrite !andb_true_iff, !(pts_eqb_eq L), bytes_eqb_eq. destruct s as [M M1 h], s' as [M' M1' h']. cbn [is_M is_M1 is_hash].
  split; [intros ((-> & ->) & ->); reflexivity|intros H; injection H as -> -> ->; repeat split].
Qed.
Lemma statement_eqb_eq {E : env} (L : env_laws E) (st st' : statement E) : statement_eqb st st' = true <-> st = st'.
Proof.
  unfold statement_eqb. rewrite !andb_true_iff, (params_eqb_eq L), (input_set_eqb_eq L), !(peqb_eq E L), bytes_eqb_eq. destruct st as [p s o J h], st' as [p' s' o' J' h'].
  cbn [st_params st_input_set st_offset st_J st_hash].
  split; [intros ((((-> & ->) & ->) & ->) & ->); reflexivity|intros H; injection H as -> -> -> -> ->; repeat split].
Qed.
Lemma proof_eqb_eq {E : env} (L : env_laws E) (pf pf' : proof E) : proof_eqb pf pf' = true <-> pf = pf'.
Proof.
  unfold proof_eqb. rewrite !andb_true_iff, !(peqb_eq E L), !(pts_eqb_eq L), !seqb_eq, (list_eqb_eq (list_eqb seqb)) by exact (list_eqb_eq seqb seqb_eq).
  destruct pf as [A B C D X X1 Y f zA zC z z1], pf' as [A' B' C' D' X' X1' Y' f' zA' zC' z' z1']. cbn [pf_A pf_B pf_C pf_D pf_X pf_X1 pf_Y pf_f pf_z_A pf_z_C pf_z pf_z1].
  split; [intros (((((((((((-> & ->) & ->) & ->) & ->) & ->) & ->) & ->) & ->) & ->) & ->) & ->); reflexivity|].
  intros H. injection H as -> -> -> -> -> -> -> -> -> -> -> ->. repeat split.
Qed.

(** ** C101: parameters are equal exactly if they were made from the same sizes and generators... *)
Theorem C101_parameters :
  forall (E : env), env_laws E -> forall n m G G1 U n' m' G' G1' U' (p p' : params E),
    new_with_generators n m G G1 U = Ok p -> new_with_generators n' m' G' G1' U' = Ok p' ->
    (params_eqb p p' = true <-> n = n' /\ m = m' /\ G = G' /\ G1 = G1' /\ U = U').
Proof.
  intros E L n m G G1 U n' m' G' G1' U' p p' H H'. rewrite (params_eqb_eq L).
  destruct (C57_parameters_exact _ _ _ _ _ _ _ H) as (H1 & H2 & H3 & H4 & H5 & _). destruct (C57_parameters_exact _ _ _ _ _ _ _ H') as (H1' & H2' & H3' & H4' & H5' & _).
  split; [intros ->; subst; repeat split; reflexivity|]. intros (-> & -> & -> & -> & ->). congruence.
Qed.
Print Assumptions C101_parameters.

(** ... input sets if they have the same keys and auxiliary keys and were made from lists of the same length, up to a collision of
    hashes.  [M] and [M1] are the lists given by the caller, before padding... *)
Definition made_from {E : env} (s : input_set E) (M M1 : list (pt E)) : Prop :=
  input_set_new M M1 = Ok s \/ exists p, made_params p /\ input_set_new_with_padding M M1 p = Ok s.
Lemma firstn_resize {A} (l : list A) k x : (length l <= k)%nat -> firstn (length l) (resize l k x) = l.
Proof.
  intros H. unfold resize. rewrite firstn_app, firstn_firstn, Nat.min_l by lia. rewrite firstn_all, firstn_length, Nat.min_r by lia.
  rewrite Nat.sub_diag, firstn_O, app_nil_r. reflexivity.
Qed.
Lemma made_from_spec {E : env} (s : input_set E) M M1 : made_from s M M1 ->
  made_input_set s /\ (N.of_nat (length M) < 2 ^ 32)%N /\
  s = mk_input_set (get_keys s) (get_auxiliary_keys s) (hash_of (E := E) (input_set_query (get_keys s) (get_auxiliary_keys s) (N.of_nat (length M)))) /\
  length M1 = length M /\ firstn (length M) (get_keys s) = M /\ firstn (length M) (get_auxiliary_keys s) = M1.
Proof.
  intros [H|(p & Hp & H)].
  - split; [left; exists M, M1; exact H|]. unfold input_set_new in H.
    destruct (Nat.eqb_spec (length M) (length M1)) as [Hlen|]; cbn [negb] in H; [|discriminate]. apply new_internal_M in H. destruct H as (HM & HM1 & Hk & Hh).
    split; [exact Hk|]. split; [|split; [congruence|]].
    + destruct s as [M' M1' h]. cbn [is_M is_M1 is_hash get_keys get_auxiliary_keys] in *. subst. f_equal. rewrite input_set_query_spec. reflexivity.
    + unfold get_keys, get_auxiliary_keys. rewrite HM, HM1. split; [apply firstn_all|rewrite Hlen; apply firstn_all].
  - split; [right; exists M, M1, p; split; assumption|]. unfold input_set_new_with_padding in H.
    destruct (Nat.eqb_spec (length M) (length M1)) as [Hlen|]; cbn [negb] in H; [|discriminate].
    destruct (N.ltb_spec (get_N p) (N.of_nat (length M))) as [|Hle]; [discriminate|].
    destruct (last_opt M) as [x|]; cbn [ok_or obind] in H; [|discriminate]. destruct (last_opt M1) as [x1|]; cbn [ok_or obind] in H; [|discriminate].
    apply new_internal_M in H. destruct H as (HM & HM1 & Hk & Hh). split; [exact Hk|]. split; [|split; [congruence|]].
    + destruct s as [M' M1' h]. cbn [is_M is_M1 is_hash get_keys get_auxiliary_keys] in *. subst. f_equal. rewrite input_set_query_spec. reflexivity.
    + unfold get_keys, get_auxiliary_keys. rewrite HM, HM1. split; [apply firstn_resize; lia|rewrite Hlen; apply firstn_resize; lia].
Qed.
Theorem C101_input_sets :
  forall (E : env), env_laws E -> forall (s s' : input_set E) M M1 M' M1', made_from s M M1 -> made_from s' M' M1' ->
    (get_keys s = get_keys s' -> get_auxiliary_keys s = get_auxiliary_keys s' -> length M = length M' -> input_set_eqb s s' = true) /\
    (input_set_eqb s s' = true -> get_keys s = get_keys s' /\ get_auxiliary_keys s = get_auxiliary_keys s' /\ input_set_get_hash s = input_set_get_hash s' /\
       ((M = M' /\ M1 = M1') \/ collide (E := E) (input_set_query (get_keys s) (get_auxiliary_keys s) (N.of_nat (length M)))
          (input_set_query (get_keys s') (get_auxiliary_keys s') (N.of_nat (length M'))))).
Proof.
  intros E L s s' M M1 M' M1' H H'. rewrite (input_set_eqb_eq L).
  destruct (made_from_spec s M M1 H) as (_ & Hb & Hs & Hl1 & Hf & Hf1). destruct (made_from_spec s' M' M1' H') as (_ & Hb' & Hs' & Hl1' & Hf' & Hf1'). split.
  - intros Hk Hk1 Hl. rewrite Hs, Hs', Hk, Hk1, Hl. reflexivity.
  - intros He. split; [congruence|]. split; [congruence|]. split; [congruence|].
    destruct (Nat.eq_dec (length M) (length M')) as [Hl|Hl]; [left; split; congruence|right]. split.
    + intros Hq. apply (input_set_query_inj L) in Hq; [|exact Hb|exact Hb']. destruct Hq as (_ & _ & Hq). apply Hl. lia.
    + apply (f_equal input_set_get_hash) in He. rewrite Hs, Hs' in He. exact He.
Qed.
Print Assumptions C101_input_sets.

(** ... statements if their parameters, input sets, offsets and linking tags are... *)
Theorem C101_statements :
  forall (E : env), env_laws E -> forall (st st' : statement E), made_statement st -> made_statement st' ->
    (statement_eqb st st' = true <->
       params_eqb (st_get_params st) (st_get_params st') = true /\ input_set_eqb (st_get_input_set st) (st_get_input_set st') = true /\
       st_get_offset st = st_get_offset st' /\ st_get_J st = st_get_J st').
Proof.
  intros E L st st' H H'. rewrite (statement_eqb_eq L), (params_eqb_eq L), (input_set_eqb_eq L). split; [intros ->; repeat split|].
  pose proof (gs_hash _ (made_statement_good L st H)) as Hh. pose proof (gs_hash _ (made_statement_good L st' H')) as Hh'.
  destruct st as [p s o J h], st' as [p' s' o' J' h']. unfold st_get_params, st_get_input_set, st_get_offset, st_get_J. cbn [st_params st_input_set st_offset st_J st_hash] in *.
  intros (-> & -> & -> & ->). f_equal. congruence.
Qed.
Print Assumptions C101_statements.

(** ... and proofs if they have the same encoding, provided that they have one that can be decoded, as all proofs that a prover makes
    and all that were decoded. *)
Theorem C101_proofs :
  forall (E : env), env_laws E -> forall (pf pf' : proof E) n1 m n1' m', rectangular n1 m pf -> rectangular n1' m' pf' ->
    (proof_eqb pf pf' = true <-> to_bytes pf = to_bytes pf').
Proof.
  intros E L pf pf' n1 m n1' m' H H'. rewrite (proof_eqb_eq L). split; [intros ->; reflexivity|]. intros He.
  destruct (proj2 (C69_roundtrip E L pf) (ex_intro _ n1 (ex_intro _ m H))) as (bs & H1 & H2).
  destruct (proj2 (C69_roundtrip E L pf') (ex_intro _ n1' (ex_intro _ m' H'))) as (bs' & H1' & H2'). congruence.
Qed.
Print Assumptions C101_proofs.

(** For values of any origin [==] is equality of all fields: reflexive, symmetric, transitive, and functions cannot tell equal values
    apart. *)
Theorem C101_decides_equality :
  forall (E : env), env_laws E ->
    (forall p p' : params E, params_eqb p p' = true <-> p = p') /\ (forall s s' : input_set E, input_set_eqb s s' = true <-> s = s') /\
    (forall st st' : statement E, statement_eqb st st' = true <-> st = st') /\ (forall pf pf' : proof E, proof_eqb pf pf' = true <-> pf = pf').
Proof.
  intros E L. split; [exact (params_eqb_eq L)|]. split; [exact (input_set_eqb_eq L)|]. split; [exact (statement_eqb_eq L)|exact (proof_eqb_eq L)].
Qed.
Print Assumptions C101_decides_equality.

Lemma honest_rectangular {E : env} (st : statement E) l r r1 c xi : made_params (st_params st) -> exists n1 m, rectangular n1 m (honest_proof st l r r1 c xi).
Proof. intros H. eexists _, _. apply (well_shaped_rectangular (st_params st) _ (made_good _ H)). apply honest_well_shaped. Qed.
(** Hypotheses are met by the examples; and equality of keys is not enough: the padded list of two keys is not the list of four. *)
Example C101_example :
  (exists p : params E0, new_with_generators 2 2 (x_G P0 T0) (x_G1 P0 T0) (x_U P0 T0) = Ok p) /\
  (exists (s s' : input_set E0) M M1 M' M1', made_from s M M1 /\ made_from s' M' M1' /\ get_keys s = get_keys s' /\ get_auxiliary_keys s = get_auxiliary_keys s' /\ length M <> length M' /\ input_set_eqb s s' = false) /\
  (made_statement (x_statement P0 T0 2) /\ made_statement (x_statement P0 T0 1) /\ statement_eqb (x_statement P0 T0 2) (x_statement P0 T0 1) = false) /\
  (exists n1 m, rectangular n1 m (x_proof P0 T0 2 1)) /\ exists n1 m, rectangular n1 m (x_proof P0 T0 1 1).
Proof.
  split; [exists (x_params P0 T0); apply x_params_new|]. split.
  - assert (Hg : made_params (x_params P0 T0)) by apply x_params_made.
    destruct (proj1 (C59_padding E0 (x_params P0 T0) [smk 4; smk 5] [smk 6; smk 7] Hg) (smk 5) (smk 7)) as (s & Hs & Hk & Hk1 & _);
      [reflexivity|vm_compute; split; repeat constructor|reflexivity|reflexivity|].
    eexists s, _, _, _, [smk 4; smk 5; smk 5; smk 5], [smk 6; smk 7; smk 7; smk 7].
    split; [right; exists (x_params P0 T0); split; [exact Hg|exact Hs]|]. split; [left; reflexivity|].
    split; [rewrite Hk; reflexivity|]. split; [rewrite Hk1; reflexivity|]. split; [discriminate|].
    injection Hs as <-. vm_compute. reflexivity.
  - split; [split; [apply x_statement_made|split; [apply x_statement_made|vm_compute; reflexivity]]|].
    split; [exact (honest_rectangular (x_statement P0 T0 2) _ _ _ _ _ (x_params_made P0 T0))|exact (honest_rectangular (x_statement P0 T0 1) _ _ _ _ _ (x_params_made P0 T0))].
Qed.
