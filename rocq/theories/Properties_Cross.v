(** Properties C87 and C88: the two protocols side by side.  As in [Properties_Domains.v], the names of the parallel model are
    qualified. *)
From Verif Require Import SpecPlainSound PlainFacts Soundness Examples Properties_Params Properties_Inputs Properties_Soundness Properties_Codec.
From Verif Require ParSpecSound ParFacts ParSoundness ParExamples Properties_ParParams Properties_ParInputs Properties_ParSoundness Properties_ParCodec.
From Verif Require Import Algebra GrayRun.

(** ** C87: no byte string is a proof in both protocols. *)
Theorem C87_encodings_disjoint :
  forall (E : env), env_laws E -> forall bs,
    (forall pf : proof E, from_bytes bs = Ok pf -> ParCodec.from_bytes (E := E) bs = Err FailedDeserialization) /\
    (forall pf : ParProver.proof E, ParCodec.from_bytes bs = Ok pf -> from_bytes (E := E) bs = Err FailedDeserialization).
Proof.
  intros E L bs.
  assert (H : forall (pf : proof E) (pf' : ParProver.proof E), from_bytes bs = Ok pf -> ParCodec.from_bytes bs = Ok pf' -> False).
  { intros pf pf' H H'. pose proof (C47_accepted_encodings E L bs pf H) as Ha. pose proof (Properties_ParCodec.C69_accepted_encodings E L bs pf' H') as Hb.
    cbv zeta in Ha, Hb. destruct Ha as (_ & _ & _ & Ha & _). destruct Hb as (_ & _ & _ & Hb & _).
    revert Ha Hb. generalize (le_val (firstn 4 bs)), (le_val (firstn 4 (skipn 4 bs))). intros n1 m Ha Hb. rewrite Ha in Hb. nia. }
  split.
  - intros pf Hp. destruct (Properties_ParCodec.C69_decoding_total E bs) as [(pf' & H')|H']; [destruct (H pf pf' Hp H')|exact H'].
  - intros pf Hp. destruct (C48_decoding_total E bs) as [(pf' & H')|H']; [destruct (H pf' pf H' Hp)|exact H'].
Qed.
Print Assumptions C87_encodings_disjoint.
(** The same for Borsh, whatever follows in the reader. *)
Theorem C87_borsh_disjoint :
  forall (E : env), env_laws E -> forall reader,
    (forall x, borsh_deserialize_reader (E := E) reader = Ok x -> ParCodec.borsh_deserialize_reader (E := E) reader = Err ParCodec.IoError) /\
    (forall x, ParCodec.borsh_deserialize_reader (E := E) reader = Ok x -> borsh_deserialize_reader (E := E) reader = Err IoError).
Proof.
  intros E L reader. unfold borsh_deserialize_reader, ParCodec.borsh_deserialize_reader.
  destruct (length reader <? 4)%nat; [split; discriminate|]. destruct (length (skipn 4 reader) <? N.to_nat (le_val (firstn 4 reader)))%nat; [split; discriminate|].
  generalize (firstn (N.to_nat (le_val (firstn 4 reader))) (skipn 4 reader)). intros bs. destruct (C87_encodings_disjoint E L bs) as [H1 H2]. split.
  - intros x H. destruct (from_bytes bs) as [pf| | |]; try discriminate. rewrite (H1 pf eq_refl). reflexivity.
  - intros x H. destruct (ParCodec.from_bytes bs) as [pf| | |]; try discriminate. rewrite (H2 pf eq_refl). reflexivity.
Qed.
Print Assumptions C87_borsh_disjoint.

(** ** C88: keys, tags and generators are the same in both protocols. *)
(** Parameters for equal [n] and [m] have the same commitment generators, and the default parameters the same [G] and [U]... *)
Theorem C88_parameters_agree :
  forall (E : env) (p : params E) (p' : ParParams.params E), made_params p -> ParSpec.made_params p' ->
    get_n p = ParParams.get_n p' -> get_m p = ParParams.get_m p' ->
    get_CommitmentG p = ParParams.get_CommitmentG p' /\ get_CommitmentH p = ParParams.get_CommitmentH p'.
Proof.
  intros E p p' (n & m & G & U & Hp) (n' & m' & G' & G1' & U' & Hp') Hn Hm.
  destruct (C02_parameters_exact _ _ _ _ _ _ Hp) as (H1 & H2 & _ & _ & _ & HlG & HH & HG).
  destruct (Properties_ParParams.C57_parameters_exact _ _ _ _ _ _ _ Hp') as (H1' & H2' & _ & _ & _ & _ & HlG' & HH' & HG').
  rewrite H1, H1' in Hn. rewrite H2, H2' in Hm. subst n' m'. split; [|congruence].
  apply nth_error_ext. intros i. destruct (Nat.lt_ge_cases i (N.to_nat (n * m))) as [Hi|Hi]; [rewrite HG, HG' by exact Hi; reflexivity|].
  rewrite !(proj2 (nth_error_None _ _)); [reflexivity|rewrite HlG'; exact Hi|rewrite HlG; exact Hi].
Qed.
Print Assumptions C88_parameters_agree.
Theorem C88_default_parameters_agree :
  forall (E : env) n m (q : params E) (q' : ParParams.params E), params_new n m = Ok q -> ParParams.params_new n m = Ok q' ->
    get_G q = ParParams.get_G q' /\ get_U q = ParParams.get_U q'.
Proof.
  intros E n m q q' H H'. unfold params_new in H. unfold ParParams.params_new in H'.
  destruct (C02_parameters_exact _ _ _ _ _ _ H) as (_ & _ & HG & HU & _).
  destruct (Properties_ParParams.C57_parameters_exact _ _ _ _ _ _ _ H') as (_ & _ & HG' & _ & HU' & _). split; congruence.
Qed.
Print Assumptions C88_default_parameters_agree.
(** ... so a signing key has the same verification key and the same linking tag in both... *)
Theorem C88_keys_and_tags_agree :
  forall (E : env), env_laws E -> forall (w : witness E) (w' : ParWitness.witness E), w_get_r w <> s0 -> ParWitness.w_get_r w' <> s0 ->
    get_G (w_get_params w) = ParParams.get_G (ParWitness.w_get_params w') -> get_U (w_get_params w) = ParParams.get_U (ParWitness.w_get_params w') ->
    (w_get_r w = ParWitness.w_get_r w' ->
       compute_verification_key w = ParWitness.compute_verification_key w' /\ compute_linking_tag w = ParWitness.compute_linking_tag w') /\
    (get_U (w_get_params w) <> pid E -> compute_linking_tag w = ParWitness.compute_linking_tag w' -> w_get_r w = ParWitness.w_get_r w').
Proof.
  intros E L w w' Hr Hr' HG HU. split.
  - intros He. unfold compute_verification_key, ParWitness.compute_verification_key, compute_linking_tag, ParWitness.compute_linking_tag.
    change (w_r w) with (w_get_r w). change (ParWitness.w_r w') with (ParWitness.w_get_r w').
    change (w_params w) with (w_get_params w). change (ParWitness.w_params w') with (ParWitness.w_get_params w'). rewrite He, HG, HU. split; reflexivity.
  - intros Hid He. destruct (C09_tag_and_key E L w Hr) as [H1 _]. destruct (Properties_ParInputs.C58_tag_and_key E L w' Hr') as [H2 _].
    rewrite He in H1. rewrite <- HU, <- H1 in H2. apply (pmul_inj_l L _ _ (ParWitness.compute_linking_tag w')); [|symmetry; exact H2].
    intros Hz. apply Hid. rewrite <- H1, Hz. apply (pmul_0_r L).
Qed.
Print Assumptions C88_keys_and_tags_agree.
(** ... and using it once in each is noticed: the tags of a plain and a parallel proof are equal exactly if the signers' keys are. *)
Theorem C88_linked_across_protocols :
  forall (E : env), env_laws E -> forall (st : statement E) (st' : ParStatement.statement E) l r l' r' r1',
    made_statement st -> ParSpec.made_statement st' ->
    get_G (st_get_params st) = ParParams.get_G (ParStatement.st_get_params st') ->
    get_U (st_get_params st) = ParParams.get_U (ParStatement.st_get_params st') ->
    relation st l r -> ParSpec.relation st' l' r' r1' ->
    let key := nth_error (get_keys (st_get_input_set st)) (N.to_nat l) in
    let key' := nth_error (ParStatement.get_keys (ParStatement.st_get_input_set st')) (N.to_nat l') in
    (key = key' -> r = r' /\ st_get_J st = ParStatement.st_get_J st') /\
    (get_U (st_get_params st) <> pid E -> st_get_J st = ParStatement.st_get_J st' -> r = r' /\ key = key').
Proof.
  intros E L st st' l r l' r' r1' Hm Hm' HG HU [Hk HJ] (Hk' & _ & HJ') key key'. unfold key, key'. rewrite Hk, Hk', <- HG. rewrite <- HU in HJ'.
  assert (HGid : pmul E r (get_G (st_get_params st)) <> pid E).
  { intros Hz. rewrite Hz in Hk. apply nth_error_In in Hk. exact (gs_nonid _ (made_statement_good L st Hm) Hk). }
  assert (HG0 : get_G (st_get_params st) <> pid E) by (intros Hz; apply HGid; rewrite Hz; apply (pmul_0_r L)).
  assert (Hr0 : r <> s0) by (intros ->; apply HGid; apply (pmul_0_l L)).
  split.
  - intros He. injection He as He. assert (Hr : r = r') by exact (pmul_inj_l L _ _ _ HG0 He). split; [exact Hr|]. subst r'.
    rewrite <- HJ' in HJ. apply (proj1 (psub_0 L _ _)). apply (pmul_eq_0 L r); [|exact Hr0].
    replace (pmul E r (psub (st_get_J st) (ParStatement.st_get_J st'))) with (psub (pmul E r (st_get_J st)) (pmul E r (ParStatement.st_get_J st'))) by (module L).
    apply (psub_0 L). exact HJ.
  - intros Hid He. rewrite <- He, <- HJ in HJ'. assert (Hr : r' = r); [|subst r'; split; reflexivity].
    apply (pmul_inj_l L _ _ (st_get_J st)); [|exact HJ']. intros Hz. apply Hid. rewrite <- HJ, Hz. apply (pmul_0_r L).
Qed.
Print Assumptions C88_linked_across_protocols.
(** The same for forks of valid proofs, from which the keys can be extracted. *)
Theorem C88_proofs_linked_across_protocols :
  forall (E : env), env_laws E -> forall (st : statement E) (st' : ParStatement.statement E) runs runs',
    made_statement st -> ParSpec.made_statement st' ->
    get_G (st_get_params st) = ParParams.get_G (ParStatement.st_get_params st') ->
    get_U (st_get_params st) = ParParams.get_U (ParStatement.st_get_params st') -> get_U (st_get_params st) <> pid E ->
    forked st runs -> length runs = S (N.to_nat (get_m (st_get_params st))) -> (forall t pf, In (t, pf) runs -> valid_proof t st pf) ->
    Properties_ParSoundness.forked st' runs' -> length runs' = S (N.to_nat (ParParams.get_m (ParStatement.st_get_params st'))) ->
    (forall t pf, In (t, pf) runs' -> ParSpec.valid_proof t st' pf) ->
    match extract (st_get_params st) (challenges_and_proofs st runs),
          ParSpecSound.extract (ParStatement.st_get_params st') (Properties_ParSoundness.challenges_and_proofs st' runs') with
    | Witnessed (l, r), Witnessed (l', r', r1') => relation st l r /\ ParSpec.relation st' l' r' r1' /\
      (st_get_J st = ParStatement.st_get_J st' <->
       nth_error (get_keys (st_get_input_set st)) (N.to_nat l) = nth_error (ParStatement.get_keys (ParStatement.st_get_input_set st')) (N.to_nat l'))
    | Broken cs, _ => is_relation (get_CommitmentG (st_get_params st)) (get_CommitmentH (st_get_params st)) cs
    | _, Broken cs => is_relation (ParParams.get_CommitmentG (ParStatement.st_get_params st')) (ParParams.get_CommitmentH (ParStatement.st_get_params st')) cs
    end.
Proof.
  intros E L st st' runs runs' Hm Hm' HG HU Hid Hf Hlen Hv Hf' Hlen' Hv'.
  pose proof (C27_special_soundness E L st runs Hm Hf Hlen Hv) as H.
  pose proof (Properties_ParSoundness.C64_special_soundness E L st' runs' Hm' Hf' Hlen' Hv') as H'.
  destruct (extract _ (challenges_and_proofs st runs)) as [[l r]|cs]; [|exact H].
  destruct (ParSpecSound.extract _ (Properties_ParSoundness.challenges_and_proofs st' runs')) as [[[l' r'] r1']|cs]; [|exact H'].
  split; [exact H|]. split; [exact H'|].
  destruct (C88_linked_across_protocols E L st st' l r l' r' r1' Hm Hm' HG HU H H') as [Ha Hb]. split.
  - intros HJ. exact (proj2 (Hb Hid HJ)).
  - intros Hk. exact (proj2 (Ha Hk)).
Qed.
Print Assumptions C88_proofs_linked_across_protocols.

(** Both kinds of proof exist, and so do a plain and a parallel statement of one signer. *)
Example C87_example : (exists bs (pf : proof E0), from_bytes bs = Ok pf) /\ exists bs (pf : ParProver.proof E0), ParCodec.from_bytes bs = Ok pf.
Proof.
  split.
  - destruct (proj1 (proj2 (C45_roundtrip_of_proofs E0 L0 (x_proof P0 T0 2 1))) (x_params P0 T0) (x_params_made P0 T0)) as (bs & _ & H).
    { exact (proj1 (x_valid P0 T0 2 1 ltac:(lia) x_check_2_1)). } exists bs, (x_proof P0 T0 2 1). exact H.
  - destruct (proj1 (proj2 (Properties_ParCodec.C69_roundtrip_of_proofs E0 L0 (ParExamples.x_proof P0 T0 2 1))) (ParExamples.x_params P0 T0) (ParExamples.x_params_made P0 T0)) as (bs & _ & H).
    { exact (proj1 (ParExamples.x_valid P0 T0 2 1 ltac:(lia) ParExamples.x_check_2_1)). } exists bs, (ParExamples.x_proof P0 T0 2 1). exact H.
Qed.
Example C88_example : exists (st : statement E0) (st' : ParStatement.statement E0) l r l' r' r1',
  made_statement st /\ ParSpec.made_statement st' /\ get_G (st_get_params st) = ParParams.get_G (ParStatement.st_get_params st') /\
  get_U (st_get_params st) = ParParams.get_U (ParStatement.st_get_params st') /\ get_U (st_get_params st) <> pid E0 /\
  relation st l r /\ ParSpec.relation st' l' r' r1' /\ st_get_J st = ParStatement.st_get_J st'.
Proof.
  exists (x_statement P0 T0 2), (ParExamples.x_statement P0 T0 1), 2%N, x_r, 1%N, ParExamples.x_r, ParExamples.x_r1.
  split; [apply x_statement_made|]. split; [apply ParExamples.x_statement_made|].
  split; [exact (eq_refl (get_G (x_params P0 T0)))|]. split; [exact (eq_refl (get_U (x_params P0 T0)))|].
  split; [change (x_U P0 T0 <> s0); scalars_differ|].
  split; [apply (x_relation P0 T0 2); lia|]. split; [apply (ParExamples.x_relation P0 T0 1); lia|exact (eq_refl (x_J P0 T0))].
Qed.
