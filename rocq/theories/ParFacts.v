(** Facts about parameters, input sets, statements and witnesses made through the parallel API. *)
From Verif Require Export ParSpec CoreFacts.

(** Case analysis on a hypothesis [obind .. = Ok _]. *)
Ltac oinv H :=
  repeat match type of H with
  | obind ?x _ = _ => let y := fresh "y" in let Hy := fresh "Hy" in
                      destruct x as [y|?| |] eqn:Hy; cbn [obind] in H; try discriminate
  end.

Section Facts.
Context {E : env}.

(** * Parameters *)

Record good_params (p : params E) : Prop := {
  gp_n : (2 <= p_n p)%N;
  gp_m : (2 <= p_m p)%N;
  gp_pow : (p_n p ^ p_m p < u32_bound)%N;
  gp_CG : length (p_CommitmentG p) = (N.to_nat (p_m p) * N.to_nat (p_n p))%nat;
  gp_hash : p_hash p = prf E (params_transcript (p_n p) (p_m p) (p_G p) (p_G1 p) (p_U p) (p_CommitmentG p) (p_CommitmentH p)) (b_ "hash") 32 }.

Lemma commitment_G_length n m count : length (@commitment_G E n m count) = N.to_nat count.
Proof. unfold commitment_G, range. rewrite map_length, seq_length. reflexivity. Qed.

Lemma new_with_generators_ok n m (G G1 U : pt E) : valid_nm n m ->
  new_with_generators n m G G1 U =
  Ok (mk_params n m G G1 U (commitment_G n m (n * m)) commitment_H
        (prf E (params_transcript n m G G1 U (commitment_G n m (n * m)) commitment_H) (b_ "hash") 32)).
Proof.
  intros (Hn & Hm & Hb). unfold new_with_generators.
  rewrite (proj2 (N.ltb_ge n 2) Hn), (proj2 (N.ltb_ge m 2) Hm).
  unfold checked_pow, checked. change (2 ^ 32)%N with u32_bound in Hb. rewrite (proj2 (N.ltb_lt _ _) Hb).
  unfold checked_mul, checked. rewrite (proj2 (N.ltb_lt (n * m) u32_bound)) by (apply mul_lt_of_pow; lia).
  reflexivity.
Qed.

Lemma new_with_generators_valid n m (G G1 U : pt E) p : new_with_generators n m G G1 U = Ok p -> valid_nm n m.
Proof.
  unfold new_with_generators. destruct (N.ltb_spec n 2) as [|Hn]; [discriminate|].
  destruct (N.ltb_spec m 2) as [|Hm]; [discriminate|].
  unfold checked_pow, checked. destruct (N.ltb_spec (n ^ m) u32_bound) as [Hb|]; [|discriminate].
  intros _. split; [exact Hn|]. split; [exact Hm|exact Hb].
Qed.

Lemma made_good (p : params E) : made_params p -> good_params p.
Proof.
  intros (n & m & G & G1 & U & H). pose proof (new_with_generators_valid _ _ _ _ _ _ H) as Hv.
  rewrite (new_with_generators_ok _ _ _ _ _ Hv) in H. injection H as <-. destruct Hv as (Hn & Hm & Hb).
  constructor; cbn [p_n p_m p_G p_G1 p_U p_CommitmentG p_CommitmentH p_hash]; try assumption; try reflexivity.
  rewrite commitment_G_length. lia.
Qed.

Lemma good_N (p : params E) : good_params p -> get_N p = (p_n p ^ p_m p)%N.
Proof. intros H. unfold get_N, pow_u32. apply N.mod_small. apply (gp_pow p H). Qed.

Lemma good_m_u32 (p : params E) : good_params p -> (p_m p < u32_bound)%N.
Proof.
  intros H. pose proof (mul_lt_of_pow (p_n p) (p_m p) u32_bound (gp_n p H) (gp_pow p H)).
  pose proof (gp_m p H). pose proof (gp_n p H). nia.
Qed.

Lemma good_N_nat (p : params E) : good_params p -> N.to_nat (get_N p) = (N.to_nat (p_n p) ^ N.to_nat (p_m p))%nat.
Proof.
  intros H. rewrite (good_N p H). rewrite <- pow_nat_N, N2Nat.id. reflexivity.
Qed.

(** * Input sets and statements *)

Lemma new_internal_M (M M1 : list (pt E)) k (s : input_set E) : new_internal M M1 k = Ok s ->
  is_M s = M /\ is_M1 s = M1 /\ (k < u32_bound)%N /\ is_hash s = prf E (input_set_transcript M M1 k) (b_ "hash") 32.
Proof.
  unfold new_internal, checked. destruct (N.ltb_spec k u32_bound) as [Hk|]; [|discriminate].
  cbn. intros H. injection H as <-. auto.
Qed.

Lemma input_set_hash_spec (s : input_set E) : made_input_set s ->
  exists k, (k < u32_bound)%N /\ is_hash s = prf E (input_set_transcript (is_M s) (is_M1 s) k) (b_ "hash") 32 /\
            (N.to_nat k <= length (is_M s))%nat /\ length (is_M s) = length (is_M1 s).
Proof.
  intros [(M & M1 & H)|(M & M1 & p & Hp & H)].
  - unfold input_set_new in H. destruct (Nat.eqb_spec (length M) (length M1)) as [Hlen|]; cbn [negb] in H; [|discriminate].
    apply new_internal_M in H. destruct H as (HM & HM1 & Hk & Hh).
    exists (N.of_nat (length M)). rewrite HM, HM1. split; [exact Hk|]. split; [exact Hh|]. split; [lia|exact Hlen].
  - unfold input_set_new_with_padding in H.
    destruct (Nat.eqb_spec (length M) (length M1)) as [Hlen|]; cbn [negb] in H; [|discriminate].
    destruct (N.ltb_spec (get_N p) (N.of_nat (length M))) as [|Hle]; [discriminate|].
    destruct (last_opt M) as [x|]; cbn [ok_or obind] in H; [|discriminate].
    destruct (last_opt M1) as [x1|]; cbn [ok_or obind] in H; [|discriminate].
    apply new_internal_M in H. destruct H as (HM & HM1 & Hk & Hh).
    exists (N.of_nat (length M)). rewrite HM, HM1. split; [exact Hk|]. split; [exact Hh|].
    rewrite !resize_length. split; lia.
Qed.

Record good_statement (st : statement E) : Prop := {
  gs_params : good_params (st_params st);
  gs_len : N.of_nat (length (is_M (st_input_set st))) = get_N (st_params st);
  gs_len1 : length (is_M1 (st_input_set st)) = length (is_M (st_input_set st));
  gs_nonid : ~ In (pid E) (is_M (st_input_set st));
  gs_nonid1 : ~ In (st_offset st) (is_M1 (st_input_set st));
  gs_hash : st_hash st = prf E (statement_transcript (p_hash (st_params st)) (is_hash (st_input_set st)) (st_offset st) (st_J st)) (b_ "hash") 32 }.

Lemma existsb_peqb (L : env_laws E) (l : list (pt E)) q : existsb (fun P => peqb E P q) l = true <-> In q l.
Proof.
  rewrite existsb_exists. split.
  - intros (x & Hx & He). apply (peqb_eq E L) in He. subst. exact Hx.
  - intros H. exists q. split; [exact H|]. apply (peqb_eq E L). reflexivity.
Qed.

Lemma psub_in (L : env_laws E) (l : list (pt E)) q :
  In (pid E) (map (fun P => psub P q) l) <-> In q l.
Proof.
  rewrite in_map_iff. split.
  - intros (x & Hx & Hin). apply (proj1 (psub_0 L x q)) in Hx. subst. exact Hin.
  - intros H. exists q. split; [apply (proj2 (psub_0 L q q)); reflexivity|exact H].
Qed.

Lemma statement_new_inv (L : env_laws E) (p : params E) s offset J st : statement_new p s offset J = Ok st ->
  N.of_nat (length (is_M s)) = get_N p /\ ~ In (pid E) (is_M s) /\ ~ In offset (is_M1 s) /\
  st = mk_statement p s offset J (prf E (statement_transcript (p_hash p) (is_hash s) offset J) (b_ "hash") 32).
Proof.
  unfold statement_new, get_keys, get_auxiliary_keys.
  destruct (N.eqb_spec (N.of_nat (length (is_M s))) (get_N p)) as [Hl|]; cbn [negb]; [|discriminate].
  destruct (existsb _ (is_M s)) eqn:He; [discriminate|].
  destruct (existsb _ (map _ (is_M1 s))) eqn:He1; [discriminate|].
  intros H. injection H as <-. split; [exact Hl|]. split; [|split; [|reflexivity]].
  - intros Hin. apply (existsb_peqb L) in Hin. congruence.
  - intros Hin. apply (psub_in L) in Hin. apply (existsb_peqb L) in Hin. congruence.
Qed.

Lemma made_statement_good (L : env_laws E) (st : statement E) : made_statement st -> good_statement st.
Proof.
  intros (p & s & offset & J & Hp & Hs & H). apply (statement_new_inv L) in H. destruct H as (Hl & Hni & Hni1 & ->).
  destruct (input_set_hash_spec s Hs) as (_ & _ & _ & _ & Hlen).
  constructor; cbn [st_params st_input_set st_offset st_J st_hash]; try assumption; try reflexivity.
  - apply made_good. exact Hp.
  - symmetry. exact Hlen.
Qed.

Lemma good_len_nat (st : statement E) : good_statement st ->
  length (is_M (st_input_set st)) = (N.to_nat (p_n (st_params st)) ^ N.to_nat (p_m (st_params st)))%nat.
Proof.
  intros H. rewrite <- (good_N_nat _ (gs_params _ H)), <- (gs_len _ H). lia.
Qed.

(** * Witnesses *)

Lemma made_witness_index (w : witness E) : made_witness w -> good_params (w_params w) /\ (w_l w < get_N (w_params w))%N.
Proof.
  intros [(p & l & r & r1 & Hp & H)|(R & ro & p & rng & Hp & H)].
  - unfold witness_new in H. destruct (seqb r s0); [discriminate|]. destruct (seqb r1 s0); [discriminate|].
    destruct (N.leb_spec (get_N p) l) as [|Hl]; [discriminate|]. injection H as <-. cbn [w_params w_l].
    split; [apply made_good; exact Hp|exact Hl].
  - unfold witness_random in H. destruct (rng_next_u64 ro rng) as [x rng1].
    destruct (rng_scalar ro rng1) as [r rng2]. destruct (rng_scalar ro rng2) as [r1 rng3]. cbn [fst] in H. subst w. cbn [w_params w_l].
    pose proof (made_good _ Hp) as Hg. split; [exact Hg|].
    assert (HN : get_N p <> 0%N).
    { rewrite (good_N _ Hg). apply npow_pos. pose proof (gp_n _ Hg). lia. }
    pose proof (N.mod_lt x (get_N p) HN).
    pose proof (N.mod_le (x mod get_N p) u32_bound ltac:(discriminate)). lia.
Qed.

(** * Transcript operations spelled out *)

Lemma append_all_spec t label msgs : append_all t label msgs = t ++ map (TAppend label) msgs.
Proof.
  unfold append_all. revert t; induction msgs as [|m msgs IH]; intros t; cbn [fold_left map]; [rewrite app_nil_r; reflexivity|].
  rewrite IH. unfold append_message. rewrite <- app_assoc. reflexivity.
Qed.

Lemma fs_transcript_spec (t : transcript) (st : statement E) (pf : proof E) :
  absorb_first_message (pt_init t (st_get_hash st)) (pf_A pf) (pf_B pf) (pf_C pf) (pf_D pf) (pf_X pf) (pf_X1 pf) (pf_Y pf)
  = fs_transcript t st pf.
Proof.
  unfold absorb_first_message, pt_init, append_u64, append_message, fs_transcript.
  rewrite !append_all_spec, !map_map. unfold VERSION, TRANSCRIPT_PARALLEL_PROOF. rewrite <- !app_assoc. reflexivity.
Qed.

Lemma verifier_transcript_spec (t : transcript) (st : statement E) (pf : proof E) :
  absorb_response (prover_transcript t st pf) (pf_f pf) (pf_z_A pf) (pf_z_C pf) (pf_z pf) (pf_z1 pf) = verifier_transcript t st pf.
Proof.
  unfold absorb_response, verifier_transcript, append_message.
  rewrite append_all_spec, map_map, <- !app_assoc. reflexivity.
Qed.

End Facts.
