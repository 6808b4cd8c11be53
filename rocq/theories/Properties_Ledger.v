(** Properties C94 and C95: what a ledger that refuses repeated linking tags may rely on. *)
From Verif Require Import SpecPlainSound PlainFacts ProverFacts VerifierFacts Completeness Verdict ProverApi Soundness VerifierApi Examples Properties_Params Properties_Inputs Properties_Verifier Properties_Soundness.
From Verif Require Import Algebra.

(** A spend is a statement together with the runs that show how its proof was made: [m + 1] accepted proofs with one first message and
    different challenges, of which the ledger has seen one. *)
Definition spend (E : env) : Type := statement E * list (transcript * proof E).
Definition accepted {E : env} (md : overflow_mode) (s : spend E) : Prop :=
  made_statement (fst s) /\ forked (fst s) (snd s) /\ length (snd s) = S (N.to_nat (get_m (st_get_params (fst s)))) /\
  forall t pf, In (t, pf) (snd s) -> exists t', verify_returns md pf (fst s) t (Ok tt) t'.
Definition tag {E : env} (s : spend E) : pt E := st_get_J (fst s).
(** What happens with negligible probability only: the runs contain a relation between the commitment generators, or the weights
    drawn by the verifier cancelled. *)
Definition broken {E : env} (s : spend E) : Prop :=
  (exists cs, extract (st_get_params (fst s)) (challenges_and_proofs (fst s) (snd s)) = Broken cs /\
     is_relation (get_CommitmentG (st_get_params (fst s))) (get_CommitmentH (st_get_params (fst s))) cs) \/
  exists t pf, In (t, pf) (snd s) /\ weights_cancel (st_get_params (fst s)) (get_keys (st_get_input_set (fst s))) [fst s] [pf] [t].
(** The signer of a spend: the position and key that its runs give away. *)
Definition signer {E : env} (s : spend E) (x : N * scalar) : Prop :=
  extract (st_get_params (fst s)) (challenges_and_proofs (fst s) (snd s)) = Witnessed x /\ relation (fst s) (fst x) (snd x).

Lemma accepted_signer {E : env} (L : env_laws E) md (s : spend E) : accepted md s -> broken s \/ exists x, signer s x.
Proof.
  intros (Hm & Hf & Hl & Hv). destruct (C27_accepted_proofs E L md (fst s) (snd s) Hm Hf Hl Hv) as [H|H]; [|left; right; exact H].
  unfold broken, signer. destruct (extract _ _) as [[l r]|cs]; [right; exists (l, r); split; [reflexivity|exact H]|left; left; exists cs; split; [reflexivity|exact H]].
Qed.
Lemma accepted_signers {E : env} (L : env_laws E) md (ledger : list (spend E)) :
  (forall s, In s ledger -> accepted md s) -> (exists s, In s ledger /\ broken s) \/ exists xs, Forall2 signer ledger xs.
Proof.
  induction ledger as [|s ledger IH]; intros H; [right; exists []; constructor|].
  destruct (accepted_signer L md s (H s (or_introl eq_refl))) as [Hb|[x Hx]]; [left; exists s; split; [left; reflexivity|exact Hb]|].
  destruct IH as [(s' & Hs & Hb)|[xs Hxs]]; [intros s' Hs; apply H; right; exact Hs|left; exists s'; split; [right; exact Hs|exact Hb]|].
  right. exists (x :: xs). constructor; assumption.
Qed.

Lemma Forall2_len {A B} (R : A -> B -> Prop) l l' : Forall2 R l l' -> length l = length l'.
Proof. induction 1; cbn [length]; congruence. Qed.
Lemma Forall2_pick_r {A B} (R : A -> B -> Prop) l l' : Forall2 R l l' -> forall y, In y l' -> exists x, In x l /\ R x y.
Proof.
  induction 1 as [|x y l l' H _ IH]; intros z Hz; [destruct Hz|]. destruct Hz as [<-|Hz]; [exists x; split; [left; reflexivity|exact H]|].
  destruct (IH z Hz) as (x' & Hx' & H'). exists x'. split; [right; exact Hx'|exact H'].
Qed.
(** Distinctness carries over along a relation under which equal images come from equal ones. *)
Lemma NoDup_related {A B C D} (f : A -> C) (g : B -> D) (R : A -> B -> Prop) l l' : Forall2 R l l' -> NoDup (map f l) ->
  (forall x y x' y', In x l -> R x y -> In x' l -> R x' y' -> g y = g y' -> f x = f x') -> NoDup (map g l').
Proof.
  induction 1 as [|x y l l' H Hrest IH]; intros Hnd Hinj; [constructor|]. cbn [map] in *. inversion Hnd as [|? ? Hnot Hnd']. subst. constructor.
  - intros Hin. apply Hnot. apply in_map_iff in Hin. destruct Hin as (y' & He & Hy'). destruct (Forall2_pick_r _ _ _ Hrest y' Hy') as (x' & Hx' & H').
    apply in_map_iff. exists x'. split; [|exact Hx']. exact (Hinj x' y' x y (or_intror Hx') H' (or_introl eq_refl) H He).
  - apply (IH Hnd'). intros a b a' b' Ha Hab Ha' Hab' He. exact (Hinj a b a' b' (or_intror Ha) Hab (or_intror Ha') Hab' He).
Qed.
Lemma pmul_cancel {E : env} (L : env_laws E) s (P Q : pt E) : s <> s0 -> pmul E s P = pmul E s Q -> P = Q.
Proof.
  intros Hs H. apply (f_equal (pmul E (sinv s))) in H. rewrite !(pmul_assoc E L) in H.
  replace (sinv s * s)%sc with s1 in H by (field; exact Hs). rewrite !(pmul_1_l E L) in H. exact H.
Qed.

Lemma pmul_back {E : env} (L : env_laws E) s (P : pt E) : s <> s0 -> pmul E (sinv s) (pmul E s P) = P.
Proof. intros Hs. rewrite (pmul_assoc E L). replace (sinv s * s)%sc with s1 by (field; exact Hs). apply (pmul_1_l E L). Qed.

(** ** C94: a ledger of accepted spends with pairwise different linking tags, over whatever rings, has pairwise different signers; in
    particular there are at most as many spends as there are keys in all the rings together. *)
Theorem C94_one_spend_per_key :
  forall (E : env), env_laws E -> forall md (G U : pt E) (ledger : list (spend E)), U <> pid E ->
    (forall s, In s ledger -> accepted md s /\ get_G (st_get_params (fst s)) = G /\ get_U (st_get_params (fst s)) = U) ->
    NoDup (map tag ledger) ->
    (exists s, In s ledger /\ broken s) \/
    exists xs, Forall2 signer ledger xs /\ NoDup (map snd xs) /\ NoDup (map (fun x => pmul E (snd x) G) xs) /\
      forall keys, (forall s P, In s ledger -> In P (get_keys (st_get_input_set (fst s))) -> In P keys) -> (length ledger <= length keys)%nat.
Proof.
  intros E L md G U ledger HU Hl Hnd.
  destruct (accepted_signers L md ledger (fun s Hs => proj1 (Hl s Hs))) as [Hb|[xs Hxs]]; [left; exact Hb|right].
  exists xs. split; [exact Hxs|].
  assert (Htag : forall s x, In s ledger -> signer s x -> pmul E (snd x) (tag s) = U /\ snd x <> s0).
  { intros s x Hs [_ [_ Ht]]. destruct (Hl s Hs) as (_ & _ & HUs). unfold tag. rewrite HUs in Ht. split; [exact Ht|].
    intros H0. rewrite H0, (pmul_0_l L) in Ht. apply HU. congruence. }
  assert (Hr : NoDup (map snd xs)).
  { apply (NoDup_related tag snd signer ledger xs Hxs Hnd). intros s x s' x' Hs Hx Hs' Hx' He.
    destruct (Htag s x Hs Hx) as [H1 Hr0]. destruct (Htag s' x' Hs' Hx') as [H2 _]. rewrite <- He in H2.
    apply (pmul_cancel L (snd x) _ _ Hr0). rewrite H1, H2. reflexivity. }
  split; [exact Hr|].
  assert (Hkey : forall s x, In s ledger -> signer s x -> In (pmul E (snd x) G) (get_keys (st_get_input_set (fst s))) /\ G <> pid E).
  { intros s x Hs [_ [Hk _]]. destruct (Hl s Hs) as ((Hm & _) & HG & _). rewrite HG in Hk. apply nth_error_In in Hk. split; [exact Hk|].
    intros Hid. rewrite Hid, (pmul_0_r L) in Hk. exact (gs_nonid _ (made_statement_good L (fst s) Hm) Hk). }
  assert (Hkeys : NoDup (map (fun x => pmul E (snd x) G) xs)).
  { apply (NoDup_related (fun x => x) (fun x => pmul E (snd x) G) (fun r x => snd x = r /\ exists s, In s ledger /\ signer s x) (map snd xs) xs).
    - clear - Hxs. assert (Hsub : forall s, In s ledger -> In s ledger) by (intros s Hs; exact Hs). revert Hsub. generalize ledger at 2 3.
      intros all. induction Hxs as [|s x l xs Hx _ IH]; intros Hsub; cbn [map]; [constructor|]. constructor.
      + split; [reflexivity|]. exists s. split; [apply Hsub; left; reflexivity|exact Hx].
      + apply IH. intros s' Hs'. apply Hsub. right. exact Hs'.
    - rewrite map_id. exact Hr.
    - intros r x r' x' _ (<- & s & Hs & Hx) _ (<- & _) He. exact (pmul_inj_l L _ _ _ (proj2 (Hkey s x Hs Hx)) He). }
  split; [exact Hkeys|]. intros keys Hin.
  rewrite (Forall2_len _ _ _ Hxs). rewrite <- (map_length (fun x => pmul E (snd x) G) xs).
  apply NoDup_incl_length; [exact Hkeys|]. intros P HP. apply in_map_iff in HP. destruct HP as (x & <- & Hx).
  destruct (Forall2_pick_r _ _ _ Hxs x Hx) as (s & Hs & Hsx). exact (Hin s _ Hs (proj1 (Hkey s x Hs Hsx))).
Qed.
Print Assumptions C94_one_spend_per_key.

(** ** C95: nobody is framed.  If a spend carries the tag of a key, then its runs give away that very key (or are broken): the tag of a
    key can be produced only by who knows the key... *)
Theorem C95_no_framing :
  forall (E : env), env_laws E -> forall md (s : spend E) (w : witness E),
    get_U (w_get_params w) = get_U (st_get_params (fst s)) -> get_U (w_get_params w) <> pid E ->
    accepted md s -> tag s = compute_linking_tag w ->
    broken s \/ exists l, signer s (l, w_get_r w).
Proof.
  intros E L md s w HU Hid Hs Ht. destruct (accepted_signer L md s Hs) as [Hb|[[l r] Hx]]; [left; exact Hb|right]. exists l.
  pose proof Hx as [_ [_ Hr]]. cbn [fst snd] in Hr. unfold tag in Ht. rewrite Ht in Hr. unfold compute_linking_tag in Hr. fold (w_get_params w) in Hr.
  rewrite (pmul_assoc E L), <- HU in Hr.
  assert (He : (r * sinv (w_get_r w))%sc = s1).
  { apply (pmul_inj_l L _ _ _ Hid). rewrite (pmul_1_l E L). exact Hr. }
  assert (Hne : w_get_r w <> s0).
  { intros H0. rewrite H0, sinv_0 in He. assert (Hc : (r * s0)%sc = s0) by ring. rewrite Hc in He. symmetry in He. exact (s1_neq_s0 He). }
  assert (Heq : r = w_get_r w).
  { transitivity (r * sinv (w_get_r w) * w_get_r w)%sc; [field; exact Hne|]. rewrite He. ring. }
  subst r. exact Hx.
Qed.
Print Assumptions C95_no_framing.

(** ... so as long as no spend's runs give a key away, its tag is not in the ledger, and the ledger that refuses repeated tags still
    takes its spend. *)
Theorem C95_unspent_key_can_spend :
  forall (E : env), env_laws E -> forall md (ledger : list (spend E)) (w : witness E), get_U (w_get_params w) <> pid E ->
    (forall s, In s ledger -> accepted md s /\ get_U (st_get_params (fst s)) = get_U (w_get_params w)) ->
    (forall s, In s ledger -> ~ broken s /\ forall l, ~ signer s (l, w_get_r w)) ->
    ~ In (compute_linking_tag w) (map tag ledger).
Proof.
  intros E L md ledger w Hid Ha Hn Hin. apply in_map_iff in Hin. destruct Hin as (s & Ht & Hs).
  destruct (Ha s Hs) as [Hacc HU]. destruct (Hn s Hs) as [Hb Hx].
  destruct (C95_no_framing E L md s w (eq_sym HU) Hid Hacc Ht) as [H|[l H]]; [exact (Hb H)|exact (Hx l H)].
Qed.
Print Assumptions C95_unspent_key_can_spend.

(** *** A ledger with two spends *)
(** A prover that answers [m + 1] transcripts with the same nonces makes an accepted spend. *)
Definition fork_challenge {E : env} (st : statement E) l r c t : scalar := challenge t st (honest_proof st l r c s0).
Definition honest_fork {E : env} (st : statement E) l r c (ts : list transcript) : spend E :=
  (st, map (fun t => (t, honest_proof st l r c (fork_challenge st l r c t))) ts).
Definition fork_check {E : env} (st : statement E) l r c t : bool :=
  (negb (seqb (fork_challenge st l r c t) s0)
   && negb (contains_zero (complete (fork_challenge st l r c t) (pf_f (honest_proof st l r c (fork_challenge st l r c t))))))%bool.

Lemma honest_fork_accepted {E : env} (L : env_laws E) md (st : statement E) l r c ts :
  weights_terminate (E := E) 4 -> made_statement st -> relation st l r -> good_coins st c -> fits md (st_get_params st) 1 ->
  length ts = S (N.to_nat (get_m (st_get_params st))) -> NoDup (map (fork_challenge st l r c) ts) ->
  forallb (fork_check st l r c) ts = true -> accepted md (honest_fork st l r c ts).
Proof.
  intros Hterm Hst Hrel Hco Hfit Hlen Hnd Hchk. rewrite forallb_forall in Hchk.
  assert (Hc : forall t, challenge t st (honest_proof st l r c (fork_challenge st l r c t)) = fork_challenge st l r c t).
  { intros t. apply (challenge_of_first E L). apply honest_same_first. }
  assert (Hv : forall t, In t ts -> valid_proof t st (honest_proof st l r c (fork_challenge st l r c t))).
  { intros t Ht. specialize (Hchk t Ht). unfold fork_check in Hchk. apply andb_true_iff in Hchk. destruct Hchk as [H1 H2]. apply negb_true_iff in H1, H2.
    unfold valid_proof. rewrite Hc. split; [apply honest_well_shaped|]. split; [apply seqb_neq; exact H1|].
    split; [exact (proj2 (no_zero_spec _ _) H2)|]. exact (honest_equations L st l r c _ (made_statement_good L st Hst) Hrel Hco). }
  unfold accepted, honest_fork. cbn [fst snd]. split; [exact Hst|]. split; [split|split].
  - intros t pf t' pf' H H'. apply in_map_iff in H, H'. destruct H as (k & He & _). destruct H' as (k' & He' & _).
    injection He as _ <-. injection He' as _ <-. apply honest_same_first.
  - unfold challenges_and_proofs. rewrite !map_map. rewrite (map_ext _ (fork_challenge st l r c)); [exact Hnd|]. intros t. exact (Hc t).
  - rewrite map_length. exact Hlen.
  - intros t pf H. apply in_map_iff in H. destruct H as (k & He & Hk). injection He as -> <-. specialize (Hv t Hk).
    set (pf := honest_proof st l r c (fork_challenge st l r c t)) in *.
    destruct (C25_batch_completeness E L md st [] [pf] [t]) as [_ Hb]; try reflexivity.
    + constructor; [exact Hst|constructor].
    + intros a b [<-|[]] [<-|[]]. split; reflexivity.
    + intros i s q u (Ha & Hb & Hu). destruct i as [|i]; [|destruct i; discriminate]. cbn [nth_error] in *.
      injection Ha as <-. injection Hb as <-. injection Hu as <-. exact Hv.
    + exact Hfit.
    + destruct (Hb Hterm) as [ts' Hts]. pose proof Hts as (fuel & Hq & _).
      assert (Hl : length ts' = 1%nat) by (pose proof (verify_batch_keeps_length fuel md [st] [pf] [t]) as Hkl; rewrite Hq in Hkl; exact Hkl).
      destruct ts' as [|t' [|]]; try discriminate. exists t'. apply verify_returns_batch. exact Hts.
Qed.

(** The second signer: the key at position 1 of the same ring. *)
Definition y_r : scalar := smk 8.
(** [x_U] divided by 8 *)
Definition y_J : pt E0 := smk 904625697166532776746648320380374280107139544922488450750243867285681934143.
Definition y_statement : statement E0 :=
  mk_statement (x_params P0 T0) (x_set P0 T0 2) y_J
    (prf E0 (statement_transcript (p_hash (x_params P0 T0)) (is_hash (x_set P0 T0 2)) y_J) (b_ "hash") 32).
Lemma y_statement_made : made_statement y_statement.
Proof.
  exists (x_params P0 T0), (x_set P0 T0 2), y_J. split; [apply x_params_made|]. split; [apply x_set_made|].
  unfold statement_new. destruct (existsb _ (get_keys (x_set P0 T0 2))) eqn:Ee.
  - apply (existsb_peqb L0) in Ee. destruct (x_ring_no_identity P0 T0 2 Ee).
  - reflexivity.
Qed.
Lemma y_relation : relation y_statement 1 y_r.
Proof.
  split; [|apply scalar_ext; vm_compute; reflexivity].
  change (Some (smk 8) = Some (smul y_r s1)). apply f_equal. apply scalar_ext. vm_compute. reflexivity.
Qed.
Definition x_transcripts : list transcript := map x_transcript [1; 2; 3]%N.
Fixpoint all_different (l : list scalar) : bool := match l with [] => true | a :: l => (negb (existsb (seqb a) l) && all_different l)%bool end.
Lemma all_different_NoDup l : all_different l = true -> NoDup l.
Proof.
  induction l as [|a l IH]; cbn [all_different]; [constructor|]. intros H. apply andb_true_iff in H. destruct H as [H1 H2].
  constructor; [|exact (IH H2)]. intros Hin. apply negb_true_iff in H1. assert (Ht : existsb (seqb a) l = true); [|congruence].
  apply existsb_exists. exists a. split; [exact Hin|]. apply seqb_eq. reflexivity.
Qed.
Lemma y_spend_check : (all_different (map (fork_challenge y_statement 1 y_r x_coins) x_transcripts)
  && forallb (fork_check y_statement 1 y_r x_coins) x_transcripts)%bool = true.
Proof. vm_compute. reflexivity. Qed.
Notation x_spend := (honest_fork (E := E0) (x_statement P0 T0 2) 2 x_r x_coins x_transcripts).
Notation y_spend := (honest_fork (E := E0) y_statement 1 y_r x_coins x_transcripts).
Lemma x_spend_check : forallb (fork_check (x_statement P0 T0 2) 2 x_r x_coins) x_transcripts = true.
Proof.
  apply forallb_forall. intros t Ht. apply in_map_iff in Ht. destruct Ht as (k & <- & Hk). change (x_fork_check k = true).
  destruct Hk as [<-|[<-|[<-|[]]]]; [exact x_fork_1|exact x_fork_2|exact x_fork_3].
Qed.
Lemma x_spend_distinct : NoDup (map (fork_challenge (x_statement P0 T0 2) 2 x_r x_coins) x_transcripts).
Proof. unfold x_transcripts. rewrite map_map. exact x_fork_distinct. Qed.
Lemma x_spend_accepted : accepted OverflowPanics x_spend.
Proof.
  apply (honest_fork_accepted L0 OverflowPanics (x_statement P0 T0 2) 2 x_r x_coins x_transcripts); [exact (E0_weights_terminate 4)|apply x_statement_made|apply (x_relation P0 T0 2); lia| | |reflexivity| |].
  - apply (prover_coins_good (E := E0)).
  - apply (x_fits P0 T0 2). lia.
  - exact x_spend_distinct.
  - exact x_spend_check.
Qed.
Lemma good_coins_params {E : env} (st st' : statement E) c : st_params st = st_params st' -> good_coins st c -> good_coins st' c.
Proof. intros H. unfold good_coins. rewrite H. exact (fun Hc => Hc). Qed.
Lemma fits_params {E : env} md b (st st' : statement E) : st_params st = st_params st' -> fits md (st_get_params st) b -> fits md (st_get_params st') b.
Proof. intros H. unfold st_get_params. rewrite H. exact (fun Hc => Hc). Qed.
Lemma x_coins_good : good_coins (x_statement P0 T0 2) x_coins.
Proof. apply (prover_coins_good (E := E0)). Qed.
Lemma y_params : st_params (x_statement P0 T0 2) = st_params y_statement.
Proof. cbn [x_statement y_statement st_params]. reflexivity. Qed.
Lemma y_coins_good : good_coins y_statement x_coins.
Proof. exact (good_coins_params _ _ x_coins y_params x_coins_good). Qed.
Lemma y_fits : fits OverflowPanics (st_get_params y_statement) 1.
Proof. exact (fits_params OverflowPanics 1 _ _ y_params (x_fits P0 T0 2 OverflowPanics 1 ltac:(lia))). Qed.
Lemma y_length : length x_transcripts = S (N.to_nat (get_m (st_get_params y_statement))).
Proof. reflexivity. Qed.
Lemma y_spend_accepted : accepted OverflowPanics y_spend.
Proof.
  pose proof y_spend_check as H. apply andb_true_iff in H. destruct H as [H1 H2].
  apply (honest_fork_accepted L0 OverflowPanics y_statement 1 y_r x_coins x_transcripts); [exact (E0_weights_terminate 4)|exact y_statement_made|exact y_relation| | |exact y_length| |].
  - exact y_coins_good.
  - exact y_fits.
  - exact (all_different_NoDup _ H1).
  - exact H2.
Qed.
Lemma tags_differ : st_get_J (x_statement P0 T0 2) <> st_get_J y_statement.
Proof. apply (seqb_neq (x_J P0 T0) y_J). vm_compute. reflexivity. Qed.

Example C94_example : exists (ledger : list (spend E0)) (G U : pt E0), length ledger = 2%nat /\ U <> pid E0 /\
  (forall s, In s ledger -> accepted OverflowPanics s /\ get_G (st_get_params (fst s)) = G /\ get_U (st_get_params (fst s)) = U) /\
  NoDup (map tag ledger).
Proof.
  exists [x_spend; y_spend], (x_G P0 T0), (x_U P0 T0). split; [reflexivity|]. split; [change (x_U P0 T0 <> s0); scalars_differ|]. split.
  - intros s [<-|[<-|[]]]; (split; [|split; reflexivity]); [exact x_spend_accepted|exact y_spend_accepted].
  - constructor; [|constructor; [intros []|constructor]]. intros [H|[]]. exact (tags_differ (eq_sym H)).
Qed.
(** The first spend carries the tag of the witness that made it; the ledger holding only the second does not. *)
Example C95_example : exists (s s' : spend E0) (w : witness E0), made_witness w /\
  get_U (w_get_params w) = get_U (st_get_params (fst s)) /\ get_U (w_get_params w) = get_U (st_get_params (fst s')) /\ get_U (w_get_params w) <> pid E0 /\
  accepted OverflowPanics s /\ accepted OverflowPanics s' /\ tag s = compute_linking_tag w /\ tag s' <> compute_linking_tag w.
Proof.
  assert (Ht : x_J P0 T0 = compute_linking_tag (x_witness P0 T0 2)).
  { exact (eq_sym (pmul_back L0 x_r (x_J P0 T0) (x_r_nonzero))). }
  exists x_spend, y_spend, (x_witness P0 T0 2). split; [apply x_witness_made; lia|]. split; [reflexivity|]. split; [reflexivity|].
  split; [change (x_U P0 T0 <> s0); scalars_differ|]. split; [exact x_spend_accepted|]. split; [exact y_spend_accepted|].
  change (tag x_spend) with (x_J P0 T0). change (tag y_spend) with y_J. rewrite <- Ht. split; [reflexivity|]. intros H. exact (tags_differ (eq_sym H)).
Qed.
