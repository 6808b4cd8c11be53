(** The verdict on a batch of parallel proofs, case by case. *)
From Verif Require Export ParSpecVerdict ParVerifierApi.

Section ParBatchVerdict.
Context {E : env}.

Lemma shape_fault_not_shaped (p : params E) pf s : shape_fault p pf s -> ~ well_shaped p pf.
Proof.
  unfold well_shaped, shape. intros H (H1 & HX1 & H2 & H3 & H4). destruct H as [H|_ H|_ _ H|_ _ _ H|row _ _ _ _ Hi H]; try contradiction.
  rewrite Forall_forall in H4. exact (H (H4 row Hi)).
Qed.

Lemma forallb_false {A} (f : A -> bool) l : forallb f l = false -> exists x, In x l /\ f x = false.
Proof.
  induction l as [|a l IH]; [discriminate|]. cbn [forallb]. destruct (f a) eqn:Ha; cbn [andb].
  - intros H. destruct (IH H) as (x & Hi & Hx). exists x. split; [right; exact Hi|exact Hx].
  - intros _. exists a. split; [left; reflexivity|exact Ha].
Qed.

Lemma check_dims_fault (p : params E) pfs : (1 <= p_n p)%N -> ~ Forall (well_shaped p) pfs ->
  exists pfs1 pf pfs2 s, pfs = pfs1 ++ pf :: pfs2 /\ Forall (well_shaped p) pfs1 /\ shape_fault p pf s /\
    check_dims p pfs = Err (InvalidParameter s).
Proof.
  intros Hn. induction pfs as [|pf pfs IH]; intros H; [exfalso; apply H; constructor|].
  destruct (well_shaped_dec p pf) as [Hw|Hw].
  - destruct IH as (pfs1 & q & pfs2 & s & -> & H1 & H2 & H3); [intros Hc; apply H; constructor; assumption|].
    exists (pf :: pfs1), q, pfs2, s. split; [reflexivity|]. split; [constructor; assumption|]. split; [exact H2|].
    cbn [check_dims]. rewrite H3. pose proof Hw as (HX & HX1 & HY & Hf & Hr).
    rewrite (proj2 (N.eqb_eq _ _)) by (rewrite HX; apply N2Nat.id). cbn [negb].
    rewrite (proj2 (N.eqb_eq _ _)) by (rewrite HX1; apply N2Nat.id). cbn [negb].
    rewrite (proj2 (N.eqb_eq _ _)) by (rewrite HY; apply N2Nat.id). cbn [negb].
    rewrite (proj2 (N.eqb_eq _ _)) by (rewrite Hf; apply N2Nat.id). cbn [negb].
    rewrite check_rows_spec by exact Hn. apply forallb_rows in Hr. unfold get_n in *. rewrite Hr. reflexivity.
  - exists [], pf, pfs. cbn [check_dims app].
    destruct (N.eqb_spec (N.of_nat (length (pf_X pf))) (get_m p)) as [HX|HX]; cbn [negb].
    2:{ eexists. split; [reflexivity|]. split; [constructor|]. split; [apply fault_X; lia|reflexivity]. }
    destruct (N.eqb_spec (N.of_nat (length (pf_X1 pf))) (get_m p)) as [HX1|HX1]; cbn [negb].
    2:{ eexists. split; [reflexivity|]. split; [constructor|]. split; [apply fault_X1; lia|reflexivity]. }
    destruct (N.eqb_spec (N.of_nat (length (pf_Y pf))) (get_m p)) as [HY|HY]; cbn [negb].
    2:{ eexists. split; [reflexivity|]. split; [constructor|]. split; [apply fault_Y; lia|reflexivity]. }
    destruct (N.eqb_spec (N.of_nat (length (pf_f pf))) (get_m p)) as [Hf|Hf]; cbn [negb].
    2:{ eexists. split; [reflexivity|]. split; [constructor|]. split; [apply fault_rows; lia|reflexivity]. }
    rewrite check_rows_spec by exact Hn. destruct (forallb _ (pf_f pf)) eqn:Hr; cbn [obind].
    + exfalso. apply Hw. apply forallb_rows in Hr. repeat split; try lia. exact Hr.
    + eexists. split; [reflexivity|]. split; [constructor|]. split; [|reflexivity].
      apply forallb_false in Hr. destruct Hr as (row & Hi & Hr). apply Nat.eqb_neq in Hr.
      apply (fault_columns p pf row); [lia|lia|lia|lia|exact Hi|exact Hr].
Qed.

Lemma check_dims_fault_fun (p : params E) pfs1 pf pfs2 s : (1 <= p_n p)%N ->
  Forall (well_shaped p) pfs1 -> shape_fault p pf s -> check_dims p (pfs1 ++ pf :: pfs2) = Err (InvalidParameter s).
Proof.
  intros Hn H1 Hs. induction H1 as [|q pfs1 Hw H1 IH].
  - cbn [app check_dims].
    destruct Hs as [HX|HX HX1|HX HX1 HY|HX HX1 HY Hf|row HX HX1 HY Hf Hi Hr].
    + rewrite (proj2 (N.eqb_neq _ _)) by lia. reflexivity.
    + rewrite (proj2 (N.eqb_eq _ _)) by lia. rewrite (proj2 (N.eqb_neq _ _)) by lia. reflexivity.
    + rewrite (proj2 (N.eqb_eq (N.of_nat (length (pf_X pf))) _)) by lia. rewrite (proj2 (N.eqb_eq (N.of_nat (length (pf_X1 pf))) _)) by lia. rewrite (proj2 (N.eqb_neq _ _)) by lia. reflexivity.
    + rewrite (proj2 (N.eqb_eq (N.of_nat (length (pf_X pf))) _)) by lia. rewrite (proj2 (N.eqb_eq (N.of_nat (length (pf_X1 pf))) _)) by lia. rewrite (proj2 (N.eqb_eq (N.of_nat (length (pf_Y pf))) _)) by lia.
      rewrite (proj2 (N.eqb_neq _ _)) by lia. reflexivity.
    + rewrite (proj2 (N.eqb_eq (N.of_nat (length (pf_X pf))) _)) by lia. rewrite (proj2 (N.eqb_eq (N.of_nat (length (pf_X1 pf))) _)) by lia. rewrite (proj2 (N.eqb_eq (N.of_nat (length (pf_Y pf))) _)) by lia.
      rewrite (proj2 (N.eqb_eq (N.of_nat (length (pf_f pf))) _)) by lia. cbn [negb]. rewrite check_rows_spec by exact Hn.
      destruct (forallb _ (pf_f pf)) eqn:Ha; [|reflexivity].
      apply forallb_rows in Ha. rewrite Forall_forall in Ha. exfalso. exact (Hr (Ha row Hi)).
  - cbn [app check_dims]. rewrite IH. pose proof Hw as (HX & HX1 & HY & Hf & Hr).
    rewrite (proj2 (N.eqb_eq _ _)) by (rewrite HX; apply N2Nat.id). cbn [negb].
    rewrite (proj2 (N.eqb_eq _ _)) by (rewrite HX1; apply N2Nat.id). cbn [negb].
    rewrite (proj2 (N.eqb_eq _ _)) by (rewrite HY; apply N2Nat.id). cbn [negb].
    rewrite (proj2 (N.eqb_eq _ _)) by (rewrite Hf; apply N2Nat.id). cbn [negb].
    rewrite check_rows_spec by exact Hn. apply forallb_rows in Hr. unfold get_n in *. rewrite Hr. reflexivity.
Qed.

Lemma shaped_dec (p : params E) pfs : Forall (well_shaped p) pfs \/ ~ Forall (well_shaped p) pfs.
Proof.
  induction pfs as [|pf pfs IH]; [left; constructor|].
  destruct (well_shaped_dec p pf) as [Hw|Hw]; [|right; intros H; exact (Hw (Forall_inv H))].
  destruct IH as [IH|IH]; [left; constructor; assumption|right; intros H; exact (IH (Forall_inv_tail H))].
Qed.

Lemma same_ring_split (st0 : statement E) sts : Forall (same_ring st0) sts <-> same_input_sets st0 sts /\ same_parameters st0 sts.
Proof.
  rewrite Forall_forall. unfold same_ring, same_input_sets, same_parameters. split.
  - intros H. split; intros st Hi; apply (H st Hi).
  - intros [H1 H2] st Hi. split; auto.
Qed.

Lemma hash_all_dec (h : statement E -> bytes) (st0 : statement E) sts :
  (forall st, In st sts -> h st = h st0) \/ ~ (forall st, In st sts -> h st = h st0).
Proof.
  induction sts as [|s sts IH]; [left; intros s []|].
  destruct (list_eq_dec Byte.byte_eq_dec (h s) (h st0)) as [He|He].
  - destruct IH as [IH|IH]; [left; intros x [<-|Hin]; [exact He|exact (IH x Hin)]|right; intros Hc; apply IH; intros x Hin; apply Hc; right; exact Hin].
  - right. intros Hc. apply He. apply Hc. left. reflexivity.
Qed.

Lemma verify_batch_shape fuel md (st0 : statement E) sts pfs ts s : 
  length (st0 :: sts) = length pfs -> length (st0 :: sts) = length ts ->
  same_input_sets st0 sts -> same_parameters st0 sts -> check_dims (st_params st0) pfs = Err (InvalidParameter s) ->
  verify_batch fuel md (st0 :: sts) pfs ts = (Err (InvalidParameter s), ts).
Proof.
  intros Hl1 Hl2 Hi Hp Hc. unfold verify_batch, batch_checks.
  rewrite (proj2 (Nat.eqb_eq _ _) Hl1), (proj2 (Nat.eqb_eq _ _) Hl2). cbn [negb].
  rewrite (all_equal_true (fun s => input_set_get_hash (st_get_input_set s)) st0 sts Hi).
  rewrite (all_equal_true (fun s => params_get_hash (st_get_params s)) st0 sts Hp). cbn [negb].
  unfold st_get_params. rewrite Hc. reflexivity.
Qed.

Lemma admissible_parts (st0 : statement E) sts pfs ts : admissible st0 sts pfs ts ->
  length (st0 :: sts) = length pfs /\ length (st0 :: sts) = length ts /\
  Forall (same_ring st0) sts /\ Forall (well_shaped (st_params st0)) pfs.
Proof.
  intros (H1 & H2 & H3 & H4 & H5). split; [exact H1|]. split; [exact H2|]. split; [apply same_ring_split; split; assumption|].
  apply Forall_forall. exact H5.
Qed.

Context (L : env_laws E).

Lemma not_all_nondeg sts pfs ts : ~ Forall nondeg (combine (combine sts pfs) ts) ->
  exists i (st : statement E) pf t, member sts pfs ts i st pf t /\ ~ nondegenerate t st pf.
Proof.
  intros H.
  assert (Hx : Exists (fun x => ~ nondeg x) (combine (combine sts pfs) ts)).
  { induction (combine (combine sts pfs) ts) as [|x l IH]; [exfalso; apply H; constructor|].
    destruct (nondeg_dec [x]) as [Hd|Hd].
    - right. apply IH. intros Hc. apply H. constructor; [exact (Forall_inv Hd)|exact Hc].
    - left. intros Hc. apply Hd. constructor; [exact Hc|constructor]. }
  apply Exists_exists in Hx. destruct Hx as ([[st pf] t] & Hi & Hn). apply in_member in Hi. destruct Hi as [i Hi].
  exists i, st, pf, t. split; [exact Hi|exact Hn].
Qed.

Lemma nondeg_members sts pfs ts : Forall nondeg (combine (combine sts pfs) ts) <->
  forall i (st : statement E) pf t, member sts pfs ts i st pf t -> nondegenerate t st pf.
Proof. apply (forall_member (fun st pf t => nondegenerate t st pf)). Qed.

Lemma nonzero_members sts pfs ts :
  Forall (fun x => challenge (snd x) (fst (fst x)) (snd (fst x)) <> s0) (combine (combine sts pfs) ts) <->
  forall i (st : statement E) pf t, member sts pfs ts i st pf t -> challenge t st pf <> s0.
Proof. apply (forall_member (fun st pf t => challenge t st pf <> s0)). Qed.

Lemma verdict_of_run md (sts : list (statement E)) pfs ts r ts' : Forall made_statement sts ->
  verify_batch_returns md sts pfs ts r ts' -> batch_verdict md sts pfs ts r ts'.
Proof.
  intros Hm (fuel & H & Hr).
  destruct (verify_batch_lengths fuel md sts pfs ts) as [La Lb].
  destruct (Nat.eq_dec (length sts) (length pfs)) as [Hl1|Hl1].
  2:{ rewrite (La Hl1) in H. injection H as <- <-. apply verdict_proof_count. exact Hl1. }
  destruct (Nat.eq_dec (length sts) (length ts)) as [Hl2|Hl2].
  2:{ rewrite (Lb Hl1 Hl2) in H. injection H as <- <-. apply verdict_transcript_count; assumption. }
  destruct sts as [|st0 sts].
  { destruct pfs; [|discriminate]. destruct ts; [|discriminate]. rewrite verify_batch_empty in H. injection H as <- <-. apply verdict_empty. }
  pose proof (made_statement_good L st0 (Forall_inv Hm)) as Hg.
  destruct (verify_batch_mixed fuel md st0 sts pfs ts Hl1 Hl2) as [Ma Mb].
  destruct (hash_all_dec (fun s => input_set_get_hash (st_get_input_set s)) st0 sts) as [Hi|Hi].
  2:{ rewrite (Ma Hi) in H. injection H as <- <-. apply verdict_input_sets; assumption. }
  destruct (hash_all_dec (fun s => params_get_hash (st_get_params s)) st0 sts) as [Hp|Hp].
  2:{ rewrite (Mb Hi Hp) in H. injection H as <- <-. apply verdict_parameters; assumption. }
  pose proof (gp_n _ (gs_params _ Hg)) as Hn.
  destruct (shaped_dec (st_params st0) pfs) as [Hw|Hw].
  2:{ destruct (check_dims_fault (st_params st0) pfs ltac:(lia) Hw) as (pfs1 & pf & pfs2 & s & -> & Hw1 & Hs & Hc).
      rewrite (verify_batch_shape fuel md st0 sts _ ts s Hl1 Hl2 Hi Hp Hc) in H. injection H as <- <-.
      apply verdict_shape; try assumption. intros q Hq. rewrite Forall_forall in Hw1. exact (Hw1 q Hq). }
  assert (Ha : admissible st0 sts pfs ts).
  { split; [exact Hl1|]. split; [exact Hl2|]. split; [exact Hi|]. split; [exact Hp|]. apply Forall_forall. exact Hw. }
  assert (Hsr : Forall (same_ring st0) sts) by (apply same_ring_split; split; assumption).
  destruct (verify_batch_unfit fuel md st0 sts pfs ts Hg Hl1 Hl2 Hsr Hw) as [Ua Ub].
  destruct (N.lt_ge_cases (N.of_nat (length pfs)) (2 ^ 32)) as [Hb|Hb].
  2:{ rewrite (Ua Hb) in H. injection H as <- <-. apply verdict_batch_size; assumption. }
  destruct (fits_dec md (st_params st0) (N.of_nat (length pfs))) as [Hf|Hf].
  2:{ assert (Hx : md = OverflowPanics /\ (2 ^ 32 <= msm_size (st_params st0) (N.of_nat (length pfs)))%N).
      { unfold fits in Hf. destruct md.
        - split; [reflexivity|]. destruct (N.lt_ge_cases (msm_size (st_params st0) (N.of_nat (length pfs))) (2 ^ 32)) as [Hlt|Hge]; [|exact Hge].
          exfalso. apply Hf. split; [exact Hb|right; exact Hlt].
        - exfalso. apply Hf. split; [exact Hb|left; reflexivity]. }
      destruct Hx as [Hmd Hsz]. rewrite (Ub Hb Hsz Hmd) in H. injection H as <- <-. apply verdict_overflow; assumption. }
  destruct (nonzero_challenges_dec (st0 :: sts) pfs ts) as [Hnz|Hz].
  2:{ destruct (first_zero (st0 :: sts) pfs ts Hl1 Hl2 Hz) as (s1 & p1 & t1 & st & pf & t & s2 & p2 & t2 & Es & Ep & Et & Ha1 & Hb1 & Hc1 & Hd1).
      rewrite (verify_batch_zero_challenge fuel md st0 sts pfs ts Hg Hl1 Hl2 Hsr Hw Hf s1 p1 t1 st pf t s2 p2 t2 Es Ep Et Ha1 Hb1 Hc1 Hd1) in H.
      injection H as <- <-. refine (verdict_zero_challenge md st0 sts pfs ts s1 st s2 p1 pf p2 t1 t t2 Ha Hf Es Ep Et Ha1 Hb1 _ Hd1).
      exact (proj1 (nonzero_members s1 p1 t1) Hc1). }
  destruct (verify_batch_run L fuel md st0 sts pfs ts Hg Hl1 Hl2 Hsr Hw Hf Hnz) as [H1 H2]. rewrite H in H1, H2. cbn [fst snd] in H1, H2.
  rewrite H1. destruct H2 as [H2|[[H2 Hd]|[Hd (ws & Hws & H2)]]]; [contradiction| |].
  - rewrite H2. destruct (not_all_nondeg (st0 :: sts) pfs ts Hd) as (i & st & pf & t & Hmb & Hnd).
    apply (verdict_zero_response md st0 sts pfs ts i st pf t Ha Hf); [exact (proj1 (nonzero_members _ _ _) Hnz)|exact Hmb|exact Hnd].
  - pose proof (proj1 (nondeg_members _ _ _) Hd) as Hd'. rewrite H2. destruct (peqb E _ (pid E)) eqn:He.
    + apply (peqb_eq E L) in He. exact (verdict_accept md st0 sts pfs ts ws Ha Hf Hd' Hws He).
    + apply (verdict_reject md st0 sts pfs ts ws Ha Hf Hd' Hws). intros Hc. apply (peqb_eq E L) in Hc.
      unfold st_get_params, get_keys, get_auxiliary_keys, st_get_input_set in Hc. congruence.
Qed.

Lemma run_of_verdict md (sts : list (statement E)) pfs ts r ts' : Forall made_statement sts -> weights_terminate (E := E) 5 ->
  batch_verdict md sts pfs ts r ts' -> verify_batch_returns md sts pfs ts r ts'.
Proof.
  intros Hm Ht H.
  assert (Hg : forall st0 sts', sts = st0 :: sts' -> good_statement st0).
  { intros st0 sts' ->. exact (made_statement_good L st0 (Forall_inv Hm)). }
  destruct H as [sts pfs ts Hl|sts pfs ts Hl1 Hl2| |st0 sts pfs ts Hl1 Hl2 Hi|st0 sts pfs ts Hl1 Hl2 Hi Hp
    |st0 sts pfs1 pf pfs2 ts reason Hl1 Hl2 Hi Hp Hw Hs|st0 sts pfs ts Ha Hb|st0 sts pfs ts Ha Hb Hmd Hsz
    |st0 sts pfs ts s1 st s2 p1 pf p2 t1 t t2 Ha Hf Es Ep Et Ha1 Hb1 Hc1 Hd1|st0 sts pfs ts i st pf t Ha Hf Hnz Hmb Hnd
    |st0 sts pfs ts ws Ha Hf Hnd Hws He|st0 sts pfs ts ws Ha Hf Hnd Hws He]; try specialize (Hg _ _ eq_refl).
  - exists 0%nat. split; [exact (proj1 (verify_batch_lengths 0 md sts pfs ts) Hl)|discriminate].
  - exists 0%nat. split; [exact (proj2 (verify_batch_lengths 0 md sts pfs ts) Hl1 Hl2)|discriminate].
  - exists 0%nat. split; [reflexivity|discriminate].
  - exists 0%nat. split; [exact (proj1 (verify_batch_mixed 0 md st0 sts pfs ts Hl1 Hl2) Hi)|discriminate].
  - exists 0%nat. split; [exact (proj2 (verify_batch_mixed 0 md st0 sts pfs ts Hl1 Hl2) Hi Hp)|discriminate].
  - exists 0%nat. split; [|discriminate]. apply verify_batch_shape; try assumption. pose proof (gp_n _ (gs_params _ Hg)) as Hn.
    apply check_dims_fault_fun; [lia|apply Forall_forall; exact Hw|exact Hs].
  - destruct (admissible_parts _ _ _ _ Ha) as (Hl1 & Hl2 & Hsr & Hw). exists 0%nat. split; [|discriminate].
    exact (proj1 (verify_batch_unfit 0 md st0 sts pfs ts Hg Hl1 Hl2 Hsr Hw) Hb).
  - destruct (admissible_parts _ _ _ _ Ha) as (Hl1 & Hl2 & Hsr & Hw). exists 0%nat. split; [|discriminate].
    exact (proj2 (verify_batch_unfit 0 md st0 sts pfs ts Hg Hl1 Hl2 Hsr Hw) Hb Hsz Hmd).
  - destruct (admissible_parts _ _ _ _ Ha) as (Hl1 & Hl2 & Hsr & Hw). exists 0%nat. split; [|discriminate].
    refine (verify_batch_zero_challenge 0 md st0 sts pfs ts Hg Hl1 Hl2 Hsr Hw Hf s1 p1 t1 st pf t s2 p2 t2 Es Ep Et Ha1 Hb1 _ Hd1).
    exact (proj2 (nonzero_members s1 p1 t1) Hc1).
  - destruct (admissible_parts _ _ _ _ Ha) as (Hl1 & Hl2 & Hsr & Hw).
    apply (verify_batch_degenerate L md st0 sts pfs ts Hg Ht Hl1 Hl2 Hsr Hw Hf); [exact (proj2 (nonzero_members _ _ _) Hnz)|].
    intros Hc. exact (Hnd (proj1 (nondeg_members _ _ _) Hc i st pf t Hmb)).
  - destruct (admissible_parts _ _ _ _ Ha) as (Hl1 & Hl2 & Hsr & Hw).
    pose proof (verify_batch_decides L md st0 sts pfs ts ws Hg Hl1 Hl2 Hsr Hw Hf (proj2 (nondeg_members _ _ _) Hnd) Hws) as H.
    unfold st_get_params, get_keys, get_auxiliary_keys, st_get_input_set in He. rewrite (proj2 (peqb_eq E L _ _) He) in H. exact H.
  - destruct (admissible_parts _ _ _ _ Ha) as (Hl1 & Hl2 & Hsr & Hw).
    pose proof (verify_batch_decides L md st0 sts pfs ts ws Hg Hl1 Hl2 Hsr Hw Hf (proj2 (nondeg_members _ _ _) Hnd) Hws) as H.
    unfold st_get_params, get_keys, get_auxiliary_keys, st_get_input_set in He. destruct (peqb E _ (pid E)) eqn:Hx; [|exact H].
    apply (peqb_eq E L) in Hx. contradiction.
Qed.

End ParBatchVerdict.
