(** Soundness: batches, special soundness, unique responses, linkability. *)
From Verif Require Export SpecPlainSound MatrixSound Verdict.

Section Soundness.
Context {E : env} (L : env_laws E).

(** * Batches *)

Lemma accepted_or_cancel md (st0 : statement E) sts pfs ts ts' : good_statement st0 ->
  verify_batch_returns md (st0 :: sts) pfs ts (Ok tt) ts' ->
  all_equations (st_params st0) (is_M (st_input_set st0)) (st0 :: sts) pfs ts \/
  weights_cancel (st_params st0) (is_M (st_input_set st0)) (st0 :: sts) pfs ts.
Proof.
  intros Hg Hok. destruct (proj1 (verify_batch_accepts_iff L md st0 sts pfs ts Hg) (ex_intro _ ts' Hok))
    as (H1 & H2 & H3 & H4 & H5 & H6 & ws & Hw & Hz).
  set (p := st_params st0). set (M := is_M (st_input_set st0)).
  assert (Hdec : forall l : list (statement E * proof E * transcript),
    (forall st pf t, In (st, pf, t) l -> equations p M (st_get_J st) pf (challenge t st pf)) \/
    ~ (forall st pf t, In (st, pf, t) l -> equations p M (st_get_J st) pf (challenge t st pf))).
  { induction l as [|[[st pf] t] l IH]; [left; intros ? ? ? []|].
    assert (Hd : equations p M (st_get_J st) pf (challenge t st pf) \/ ~ equations p M (st_get_J st) pf (challenge t st pf)).
    { rewrite (defects_zero L). generalize (defects p M (st_get_J st) pf (challenge t st pf)).
      induction l0 as [|d l0 IHd]; [left; constructor|].
      destruct (peqb E d (pid E)) eqn:Ed.
      - apply (peqb_eq E L) in Ed. destruct IHd as [IHd|IHd]; [left; constructor; assumption|right].
        intros Hf. inversion Hf. contradiction.
      - right. intros Hf. inversion Hf as [|? ? Hid _]; subst. rewrite (proj2 (peqb_eq E L _ _) eq_refl) in Ed. discriminate. }
    destruct Hd as [Hd|Hd].
    - destruct IH as [IH|IH].
      + left. intros st' pf' t' [Heq|Hin]; [injection Heq as <- <- <-; exact Hd|apply IH; exact Hin].
      + right. intros Hall. apply IH. intros st' pf' t' Hin. apply Hall. right; exact Hin.
    - right. intros Hall. apply Hd. apply Hall. left; reflexivity. }
  destruct (Hdec (combine (combine (st0 :: sts) pfs) ts)) as [Hall|Hnot]; [left; exact Hall|right].
  exists ws. split; [exact Hw|]. split; [exact Hz|exact Hnot].
Qed.

Lemma psum_cons (p : pt E) l : psum (p :: l) = padd E p (psum l).
Proof. reflexivity. Qed.

Lemma psum_lincomb k : forall (ws : list (list scalar)) (dss : list (list (pt E))),
  Forall (fun w => length w = k) ws -> Forall (fun d => length d = k) dss -> length ws = length dss ->
  psum (map (fun wd => lincomb (fst wd) (snd wd)) (combine ws dss)) = lincomb (concat ws) (concat dss).
Proof.
  induction ws as [|w ws IH]; intros [|d dss] Hw Hd Hl; try discriminate Hl; [reflexivity|].
  inversion Hw; inversion Hd; subst. cbn [combine map concat fst snd]. rewrite psum_cons.
  rewrite IH by (try assumption; cbn in Hl; lia). rewrite (lincomb_app L) by congruence. reflexivity.
Qed.

Definition batch_defects (p : params E) M sts pfs ts : list (list (pt E)) :=
  map (fun x => defects p M (st_get_J (fst (fst x))) (snd (fst x)) (challenge (snd x) (fst (fst x)) (snd (fst x))))
      (combine (combine sts pfs) ts).

Lemma weighted_defects_lincomb (p : params E) M sts pfs ts ws : shape (length (combine (combine sts pfs) ts)) 4 ws ->
  weighted_defects p M sts pfs ts ws = lincomb (concat ws) (concat (batch_defects p M sts pfs ts)).
Proof.
  intros [H1 H2]. unfold batch_defects. rewrite <- (psum_lincomb 4).
  - unfold weighted_defects. f_equal. revert ws H1 H2.
    induction (combine (combine sts pfs) ts) as [|[[st pf] t] l IH]; intros [|w ws] H1 H2; try discriminate H1; [reflexivity|].
    cbn [combine map fst snd]. f_equal. apply IH; [cbn in H1; lia|inversion H2; assumption].
  - exact H2.
  - apply Forall_forall. intros d Hd. apply in_map_iff in Hd. destruct Hd as (x & <- & _). reflexivity.
  - rewrite map_length. exact H1.
Qed.

Lemma lincomb_zero_map {A} (l : list A) (ps : list (pt E)) : lincomb (map (fun _ => s0) l) ps = pid E.
Proof.
  revert ps. induction l as [|x l IH]; intros [|p ps]; cbn [map]; rewrite ?lincomb_nil_l, ?lincomb_nil_r; try reflexivity.
  rewrite lincomb_cons, IH. module L.
Qed.

Lemma lincomb_zero_mat m k (ps : list (pt E)) : lincomb (concat (mkmat m k (fun _ _ => s0))) ps = pid E.
Proof.
  assert (H : concat (mkmat m k (fun _ _ => s0)) = repeat s0 (m * k)).
  { induction m as [|m IH]; [reflexivity|]. rewrite mkmat_S. cbn [concat].
    replace (map (fun _ : nat => s0) (seq 0 k)) with (repeat s0 k).
    - change (mkmat m k (fun _ : nat => (fun (_ _ : nat) => s0) (S 0))) with (mkmat m k (fun _ _ => s0)).
      rewrite IH, <- repeat_app. reflexivity.
    - symmetry. clear IH. generalize 0%nat. induction k as [|k IHk]; intros a; [reflexivity|]. cbn. f_equal. apply IHk. }
  rewrite H. apply (lincomb_zeros L).
Qed.

Lemma lincomb_unit_mat k : forall b (dss : list (list (pt E))) i j,
  length dss = b -> Forall (fun d => length d = k) dss -> (i < b)%nat -> (j < k)%nat ->
  lincomb (concat (mkmat b k (with_weight (fun _ _ => s0) i j s1))) (concat dss) = nth j (nth i dss []) (pid E).
Proof.
  induction b as [|b IH]; intros dss i j Hl Hf Hi Hj; [lia|].
  destruct dss as [|d dss]; [discriminate|]. inversion Hf as [|? ? Hd Hfr]; subst. rewrite mkmat_S. cbn [concat].
  rewrite (lincomb_app L) by (rewrite map_length, seq_length; lia). destruct i as [|i].
  - rewrite (mkmat_ext b (length d) _ (fun _ _ => s0)) by reflexivity. rewrite lincomb_zero_mat.
    cbn [nth]. rewrite <- (lincomb_delta L d j Hj). unfold with_weight. cbn [Nat.eqb andb].
    module L.
  - cbn [nth]. rewrite <- (IH dss i j) by (try assumption; cbn in Hl; try lia).
    rewrite (lincomb_ext _ (fun _ => s0)) by (intros; reflexivity). rewrite lincomb_zero_map.
    rewrite (mkmat_ext b (length d) (fun j0 => with_weight (fun _ _ => s0) (S i) j s1 (S j0)) (with_weight (fun _ _ => s0) i j s1))
      by reflexivity.
    module L.
Qed.

Lemma weight_unique (p : params E) M sts pfs ts h i j st pf t w w' :
  nth_error (combine (combine sts pfs) ts) i = Some (st, pf, t) -> (j < 4)%nat ->
  nth j (defects p M (st_get_J st) pf (challenge t st pf)) (pid E) <> pid E ->
  weighted_defects p M sts pfs ts (mkmat (length (combine (combine sts pfs) ts)) 4 (with_weight h i j w)) = pid E ->
  weighted_defects p M sts pfs ts (mkmat (length (combine (combine sts pfs) ts)) 4 (with_weight h i j w')) = pid E ->
  w = w'.
Proof.
  intros Hi Hj Hd H1 H2. set (b := length (combine (combine sts pfs) ts)) in *.
  assert (Hib : (i < b)%nat) by (apply nth_error_Some; rewrite Hi; discriminate).
  assert (Hlin : forall v, weighted_defects p M sts pfs ts (mkmat b 4 (with_weight h i j v)) =
    padd E (pmul E v (nth j (defects p M (st_get_J st) pf (challenge t st pf)) (pid E)))
           (lincomb (concat (mkmat b 4 (with_weight h i j s0))) (concat (batch_defects p M sts pfs ts)))).
  { intros v. rewrite weighted_defects_lincomb by apply mkmat_shape.
    rewrite (mkmat_ext b 4 (with_weight h i j v) (fun i' j' => with_weight (fun _ _ => s0) i j s1 i' j' * v + with_weight h i j s0 i' j')%sc)
      by (intros; unfold with_weight; destruct (_ && _)%bool; ring).
    rewrite (lincomb_concat_mkmat L). rewrite lincomb_unit_mat; try assumption.
    - f_equal. f_equal. unfold batch_defects. f_equal.
      rewrite (nth_error_nth (map _ _) i [] (x := defects p M (st_get_J st) pf (challenge t st pf))); [reflexivity|].
      rewrite nth_error_map, Hi. reflexivity.
    - unfold batch_defects. rewrite map_length. reflexivity.
    - apply Forall_forall. intros d Hdin. apply in_map_iff in Hdin. destruct Hdin as (x & <- & _). reflexivity. }
  rewrite Hlin in H1, H2. apply (pmul_inj_l L _ _ _ Hd).
  apply (padd_cancel_l L (lincomb (concat (mkmat b 4 (with_weight h i j s0))) (concat (batch_defects p M sts pfs ts)))).
  rewrite (padd_comm E L _ (pmul E w _)), (padd_comm E L _ (pmul E w' _)). congruence.
Qed.

(** * Special soundness *)

Lemma equations_answer (p : params E) M J pf xi A B C D : good_params p -> well_shaped p pf -> equations p M J pf xi ->
  pf_A pf = A -> pf_B pf = B -> pf_C pf = C -> pf_D pf = D ->
  valid_answer (p_CommitmentG p) (p_CommitmentH p) A B C D (N.to_nat (p_m p)) (N.to_nat (p_n p)) (answer_of (xi, pf)).
Proof.
  intros Hg (HX & HY & Hf) [HA HC _ _] <- <- <- <-. pose proof (gp_n p Hg).
  unfold valid_answer, answer_of. cbn [fst snd an_x an_F an_zA an_zC].
  split; [apply full_shape; [lia|exact Hf]|]. split; [|split; assumption].
  intros j Hj. apply full_row_sum. destruct Hf as [Hf _]. unfold get_m in Hf. lia.
Qed.

Lemma extract_sound (st : statement E) (runs : list (scalar * proof E)) pf0 :
  good_statement st -> length runs = S (N.to_nat (p_m (st_params st))) -> NoDup (map fst runs) ->
  (forall xi pf, In (xi, pf) runs -> same_first_message pf0 pf /\ well_shaped (st_params st) pf /\
                 equations (st_params st) (is_M (st_input_set st)) (st_J st) pf xi) ->
  match extract (st_params st) runs with
  | Witnessed (l, r) => relation st l r
  | Broken cs => is_relation (p_CommitmentG (st_params st)) (p_CommitmentH (st_params st)) cs
  end.
Proof.
  intros Hg Hlen Hnd Hruns. pose proof (gs_params st Hg) as Hp. set (p := st_params st) in *.
  pose proof (gp_n p Hp) as Hn. pose proof (gp_m p Hp) as Hm. pose proof (gp_pow p Hp) as Hpow.
  assert (Hx : map an_x (map answer_of runs) = map fst runs).
  { rewrite map_map. apply map_ext. intros [? ?]; reflexivity. }
  pose proof (extract_position_sound L (p_n p) (N.to_nat (p_m p)) (p_CommitmentG p) (p_CommitmentH p)
    (pf_A pf0) (pf_B pf0) (pf_C pf0) (pf_D pf0) (map answer_of runs) Hn ltac:(lia)
    ltac:(rewrite N2Nat.id; exact Hpow) (gp_CG p Hp) ltac:(rewrite map_length; lia) ltac:(rewrite Hx; exact Hnd)) as Hpos.
  unfold extract. unfold get_n, get_m. rewrite (good_N_nat p Hp).
  destruct (extract_position (p_n p) (N.to_nat (p_m p)) (N.to_nat (p_n p) ^ N.to_nat (p_m p)) (map answer_of runs)) as [l|cs].
  - destruct Hpos as (Hl & a & Ha).
    { apply Forall_forall. intros an Han. apply in_map_iff in Han. destruct Han as ([xi pf] & <- & Hin).
      destruct (Hruns xi pf Hin) as ((EA & EB & EC & ED & _) & Hs & Heq). eapply equations_answer; try eassumption; congruence. }
    rewrite N2Nat.id in Hl.
    assert (HF : forall run, In run runs -> forall j i, (j < N.to_nat (p_m p))%nat -> (i < N.to_nat (p_n p))%nat ->
      mat (complete (fst run) (pf_f (snd run))) j i = (sigma_at (p_n p) l j i * fst run + a j i)%sc).
    { intros run Hin j i Hj Hi. apply (Ha (answer_of run)); try assumption. apply in_map. exact Hin. }
    assert (HX0 : length (pf_X pf0) = N.to_nat (p_m p) /\ length (pf_Y pf0) = N.to_nat (p_m p)).
    { destruct runs as [|[xi pf] runs]; [discriminate|].
      destruct (Hruns xi pf ltac:(left; reflexivity)) as ((_ & _ & _ & _ & EX & EY) & (S1 & S2 & _) & _). rewrite EX, EY. split; assumption. }
    pose proof (good_len_nat st Hg) as HML. fold p in HML.
    split.
    + pose proof (key_of_ring L fst (fun run => pf_z (snd run)) (fun run => complete (fst run) (pf_f (snd run))) runs
        (p_n p) (N.to_nat (p_m p)) l a (p_G p) (is_M (st_input_set st)) (pf_X pf0) Hn
        ltac:(rewrite N2Nat.id; exact Hl) HML (proj1 HX0) Hlen Hnd HF) as Hkey.
      unfold get_keys, st_get_input_set, get_G, st_get_params. fold p. rewrite <- Hkey.
      * apply nth_error_nth'. rewrite HML. rewrite <- (N2Nat.id (p_m p)) in Hl. rewrite <- pow_nat_N. lia.
      * intros [xi pf] Hin. destruct (Hruns xi pf Hin) as ((_ & _ & _ & _ & EX & _) & _ & [_ _ HM _]). cbn [fst snd]. rewrite EX. exact HM.
    + unfold get_U, st_get_params, st_get_J. fold p. apply (key_of_tag L fst (fun run => pf_z (snd run)) runs _ _ (pf_Y pf0) (N.to_nat (p_m p)));
        try assumption; [exact (proj2 HX0)|].
      intros [xi pf] Hin. destruct (Hruns xi pf Hin) as ((_ & _ & _ & _ & _ & EY) & _ & [_ _ _ HU]). cbn [fst snd]. rewrite EY. exact HU.
  - apply Hpos. apply Forall_forall. intros an Han. apply in_map_iff in Han. destruct Han as ([xi pf] & <- & Hin).
    destruct (Hruns xi pf Hin) as ((EA & EB & EC & ED & _) & Hs & Heq). eapply equations_answer; try eassumption; congruence.
Qed.

(** * Unique responses *)

Lemma vsub_zero_or v w : length v = length w -> v = w \/ Exists (fun x => x <> s0) (vsub v w).
Proof.
  intros Hl. destruct (nonzero_vector (vsub v w)) eqn:Hz; [right; apply nonzero_vector_spec; exact Hz|left].
  apply vsub_zero_eq; [exact Hl|]. apply nonzero_vector_false. exact Hz.
Qed.

Lemma complete_inj xi f f' : complete xi f = complete xi f' -> f = f'.
Proof.
  intros H. apply (f_equal (map (@tl scalar))) in H. unfold complete in H. rewrite !map_map in H. cbn [tl] in H.
  rewrite !map_id in H. exact H.
Qed.

Lemma concat_shape_inj {A} n : forall m (F F' : list (list A)), shape m n F -> shape m n F' -> concat F = concat F' -> F = F'.
Proof.
  induction m as [|m IH]; intros F F' [H1 H2] [H1' H2'] Hc.
  - destruct F; [|discriminate]. destruct F'; [reflexivity|discriminate].
  - destruct F as [|r F]; [discriminate|]. destruct F' as [|r' F']; [discriminate|].
    inversion H2; inversion H2'; subst. cbn [concat] in Hc.
    assert (Hr : r = r' /\ concat F = concat F').
    { assert (Hlr : length r = length r') by congruence. clear -Hc Hlr. revert r' Hlr Hc. induction r as [|x r IHr]; intros [|y r'] Hlr Hc; try discriminate Hlr.
      - split; [reflexivity|exact Hc].
      - cbn in Hc. injection Hc as -> Hc. destruct (IHr r' ltac:(cbn in Hlr; lia) Hc) as [-> ->]. split; reflexivity. }
    destruct Hr as [-> Hr]. f_equal. apply IH; [split; [cbn in H1; lia|assumption]|split; [cbn in H1'; lia|assumption]|exact Hr].
Qed.

Lemma unique_responses (st : statement E) pf pf' xi : good_statement st -> p_G (st_params st) <> pid E ->
  well_shaped (st_params st) pf -> well_shaped (st_params st) pf' -> same_first_message pf pf' ->
  equations (st_params st) (is_M (st_input_set st)) (st_J st) pf xi ->
  equations (st_params st) (is_M (st_input_set st)) (st_J st) pf' xi ->
  pf = pf' \/
  is_relation (p_CommitmentG (st_params st)) (p_CommitmentH (st_params st)) (response_difference xi pf pf') \/
  is_relation (p_CommitmentG (st_params st)) (p_CommitmentH (st_params st)) (square_difference xi pf pf').
Proof.
  intros Hg HG Hs Hs' (EA & EB & EC & ED & EX & EY) He He'. set (p := st_params st) in *.
  pose proof (gs_params st Hg) as Hp. fold p in Hp. pose proof (gp_n p Hp) as Hn. pose proof (gp_CG p Hp) as HCG.
  pose proof (equations_answer p _ _ pf xi (pf_A pf') (pf_B pf') (pf_C pf') (pf_D pf') Hp Hs He EA EB EC ED) as (V1 & _ & V3 & V4).
  pose proof (equations_answer p _ _ pf' xi (pf_A pf') (pf_B pf') (pf_C pf') (pf_D pf') Hp Hs' He' eq_refl eq_refl eq_refl eq_refl) as (V1' & _ & V3' & V4').
  assert (Hl1 : length (opening_A (answer_of (xi, pf))) = length (opening_A (answer_of (xi, pf')))).
  { unfold opening_A. rewrite !app_length, (concat_shape_length _ _ _ V1), (concat_shape_length _ _ _ V1'). reflexivity. }
  assert (Hl2 : length (opening_C (answer_of (xi, pf))) = length (opening_C (answer_of (xi, pf')))).
  { unfold opening_C. rewrite !app_length, (concat_shape_length _ _ _ (map_map_shape _ _ _ _ V1)), (concat_shape_length _ _ _ (map_map_shape _ _ _ _ V1')). reflexivity. }
  assert (HlA : length (opening_A (answer_of (xi, pf))) = length (p_CommitmentG p ++ [p_CommitmentH p])).
  { unfold opening_A. rewrite !app_length, (concat_shape_length _ _ _ V1), HCG. reflexivity. }
  assert (HlC : length (opening_C (answer_of (xi, pf))) = length (p_CommitmentG p ++ [p_CommitmentH p])).
  { unfold opening_C. rewrite !app_length, (concat_shape_length _ _ _ (map_map_shape _ _ _ _ V1)), HCG. reflexivity. }
  destruct (vsub_zero_or _ _ Hl1) as [H1|H1].
  2: { right. left. split; [rewrite <- HlA; apply vsub_length; exact Hl1|]. split; [exact H1|].
       unfold response_difference. rewrite (lincomb_vsub L) by exact Hl1. apply (psub_0 L). unfold opening_A.
       rewrite <- !(com_opening L) by (rewrite ?(concat_shape_length _ _ _ V1), ?(concat_shape_length _ _ _ V1'), HCG; reflexivity).
       rewrite V3, V3'. reflexivity. }
  destruct (vsub_zero_or _ _ Hl2) as [H2|H2].
  2: { right. right. split; [rewrite <- HlC; apply vsub_length; exact Hl2|]. split; [exact H2|].
       unfold square_difference. rewrite (lincomb_vsub L) by exact Hl2. apply (psub_0 L). unfold opening_C.
       rewrite <- !(com_opening L) by (rewrite ?(concat_shape_length _ _ _ (map_map_shape _ _ _ _ V1)), ?(concat_shape_length _ _ _ (map_map_shape _ _ _ _ V1')), HCG; reflexivity).
       rewrite V4, V4'. reflexivity. }
  left. unfold opening_A in H1. apply app_inj_tail in H1. destruct H1 as [H1 HzA].
  unfold opening_C in H2. apply app_inj_tail in H2. destruct H2 as [_ HzC].
  apply (concat_shape_inj _ _ _ _ V1 V1') in H1. cbn [answer_of an_F fst snd] in H1. apply complete_inj in H1.
  cbn [answer_of an_zA an_zC fst snd] in HzA, HzC.
  assert (Hz : pf_z pf = pf_z pf').
  { destruct He as [_ _ HM _], He' as [_ _ HM' _]. apply (pmul_inj_l L _ _ _ HG).
    apply (padd_cancel_l L (lincomb (powers xi (N.to_nat (get_m p))) (pf_X pf))). unfold get_G in HM. rewrite <- HM, H1, HM', EX. reflexivity. }
  destruct pf, pf'; cbn in *; congruence.
Qed.

(** * Linkability *)

Lemma key_nonzero (st : statement E) l r : good_statement st -> relation st l r -> r <> s0.
Proof.
  intros Hg [Hk _] ->. apply (gs_nonid st Hg). apply nth_error_In in Hk. unfold get_keys, st_get_input_set in Hk.
  rewrite (pmul_0_l L) in Hk. exact Hk.
Qed.

Lemma relation_G_nonid (st : statement E) l r : good_statement st -> relation st l r -> p_G (st_params st) <> pid E.
Proof.
  intros Hg [Hk _] HG. apply (gs_nonid st Hg). apply nth_error_In in Hk. unfold get_keys, st_get_input_set, get_G, st_get_params in Hk.
  rewrite HG, (pmul_0_r L) in Hk. exact Hk.
Qed.

Lemma same_key_same_tag (st st' : statement E) l r l' r' : good_statement st -> good_statement st' ->
  get_G (st_get_params st) = get_G (st_get_params st') -> get_U (st_get_params st) = get_U (st_get_params st') ->
  relation st l r -> relation st' l' r' ->
  nth_error (get_keys (st_get_input_set st)) (N.to_nat l) = nth_error (get_keys (st_get_input_set st')) (N.to_nat l') ->
  r = r' /\ st_get_J st = st_get_J st'.
Proof.
  intros Hg Hg' EG EU Hr Hr' Hk. pose proof (key_nonzero st l r Hg Hr) as Hnz. pose proof (relation_G_nonid st l r Hg Hr) as HG.
  destruct Hr as [H1 H2], Hr' as [H1' H2']. rewrite Hk, H1' in H1. injection H1 as H1. rewrite <- EG in H1.
  apply (pmul_inj_l L) in H1; [|exact HG]. subst r'. split; [reflexivity|].
  apply (proj1 (psub_0 L _ _)). apply (pmul_eq_0 L r); [|exact Hnz].
  replace (pmul E r (psub (st_get_J st) (st_get_J st'))) with (psub (pmul E r (st_get_J st)) (pmul E r (st_get_J st'))) by (module L).
  apply (psub_0 L). congruence.
Qed.

Lemma same_tag_same_key (st st' : statement E) l r l' r' :
  get_G (st_get_params st) = get_G (st_get_params st') -> get_U (st_get_params st) = get_U (st_get_params st') ->
  get_U (st_get_params st) <> pid E ->
  relation st l r -> relation st' l' r' -> st_get_J st = st_get_J st' ->
  r = r' /\ nth_error (get_keys (st_get_input_set st)) (N.to_nat l) = nth_error (get_keys (st_get_input_set st')) (N.to_nat l').
Proof.
  intros EG EU HU [H1 H2] [H1' H2'] HJ.
  assert (Hr : r = r').
  { apply (pmul_inj_l L _ _ (st_get_J st)); [|congruence]. intros Hid. apply HU. rewrite <- H2, Hid. apply (pmul_0_r L). }
  split; [exact Hr|]. rewrite H1, H1'. congruence.
Qed.

End Soundness.
