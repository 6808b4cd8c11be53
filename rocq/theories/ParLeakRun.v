(** Two runs of the constant-time prover of src/parallel/proof.rs with the same parameter sizes and the same kind of result have the same trace. *)
From Verif Require Import ParSpecSound ParFacts ParProverFacts ParCompleteness ParProverApi.
From Verif Require Export ParLeak LeakFacts.

Section ParLeakRun.
Context {E : env}.
Context (L : env_laws E).

(** Both succeed, or both fail with the same error. *)
Definition same_result {A B} (x : outcome proof_error A) (y : outcome proof_error B) : Prop :=
  match x, y with Ok _, Ok _ => True | Err e, Err e' => e = e' | _, _ => False end.

Lemma tout_check_leak {Er B} c (e : Er) (f : unit -> traced (E := E) (outcome Er B)) :
  leakage (tout (t_check c e) f) = Branch c :: (if c then [] else leakage (f tt)).
Proof. destruct c; reflexivity. Qed.
Lemma tout_Ok_leak {Er A B} (x : traced (E := E) (outcome Er A)) a (f : A -> traced (outcome Er B)) :
  value x = Ok a -> leakage (tout x f) = leakage x ++ leakage (f a).
Proof. intros H. unfold tout, tbind, leakage, value in *. rewrite H. reflexivity. Qed.

Lemma tbind_leak {A B} (x : traced (E := E) A) (f : A -> traced (E := E) B) : leakage (tbind x f) = leakage x ++ leakage (f (value x)).
Proof. reflexivity. Qed.
Lemma select_keys_trace (M M1 M' M1' : list (pt E)) l l' : same_len M M' -> same_len M1 M1' ->
  leakage (t_select_keys ConstantTime M M1 l) = leakage (t_select_keys ConstantTime M' M1' l').
Proof.
  intros H H1. assert (Hc : same_len (combine M M1) (combine M' M1')) by (unfold same_len in *; rewrite !combine_length; congruence).
  cbn [t_select_keys leakage fst]. f_equal; [f_equal; exact Hc|]. unfold same_len in Hc. revert Hc. clear. generalize (combine M M1) (combine M' M1').
  intros x. induction x as [|a x IH]; intros [|b y] H; try discriminate; [reflexivity|]. cbn. do 4 f_equal. apply IH. cbn in H. congruence.
Qed.
Lemma checks_form (w : witness E) (st : statement E) :
  let zipped := combine (get_keys (st_get_input_set st)) (get_auxiliary_keys (st_get_input_set st)) in
  let c1 := negb (params_eqb (w_get_params w) (st_get_params st)) in
  let c2 := negb (peqb E (select_ct (map fst zipped) (w_get_l w)) (pmul E (w_get_r w) (get_G (st_get_params st)))) in
  let c4 := negb (peqb E (psub (select_ct (map snd zipped) (w_get_l w)) (st_get_offset st)) (pmul E (w_get_r1 w) (get_G1 (st_get_params st)))) in
  let c3 := negb (peqb E (pmul E (w_get_r w) (st_get_J st)) (get_U (st_get_params st))) in
  t_prove_checks ConstantTime w st =
  (Branch c1 :: (if c1 then [] else leakage (t_select_keys ConstantTime (get_keys (st_get_input_set st)) (get_auxiliary_keys (st_get_input_set st)) (w_get_l w)) ++
     point_check ++ Branch c2 :: (if c2 then [] else point_check ++ Branch c4 :: (if c4 then [] else point_check ++ [Branch c3]))),
   if c1 then Err (InvalidParameter "witness and statement parameters did not match")
   else if c2 then Err (InvalidParameter "`M[l] != r * G`") else if c4 then Err (InvalidParameter "`M1[l] - offset != r1 * G1`")
   else if c3 then Err (InvalidParameter "`r * J != U`") else Ok tt).
Proof.
  intros zipped c1 c2 c4 c3. unfold t_prove_checks. fold c1. unfold t_check at 1. destruct c1; [reflexivity|]. cbv zeta.
  unfold tout at 1, tbind at 1. cbn [fst snd app]. f_equal.
  - f_equal. unfold tout at 1, tbind at 1. cbn [fst]. f_equal. cbn [snd t_select_keys select_keys]. cbv zeta. fold zipped. fold c2.
    unfold tbind at 1. cbn [fst snd emit]. f_equal. unfold t_check at 1. destruct c2; [reflexivity|]. fold c4. fold c3. destruct c4; [reflexivity|]. destruct c3; reflexivity.
  - unfold tout at 1, tbind at 1. cbn [snd t_select_keys select_keys]. cbv zeta. fold zipped. fold c2.
    unfold tbind at 1. cbn [fst snd emit]. unfold t_check at 1. destruct c2; [reflexivity|]. fold c4. fold c3. destruct c4; [reflexivity|]. destruct c3; reflexivity.
Qed.

Lemma checks_trace (w w' : witness E) (st st' : statement E) :
  same_len (get_keys (st_get_input_set st)) (get_keys (st_get_input_set st')) ->
  same_len (get_auxiliary_keys (st_get_input_set st)) (get_auxiliary_keys (st_get_input_set st')) ->
  same_result (value (t_prove_checks ConstantTime w st)) (value (t_prove_checks ConstantTime w' st')) ->
  leakage (t_prove_checks ConstantTime w st) = leakage (t_prove_checks ConstantTime w' st').
Proof.
  intros Hl Hl1. rewrite !checks_form. cbv zeta. cbn [value leakage snd].
  pose proof (select_keys_trace _ _ _ _ (w_get_l w) (w_get_l w') Hl Hl1) as Hs. rewrite Hs.
  generalize (negb (params_eqb (w_get_params w) (st_get_params st))) (negb (params_eqb (w_get_params w') (st_get_params st'))).
  match goal with |- context [if ?a then Err (InvalidParameter "`M[l] != r * G`") else _] => generalize a end.
  match goal with |- context [if ?a then Err (InvalidParameter "`M1[l] - offset != r1 * G1`") else _] => generalize a end.
  match goal with |- context [if ?a then Err (InvalidParameter "`r * J != U`") else _] => generalize a end.
  intros a1 a2 a3.
  match goal with |- context [if negb (peqb E (select_ct ?u ?v) ?x) then _ else _] => generalize (negb (peqb E (select_ct u v) x)) end.
  match goal with |- context [if negb (peqb E (psub ?u ?v) ?x) then _ else _] => generalize (negb (peqb E (psub u v) x)) end.
  match goal with |- context [if negb (peqb E ?u ?v) then _ else _] => generalize (negb (peqb E u v)) end.
  revert a1 a2 a3.
  intros [] [] [] [] [] [] [] []; cbn [same_result fst]; intros H; try reflexivity; try contradiction; discriminate.
Qed.

Lemma checks_total (w : witness E) (st : statement E) :
  value (t_prove_checks ConstantTime w st) = Ok tt \/ exists e, e <> InvalidChallenge /\ value (t_prove_checks ConstantTime w st) = Err e.
Proof.
  rewrite checks_form. cbv zeta. cbn [value snd].
  destruct (negb _); [right; eexists; split; [|reflexivity]; discriminate|].
  destruct (negb _); [right; eexists; split; [|reflexivity]; discriminate|].
  destruct (negb _); [right; eexists; split; [|reflexivity]; discriminate|].
  destruct (negb _); [right; eexists; split; [|reflexivity]; discriminate|]. left. reflexivity.
Qed.

Definition first_like (a b : first_message E) : Prop :=
  same_len (fm_X a) (fm_X b) /\ same_len (fm_X1 a) (fm_X1 b) /\ same_len (fm_Y a) (fm_Y b) /\ same_len (fm_rho a) (fm_rho b) /\
  same_len (fm_rho1 a) (fm_rho1 b).

Lemma commit_trace (p p' : params E) mat mat' mask mask' reason reason' :
  get_n p = get_n p' -> get_m p = get_m p' -> same_len (p_CommitmentG p) (p_CommitmentG p') -> same_shape mat mat' ->
  related any (t_commit p mat mask ConstantTime reason) (t_commit p' mat' mask' ConstantTime reason').
Proof.
  intros Hn Hm HG Hs a b Ha Hb. unfold t_commit in *. rewrite tbind_value in Ha. rewrite tbind_value in Hb.
  unfold get_n, get_m in *. rewrite <- Hn, <- Hm in *. cbn [value snd] in Ha, Hb.
  pose proof (commit_matrix_trace (p_n p) (p_m p) _ _ (p_CommitmentH p) (p_CommitmentH p') mat mat' mask mask' HG Hs) as H.
  unfold related, value in *. destruct (snd (t_commit_matrix_with (p_n p) (p_m p) (p_CommitmentG p) _ mat _ _)) as [x| | |] eqn:Ex; try discriminate.
  destruct (snd (t_commit_matrix_with (p_n p) (p_m p) (p_CommitmentG p') _ mat' _ _)) as [y| | |] eqn:Ey; try discriminate.
  destruct (H x y eq_refl eq_refl) as [Ht _]. split; [|exact I]. cbn [tbind leakage fst snd]. rewrite Ex, Ey. cbn [is_ok fst]. f_equal. exact Ht.
Qed.

Lemma same_shape_events (a a' : list (list scalar)) : same_shape a a' ->
  concat (map (fun row => Extent (length row) :: map (fun _ => drawn (E := E)) row) a) =
  concat (map (fun row => Extent (length row) :: map (fun _ => drawn (E := E)) row) a').
Proof.
  intros H. induction H as [|r r' a a' Hr _ IH]; [reflexivity|]. cbn [map concat]. rewrite IH. f_equal.
  unfold same_len in Hr. rewrite Hr. f_equal. clear -Hr. revert r' Hr. induction r as [|x r IH]; intros [|x' r'] H; try discriminate; [reflexivity|].
  cbn in *. f_equal. apply IH. congruence.
Qed.
Lemma map_const_len {A B C} (c : C) (l : list A) (l' : list B) : same_len l l' -> map (fun _ => c) l = map (fun _ => c) l'.
Proof.
  unfold same_len. revert l'. induction l as [|x l IH]; intros [|x' l'] H; try discriminate; [reflexivity|]. cbn in *. f_equal. apply IH. congruence.
Qed.

Lemma X1_vector_trace p p' (M M' : list (pt E)) G G' o o' rho rho' : same_shape p p' -> same_len M M' -> same_len rho rho' ->
  related same_len (t_X1_vector ConstantTime p M G o rho) (t_X1_vector ConstantTime p' M' G' o' rho').
Proof.
  intros Hp HM Hr. eapply related_weaken; [|intros x y; apply Forall2_any_len]. unfold t_X1_vector.
  apply related_mapM with (R := fun x y => fst x = fst y); [apply enumerate_related; exact Hr|].
  intros [j x] [j' x'] Hj. cbn in Hj. subst j'. cbn [fst snd]. cbv zeta.
  eapply related_tout; [apply p_column_trace; exact Hp|]. intros c c' Hc. apply related_emit; [unfold same_len in Hc; rewrite Hc; reflexivity|].
  apply related_pure; [|intros; exact I].
  apply msm_trace; repeat apply app_len; assumption || reflexivity.
Qed.

Lemma first_message_trace (w w' : witness E) (st st' : statement E) g g' :
  get_n (st_get_params st) = get_n (st_get_params st') -> get_m (st_get_params st) = get_m (st_get_params st') ->
  same_len (p_CommitmentG (st_get_params st)) (p_CommitmentG (st_get_params st')) ->
  same_len (get_keys (st_get_input_set st)) (get_keys (st_get_input_set st')) ->
  same_len (get_auxiliary_keys (st_get_input_set st)) (get_auxiliary_keys (st_get_input_set st')) ->
  related first_like (t_prove_first_message ConstantTime w st g) (t_prove_first_message ConstantTime w' st' g').
Proof.
  intros Hn Hm HG HM HM1. unfold t_prove_first_message. rewrite <- Hn, <- Hm.
  destruct (draw g) as [r_A g1], (draw g') as [r_A' g1'].
  pose proof (draw_rows_shape (E := E) (N.to_nat (get_m (st_get_params st))) (N.to_nat (get_n (st_get_params st))) g1 g1') as Ha.
  destruct (draw_rows _ _ g1) as [a g2], (draw_rows _ _ g1') as [a' g2']. cbn [fst] in Ha.
  apply related_emit.
  { rewrite (same_shape_events _ _ Ha), (shape_len _ _ Ha). reflexivity. }
  eapply related_tout; [simple apply balance_trace; exact Ha|]. clear a a' Ha. intros a a' Ha.
  eapply related_tout; [simple apply commit_trace; assumption|]. intros A A' _.
  destruct (draw g2) as [r_B g3], (draw g2') as [r_B' g3']. apply related_emit; [reflexivity|].
  eapply related_tout; [simple apply decompose_index_trace|]. intros ld ld' _.
  eapply related_tout; [simple apply sigma_matrix_trace|]. intros s s' Hs.
  eapply related_tout; [simple apply commit_trace; assumption|]. intros B B' _.
  destruct (draw g3) as [r_C g4], (draw g3') as [r_C' g4']. apply related_emit; [reflexivity|].
  eapply related_tout; [simple apply a_sigma_trace|]. intros asg asg' Hasg.
  eapply related_tout; [simple apply commit_trace; assumption|]. intros C C' _.
  destruct (draw g4) as [r_D g5], (draw g4') as [r_D' g5']. apply related_emit; [reflexivity|].
  eapply related_tout; [simple apply a_square_trace|]. intros asq asq' Hasq.
  eapply related_tout; [simple apply commit_trace; assumption|]. intros D D' _.
  pose proof (draws_len (E := E) (N.to_nat (get_m (st_get_params st))) g5 g5') as Hr.
  destruct (draws _ g5) as [rho g6], (draws _ g5') as [rho' g6']. cbn [fst] in Hr.
  apply related_emit; [f_equal; [f_equal; exact Hr|apply map_const_len; exact Hr]|].
  pose proof (draws_len (E := E) (N.to_nat (get_m (st_get_params st))) g6 g6') as Hr1.
  destruct (draws _ g6) as [rho1 g7], (draws _ g6') as [rho1' g7']. cbn [fst] in Hr1.
  apply related_emit; [f_equal; [f_equal; exact Hr1|apply map_const_len; exact Hr1]|].
  eapply related_tout; [simple apply p_vector_trace|]. intros pv pv' Hpv.
  eapply related_tout; [simple apply X_vector_trace; assumption|]. intros X X' HX.
  eapply related_tout; [apply X1_vector_trace; assumption|]. intros X1 X1' HX1.
  apply related_emit; [f_equal; [f_equal; exact Hr|apply map_const_len; exact Hr]|].
  apply related_ret. split; [exact HX|]. split; [exact HX1|]. split; [|split; [exact Hr|exact Hr1]]. unfold same_len in *. cbn [fm_Y]. rewrite !map_length. exact Hr.
Qed.

Lemma absorbed_points_trace label (X X' : list (pt E)) : same_len X X' -> absorbed_points label X = absorbed_points label X'.
Proof.
  intros H. unfold absorbed_points. f_equal; [f_equal; exact H|]. unfold same_len in H. revert X' H.
  induction X as [|x X IH]; intros [|x' X'] H; try discriminate; [reflexivity|]. cbn [map]. f_equal; [|apply IH; cbn in H; congruence].
  unfold absorbed. rewrite !(compress_length E L). reflexivity.
Qed.
Lemma rng_events_trace (w w' : witness E) : rng_events (Some w) = rng_events (Some w').
Proof. unfold rng_events, rekeyed, scalar_to_bytes. rewrite !le_bytes_length. reflexivity. Qed.

(** The trace of the commitment phase, apart from the powers of the challenge *)
Lemma pt_commit_trace {R R'} (ro : rng_ops R) (ro' : rng_ops R') t t' (w w' : witness E) rng rng' (p p' : params E) A B C D X X1 Y A' B' C' D' X' X1' Y' :
  same_len X X' -> same_len X1 X1' -> same_len Y Y' ->
  (forall xi xi',
     let s := value (t_pt_commit ro t (Some w) rng p A B C D X X1 Y) in
     let s' := value (t_pt_commit ro' t' (Some w') rng' p' A' B' C' D' X' X1' Y') in
     fst (fst (fst s)) = challenge_powers (get_m p) xi -> fst (fst (fst s')) = challenge_powers (get_m p') xi' ->
     leakage (t_challenge_powers (E := E) (get_m p) xi) = leakage (t_challenge_powers (E := E) (get_m p') xi')) ->
  leakage (t_pt_commit ro t (Some w) rng p A B C D X X1 Y) = leakage (t_pt_commit ro' t' (Some w') rng' p' A' B' C' D' X' X1' Y').
Proof.
  intros HX HX1 HY. unfold t_pt_commit.
  destruct (build_transcript_rng ro _ _ _) as [g rng1]. destruct (build_transcript_rng ro' _ _ _) as [g' rng1'].
  unfold challenge_bytes. cbv zeta. intros H.
  rewrite !tbind_value in H. cbn [value snd tret fst] in H. change (snd (t_challenge_powers ?m ?x)) with (value (t_challenge_powers (E := E) m x)) in H.
  rewrite !t_challenge_powers_erase in H. specialize (H _ _ eq_refl eq_refl).
  cbn [tbind emit leakage fst snd tret]. rewrite !app_nil_r. f_equal; [|exact H].
  rewrite (absorbed_points_trace (b_ "X") X X' HX), (absorbed_points_trace (b_ "X1") X1 X1' HX1), (absorbed_points_trace (b_ "Y") Y Y' HY), (rng_events_trace w w').
  unfold absorbed. rewrite !(compress_length E L), !(prf_length E L). reflexivity.
Qed.

Lemma response_trace (p p' : params E) r r' r1 r1' fm fm' xs xs' : get_n p = get_n p' -> get_m p = get_m p' -> same_len (fm_rho fm) (fm_rho fm') ->
  same_len (fm_rho1 fm) (fm_rho1 fm') ->
  same_len xs xs' -> related any (t_prove_response p r r1 fm xs) (t_prove_response p' r' r1' fm' xs').
Proof.
  intros Hn Hm Hr Hr1 Hx. unfold t_prove_response. rewrite <- Hn, <- Hm. eapply related_tout; [apply f_matrix_trace|]. intros f f' _.
  eapply related_tout; [apply related_index|]. intros xi xi' _. eapply related_tout; [apply z_response_trace; assumption|]. intros z z' _.
  eapply related_tout; [apply z_response_trace; assumption|]. intros z1 z1' _.
  apply related_ret. exact I.
Qed.

Lemma challenge_powers_err m xi e : (m < u32_bound)%N -> challenge_powers m xi = Err e -> xi = s0.
Proof.
  intros Hm. destruct (scalar_eq_dec xi s0) as [Hx|Hx]; [intros _; exact Hx|]. rewrite challenge_powers_ok by assumption. discriminate.
Qed.

Lemma internal_form {R} (ro : rng_ops R) (w : witness E) (st : statement E) rng t tm u t1 g1 rng1 fm powers t2 g2 rng2 :
  value (t_prove_checks tm w st) = Ok u -> pt_new ro t st rng (Some w) = (t1, g1, rng1) ->
  value (t_prove_first_message tm w st g1) = Ok fm ->
  value (t_pt_commit ro t1 (Some w) rng1 (st_get_params st) (fm_A fm) (fm_B fm) (fm_C fm) (fm_D fm) (fm_X fm) (fm_X1 fm) (fm_Y fm)) = (powers, t2, g2, rng2) ->
  let finish := tout (tret powers) (fun xi_powers => t_prove_response (st_get_params st) (w_get_r w) (w_get_r1 w) fm xi_powers) in
  leakage (t_prove_internal ro w st rng t tm) =
    leakage (t_prove_checks tm w st) ++ leakage (t_pt_new ro t st rng (Some w)) ++ leakage (t_prove_first_message tm w st g1) ++
    leakage (t_pt_commit ro t1 (Some w) rng1 (st_get_params st) (fm_A fm) (fm_B fm) (fm_C fm) (fm_D fm) (fm_X fm) (fm_X1 fm) (fm_Y fm)) ++ leakage finish /\
  fst (fst (value (t_prove_internal ro w st rng t tm))) = value finish.
Proof.
  intros Hc Hn Hf Hp finish. unfold t_prove_internal. split.
  - rewrite tbind_leak, Hc, tbind_leak. change (value (t_pt_new ro t st rng (Some w))) with (pt_new ro t st rng (Some w)). rewrite Hn.
    rewrite tbind_leak, Hf, tbind_leak, Hp, tbind_leak. fold finish. change (leakage (tret _)) with (@nil (event E)). rewrite app_nil_r. reflexivity.
  - rewrite tbind_value, Hc, tbind_value. change (value (t_pt_new ro t st rng (Some w))) with (pt_new ro t st rng (Some w)). rewrite Hn.
    rewrite tbind_value, Hf, tbind_value, Hp, tbind_value. reflexivity.
Qed.

Lemma internal_refused {R} (ro : rng_ops R) (w : witness E) (st : statement E) rng t tm e :
  value (t_prove_checks tm w st) = Err e ->
  leakage (t_prove_internal ro w st rng t tm) = leakage (t_prove_checks tm w st) /\
  fst (fst (value (t_prove_internal ro w st rng t tm))) = Err e.
Proof.
  intros Hc. unfold t_prove_internal. rewrite tbind_leak, tbind_value, Hc. change (leakage (tret _)) with (@nil (event E)). rewrite app_nil_r. split; reflexivity.
Qed.

(** The whole run when the checks pass *)
Lemma internal_run {R} (ro : rng_ops R) (w : witness E) (st : statement E) rng t tm :
  made_witness w -> made_statement st -> value (t_prove_checks tm w st) = Ok tt ->
  exists t1 g1 rng1 fm xi t2 g2 rng2,
    pt_new ro t st rng (Some w) = (t1, g1, rng1) /\ value (t_prove_first_message tm w st g1) = Ok fm /\
    value (t_pt_commit ro t1 (Some w) rng1 (st_get_params st) (fm_A fm) (fm_B fm) (fm_C fm) (fm_D fm) (fm_X fm) (fm_X1 fm) (fm_Y fm))
      = (challenge_powers (get_m (st_get_params st)) xi, t2, g2, rng2) /\
    ((xi = s0 /\ fst (fst (value (t_prove_internal ro w st rng t tm))) = Err InvalidChallenge) \/
     (exists xs pf, challenge_powers (get_m (st_get_params st)) xi = Ok xs /\
        value (t_prove_response (st_get_params st) (w_get_r w) (w_get_r1 w) fm xs) = Ok pf /\
        fst (fst (value (t_prove_internal ro w st rng t tm))) = Ok pf)).
Proof.
  intros Hw Hst Hc. pose proof (made_statement_good L st Hst) as Hg. destruct (made_witness_index w Hw) as [_ Hl].
  pose proof (gs_params st Hg) as Hgp. pose proof (good_m_u32 _ Hgp) as Hmu. pose proof (gp_m _ Hgp) as Hm2.
  assert (Hpp : w_params w = st_params st).
  { pose proof Hc as Hc'. rewrite t_prove_checks_erase in Hc'.
    pose proof (prove_checks_cases L tm w st Hg Hl) as Hcases; decompose [and or] Hcases; congruence. }
  destruct (pt_new ro t st rng (Some w)) as [[t1 g1] rng1] eqn:Hnew.
  pose proof (prove_first_message_spec L tm w st g1 Hg) as Hf. rewrite Hpp in Hl. specialize (Hf Hl).
  rewrite <- t_prove_first_message_erase in Hf.
  destruct (coins_shape (E := E) (N.to_nat (p_n (st_params st))) (N.to_nat (p_m (st_params st))) g1) as (Hs1 & Hs2 & Hs3).
  set (c := read_coins (E := E) (N.to_nat (p_n (st_params st))) (N.to_nat (p_m (st_params st))) g1) in *.
  set (fm := honest_fm st (w_l w) c) in *.
  pose proof (t_pt_commit_erase ro t1 (Some w) rng1 (st_get_params st) (fm_A fm) (fm_B fm) (fm_C fm) (fm_D fm) (fm_X fm) (fm_X1 fm) (fm_Y fm)) as Hp.
  unfold pt_commit in Hp. destruct (build_transcript_rng ro _ _ rng1) as [g2 rng2]. destruct (challenge_bytes _ _ _) as [xb t2].
  exists t1, g1, rng1, fm, (scalar_from_wide xb), t2, g2, rng2.
  split; [reflexivity|]. split; [exact Hf|]. split; [exact Hp|].
  destruct (internal_form ro w st rng t tm tt _ _ _ _ _ _ _ _ Hc Hnew Hf Hp) as [_ HV]. rewrite HV. clear HV Hp.
  rewrite tout_value. cbn [value tret snd].
  destruct (scalar_eq_dec (scalar_from_wide xb) s0) as [Hx|Hx].
  - left. split; [exact Hx|]. rewrite Hx. unfold st_get_params, get_m in *. rewrite challenge_powers_zero by (assumption || lia). reflexivity.
  - right. unfold st_get_params, get_m in *. rewrite challenge_powers_ok by assumption. cbn [obind].
    pose proof (prove_response_spec st (w_l w) (w_r w) (w_r1 w) c (scalar_from_wide xb) Hg Hs1 Hs2 Hs3) as Hr. fold fm in Hr.
    rewrite <- t_prove_response_erase in Hr. unfold value in *. eexists _, _. split; [reflexivity|]. split; exact Hr.
Qed.

Lemma tret_tout_leak {Er A B} (x : outcome Er A) (f : A -> traced (E := E) (outcome Er B)) :
  leakage (tout (tret x) f) = match x with Ok a => leakage (f a) | _ => [] end.
Proof. destruct x; reflexivity. Qed.

Lemma run_trace {R R'} (ro : rng_ops R) (ro' : rng_ops R') (w w' : witness E) (st st' : statement E) rng rng' t t' :
  made_witness w -> made_statement st -> made_witness w' -> made_statement st' ->
  get_n (st_get_params st) = get_n (st_get_params st') -> get_m (st_get_params st) = get_m (st_get_params st') ->
  same_result (fst (fst (value (t_prove_internal ro w st rng t ConstantTime)))) (fst (fst (value (t_prove_internal ro' w' st' rng' t' ConstantTime)))) ->
  leakage (t_prove_internal ro w st rng t ConstantTime) = leakage (t_prove_internal ro' w' st' rng' t' ConstantTime).
Proof.
  intros Hw Hst Hw' Hst' Hn Hm Hres.
  pose proof (made_statement_good L st Hst) as Hg. pose proof (made_statement_good L st' Hst') as Hg'.
  assert (HM : same_len (get_keys (st_get_input_set st)) (get_keys (st_get_input_set st'))).
  { unfold same_len, get_keys, st_get_input_set. rewrite (good_len_nat st Hg), (good_len_nat st' Hg').
    unfold get_n, get_m, st_get_params in *. rewrite Hn, Hm. reflexivity. }
  assert (HM1 : same_len (get_auxiliary_keys (st_get_input_set st)) (get_auxiliary_keys (st_get_input_set st'))).
  { unfold same_len, get_keys, get_auxiliary_keys, st_get_input_set in *. pose proof (gs_len st Hg). pose proof (gs_len st' Hg').
    pose proof (gs_len1 st Hg). pose proof (gs_len1 st' Hg'). lia. }
  assert (HG : same_len (p_CommitmentG (st_get_params st)) (p_CommitmentG (st_get_params st'))).
  { unfold same_len, st_get_params, get_n, get_m in *. rewrite (gp_CG _ (gs_params st Hg)), (gp_CG _ (gs_params st' Hg')), Hn, Hm.
    reflexivity. }
  destruct (checks_total w st) as [Hc|[e [He Hc]]]; destruct (checks_total w' st') as [Hc'|[e' [He' Hc']]].
  - destruct (internal_run ro w st rng t ConstantTime Hw Hst Hc) as (t1 & g1 & rng1 & fm & xi & t2 & g2 & rng2 & H1 & H2 & H3 & H4).
    destruct (internal_run ro' w' st' rng' t' ConstantTime Hw' Hst' Hc') as (t1' & g1' & rng1' & fm' & xi' & t2' & g2' & rng2' & H1' & H2' & H3' & H4').
    rewrite (proj1 (internal_form ro w st rng t ConstantTime tt _ _ _ _ _ _ _ _ Hc H1 H2 H3)).
    rewrite (proj1 (internal_form ro' w' st' rng' t' ConstantTime tt _ _ _ _ _ _ _ _ Hc' H1' H2' H3')).
    destruct (first_message_trace w w' st st' g1 g1' Hn Hm HG HM HM1 fm fm' H2 H2') as (Hf & HX & HX1 & HY & Hr & Hr1).
    rewrite Hf. clear Hf. f_equal.
    { apply checks_trace; [exact HM|exact HM1|]. rewrite Hc, Hc'. exact I. }
    f_equal.
    { unfold t_pt_new. cbn [leakage fst]. rewrite (rng_events_trace w w'). unfold absorbed.
      unfold st_get_hash. rewrite (gs_hash st Hg), (gs_hash st' Hg'), !(prf_length E L). reflexivity. }
    f_equal. rewrite !tret_tout_leak.
    destruct H4 as [[Hx Hy]|(xs & pf & Hx & Hp & Hy)]; destruct H4' as [[Hx' Hy']|(xs' & pf' & Hx' & Hp' & Hy')]; rewrite Hy, Hy' in Hres; try contradiction.
    + subst xi xi'. pose proof (gs_params st Hg) as Hgp. pose proof (good_m_u32 _ Hgp) as Hmu. pose proof (gp_m _ Hgp) as Hm2.
      assert (Hz0 : challenge_powers (get_m (st_get_params st)) s0 = Err InvalidChallenge).
      { unfold get_m, st_get_params. apply challenge_powers_zero; [lia|exact Hmu]. }
      rewrite <- Hm, Hz0. rewrite !app_nil_r.
      apply pt_commit_trace; [exact HX|exact HX1|exact HY|]. rewrite H3, H3', <- Hm, Hz0. cbn [fst]. cbv zeta. intros x x' Hz Hz'.
      symmetry in Hz, Hz'. apply (challenge_powers_err _ _ _ Hmu) in Hz. apply (challenge_powers_err _ _ _ Hmu) in Hz'.
      rewrite Hz, Hz'. reflexivity.
    + rewrite Hx, Hx'. f_equal.
      * apply pt_commit_trace; [exact HX|exact HX1|exact HY|]. rewrite H3, H3', <- Hm. cbn [fst]. cbv zeta. intros x x' Hz Hz'. rewrite <- Hm in Hx'.
        apply (challenge_powers_trace (get_m (st_get_params st)) x x' xs xs'); rewrite t_challenge_powers_erase; congruence.
      * assert (Hxs : same_len xs xs').
        { pose proof (challenge_powers_trace (E := E) (get_m (st_get_params st)) xi xi' xs xs') as H. rewrite !t_challenge_powers_erase in H.
          apply H; [exact Hx|]. rewrite Hm. exact Hx'. }
        exact (proj1 (response_trace _ _ (w_get_r w) (w_get_r w') (w_get_r1 w) (w_get_r1 w') fm fm' xs xs' Hn Hm Hr Hr1 Hxs pf pf' Hp Hp')).
  - exfalso. destruct (internal_refused ro' w' st' rng' t' ConstantTime e' Hc') as [_ Hv']. rewrite Hv' in Hres.
    destruct (internal_run ro w st rng t ConstantTime Hw Hst Hc) as (? & ? & ? & ? & ? & ? & ? & ? & _ & _ & _ & [[_ H4]|(? & ? & _ & _ & H4)]);
      rewrite H4 in Hres; cbn in Hres; [congruence|contradiction].
  - exfalso. destruct (internal_refused ro w st rng t ConstantTime e Hc) as [_ Hv]. rewrite Hv in Hres.
    destruct (internal_run ro' w' st' rng' t' ConstantTime Hw' Hst' Hc') as (? & ? & ? & ? & ? & ? & ? & ? & _ & _ & _ & [[_ H4]|(? & ? & _ & _ & H4)]);
      rewrite H4 in Hres; cbn in Hres; [congruence|contradiction].
  - destruct (internal_refused ro w st rng t ConstantTime e Hc) as [Ht Hv]. destruct (internal_refused ro' w' st' rng' t' ConstantTime e' Hc') as [Ht' Hv'].
    rewrite Ht, Ht'. rewrite Hv, Hv' in Hres. apply checks_trace; [exact HM|exact HM1|]. rewrite Hc, Hc'. exact Hres.
Qed.

End ParLeakRun.
